(** Counterexamples and concrete cases for P_Math. *)
From Coq Require Import ZArith List String Bool Lia Reals Lra.
From Coq.Floats Require Import SpecFloat.
From Verif Require Import Prelude Num L_Num M_Brent M_Black76 S_Math L_Brent L_Normal L_Black76.
Import ListNotations.
Open Scope list_scope.
Open Scope R_scope.

(** The root of 2x - 1 on [0, 1]. *)
Definition line (x : R) : res R := Ok (2 * x - 1).

Lemma line_solved nan : zbrent _ (logged line) nan 0 1 (/ 1000) 2 [] = (Ok (/ 2), [/ 2; 1; 0]).
Proof.
  unfold zbrent, logged at 1 2. unfold line at 1 2.
  replace (same_sign _ _) with false by (symmetry; apply same_sign_false; lra).
  replace (2 * 0 - 1) with (-1) by ring. replace (2 * 1 - 1) with 1 by ring.
  cbn [brent_loop].
  assert (SS : same_sign 1 1 = true) by (apply same_sign_iff; lra).
  assert (P1 : brent_prepare (mkBrent 0 1 1 nan nan (-1) 1 1) = mkBrent 0 1 0 (1 - 0) (1 - 0) (-1) 1 (-1)).
  { unfold brent_prepare, rebracket, rotate. cbn [ba bb bc bd be bfa bfb bfc]. rewrite SS. cbn [ba bb bc bd be bfa bfb bfc].
    rnum. rewrite (Rabs_right 1) by lra. rewrite (Rabs_left (-1)) by lra. rcase; [lra|reflexivity]. }
  rewrite P1. set (s := mkBrent 0 1 0 _ _ _ _ _). unfold brent_tol, brent_xm, brent_de, epsilon.
  cbn [ba bb bc bd be bfa bfb bfc s]. rnum.
  replace (1 / 2 * (0 - 1)) with (- / 2) by lra.
  rewrite (Rabs_left (- / 2)) by lra. rewrite (Rabs_right 1) by lra. rewrite (Rabs_left (-1)) by lra.
  replace (1 - 0) with 1 by ring. rewrite (Rabs_right 1) by lra.
  set (t := 2 * (1 / 4503599627370496) * 1 + 1 / 2 * / 1000). assert (T : 0 < t < / 1000) by (unfold t; lra).
  rcase; [lra|]. rcase; [lra|]. cbn [orb]. rcase; [|lra]. rcase; [lra|]. cbn [andb].
  unfold brent_trial, brent_xm. cbn [ba bb bc bd be bfa bfb bfc s]. rnum.
  replace (1 / 2 * (0 - 1)) with (- / 2) by lra. rewrite (Rabs_left (- / 2)) by lra. rcase; [|lra].
  unfold logged, line. replace (1 + - / 2) with (/ 2) by lra. replace (2 * / 2 - 1) with 0 by lra.
  unfold brent_prepare, rebracket. cbn [ba bb bc bd be bfa bfb bfc].
  replace (same_sign 0 (-1)) with false by (symmetry; apply same_sign_false; lra).
  unfold rotate. cbn [ba bb bc bd be bfa bfb bfc]. rnum. rewrite Rabs_R0. rcase; [unfold Rabs in *; destruct Rcase_abs; lra|].
  cbn [ba bb bc bd be bfa bfb bfc]. rewrite Reqb_refl, orb_true_r. reflexivity.
Qed.

(** At the money with no variance: 0/0. *)
Lemma d_at_the_money : d_plus_minus n0 n0 = (F_nan, F_nan).
Proof. vm_compute. reflexivity. Qed.

Lemma logistic_bounded : exists N : R -> R, (forall x, 0 <= N x <= 1) /\ (forall x, N (- x) = 1 - N x).
Proof. exists (fun _ => / 2). split; intros; lra. Qed.

Lemma search_stays tol (s : brent R) : 0 <= tol ->
  let tol1 := brent_tol tol s in
  tol1 < Rabs (brent_xm s) -> Rabs (tol1 - snd (brent_pq s)) <= 4 / 3 ->
  let trial := brent_trial tol1 (fst (brent_de tol1 s)) s in
  strictly_between (bb s) (bc s) trial \/ trial = bb s.
Proof. exact (trial_between tol s). Qed.
