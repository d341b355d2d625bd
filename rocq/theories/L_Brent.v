(** Root finding: what a returned value means, and where the trials go. *)
From Coq Require Import ZArith List String Bool Lia Reals Lra.
From Verif Require Import Prelude Num L_Num M_Brent S_Math.
Import ListNotations.
Open Scope R_scope.

Lemma same_sign_iff (x y : R) : same_sign x y = true <-> (0 < x /\ 0 < y) \/ (x < 0 /\ y < 0).
Proof.
  unfold same_sign. rnum. rewrite orb_true_iff, !andb_true_iff, !Rltb_iff. tauto.
Qed.
Lemma same_sign_false (x y : R) : same_sign x y = false <-> x * y <= 0.
Proof.
  rewrite <- not_true_iff_false, same_sign_iff. split; intros K.
  - destruct (Rlt_dec 0 x), (Rlt_dec 0 y), (Rlt_dec x 0), (Rlt_dec y 0); try (exfalso; tauto); nra.
  - intros [(A & B)|(A & B)]; nra.
Qed.

(** The three points carry their own function values, and a root is bracketed. *)
Definition consistent (f : R -> res R) (log : list R) (s : brent R) : Prop :=
  (f (ba s) = Ok (bfa s) /\ In (ba s) log) /\ (f (bb s) = Ok (bfb s) /\ In (bb s) log) /\
  (f (bc s) = Ok (bfc s) /\ In (bc s) log).
Definition loop_inv (f : R -> res R) (log : list R) (s : brent R) : Prop :=
  consistent f log s /\ (same_sign (bfb s) (bfc s) = true -> bfa s * bfb s <= 0).

Lemma prepare_inv f log s : loop_inv f log s ->
  consistent f log (brent_prepare s) /\ bfb (brent_prepare s) * bfc (brent_prepare s) <= 0.
Proof.
  intros ((A & B & C) & O). unfold brent_prepare, rebracket, rotate.
  destruct (same_sign (bfb s) (bfc s)) eqn:E.
  - specialize (O eq_refl). cbn [ba bb bc bd be bfa bfb bfc].
    destruct nltb; cbn [ba bb bc bd be bfa bfb bfc]; (split; [unfold consistent; cbn; tauto|lra]).
  - apply same_sign_false in E. destruct nltb; cbn [ba bb bc bd be bfa bfb bfc];
      (split; [unfold consistent; cbn; tauto|lra]).
Qed.

Lemma brent_loop_ok f tol n : forall s b log log', loop_inv f log s ->
  brent_loop _ (logged f) tol n s log = (Ok b, log') -> enclosed f tol b log'.
Proof.
  induction n as [|n IH]; intros s b log log' I E; [discriminate|]. cbn [brent_loop] in E.
  destruct (prepare_inv f log s I) as ((A & B & C) & O). set (s1 := brent_prepare s) in *.
  destruct ((nabs (brent_xm s1) <=? brent_tol tol s1)%num || (bfb s1 =? n0)%num) eqn:T.
  - inversion E; subst b log'. exists (bfb s1). split; [apply B|]. split; [apply B|].
    apply orb_true_iff in T. destruct T as [T|T].
    + right. exists (bc s1), (bfc s1). split; [apply C|]. split; [apply C|]. split; [exact O|].
      unfold brent_xm, brent_tol, epsilon in T. rnum. apply Rleb_iff in T.
      rewrite Rabs_mult in T. rewrite (Rabs_right (1 / 2)) in T by lra. lra.
    + left. rnum. now apply Reqb_iff in T.
  - apply orb_false_iff in T. destruct T as (_ & T). rnum. apply Reqb_false in T.
    destruct (brent_de (brent_tol tol s1) s1) as (d, e). unfold logged at 1 in E.
    destruct (f (brent_trial (brent_tol tol s1) d s1)) as [y| |] eqn:F; try discriminate.
    apply IH in E; [exact E|]. split.
    + unfold consistent; cbn [ba bb bc bfa bfb bfc In]. tauto.
    + cbn [bfa bfb bfc]. intros SS. apply same_sign_iff in SS. destruct SS as [(P & Q)|(P & Q)]; nra.
Qed.

Lemma zbrent_enclosed nan x1 x2 tol n f b log : zbrent _ (logged f) nan x1 x2 tol n [] = (Ok b, log) -> enclosed f tol b log.
Proof.
  unfold zbrent, logged at 1 2. destruct (f x1) as [fa| |] eqn:A; try discriminate.
  destruct (f x2) as [fb| |] eqn:B; try discriminate. destruct (same_sign fa fb) eqn:S; [discriminate|].
  intros E. apply brent_loop_ok in E; [exact E|]. split; [unfold consistent; cbn; tauto|].
  intros _. cbn. now apply same_sign_false.
Qed.

(** With a continuous function there is a root within the tolerance of the answer. *)
Lemma zbrent_root nan x1 x2 tol n f g b log : (forall x, f x = Ok (g x)) -> continuity g ->
  zbrent _ (logged f) nan x1 x2 tol n [] = (Ok b, log) ->
  exists z, g z = 0 /\ Rabs (z - b) <= 4 * / 4503599627370496 * Rabs b + Rabs tol.
Proof.
  intros F C E. destruct (zbrent_enclosed _ _ _ _ _ _ _ _ E) as (fb & Eb & _ & K).
  rewrite F in Eb. inversion Eb; subst fb.
  assert (T0 : tol <= Rabs tol) by apply Rle_abs.
  destruct K as [K|(c & fc & Ec & _ & O & D)].
  - exists b. split; [exact K|]. rewrite Rminus_diag_eq, Rabs_R0 by reflexivity.
    pose proof (Rabs_pos b). pose proof (Rabs_pos tol).
    assert (0 <= / 4503599627370496 * Rabs b).
    { apply Rmult_le_pos; [|assumption]. apply Rlt_le, Rinv_0_lt_compat. lra. } nra.
  - rewrite F in Ec. inversion Ec; subst fc.
    assert (exists z, g z = 0 /\ Rabs (z - b) <= Rabs (c - b)) as (z & Z & Dz).
    { destruct (Rle_lt_dec b c) as [BC|BC].
      - destruct (IVT_cor g b c C BC O) as (z & (Z1 & Z2) & Z). exists z. split; [exact Z|].
        rewrite !Rabs_right; lra.
      - assert (O' : g c * g b <= 0) by lra.
        destruct (IVT_cor g c b C (Rlt_le _ _ BC) O') as (z & (Z1 & Z2) & Z). exists z. split; [exact Z|].
        rewrite !Rabs_left1; lra. }
    exists z. split; [exact Z|]. lra.
Qed.

(** The ways to fail. *)
Lemma zbrent_unbracketed nan x1 x2 tol n (f : R -> res R) fa fb : f x1 = Ok fa -> f x2 = Ok fb -> fa * fb > 0 ->
  exists m, zbrent _ (logged f) nan x1 x2 tol n [] = (Err m, [x2; x1]).
Proof.
  intros A B P. unfold zbrent, logged. rewrite A, B.
  destruct (same_sign fa fb) eqn:S; [eauto|]. apply same_sign_false in S. lra.
Qed.

Lemma brent_loop_outcome {T} `{Num T} (f : T -> res T) tol n : forall s log r log',
  (forall x, In x log -> exists y, f x = Ok y) ->
  brent_loop _ (logged f) tol n s log = (r, log') ->
  (List.length log' <= n + List.length log)%nat /\ outcome_of f r log'.
Proof.
  induction n as [|n IH]; intros s log r log' A E; cbn [brent_loop] in E.
  - inversion E; subst. split; [cbn; lia|]. cbn. tauto.
  - destruct orb.
    + inversion E; subst. split; [lia|exact A].
    + destruct brent_de as (d, e). unfold logged at 1 in E.
      match type of E with context [f ?x] => set (b := x) in * end.
      destruct (f b) as [y|m|m] eqn:F.
      * apply IH in E.
        -- destruct E as (E1 & E2). split; [cbn [List.length] in E1; lia|exact E2].
        -- intros x [<-|I]; eauto.
      * inversion E; subst. split; [cbn; lia|]. left. exists b, log. auto.
      * inversion E; subst. split; [cbn; lia|]. left. exists b, log. auto.
Qed.

Lemma zbrent_outcome {T} `{Num T} (f : T -> res T) nan x1 x2 tol n r log :
  zbrent _ (logged f) nan x1 x2 tol n [] = (r, log) -> (List.length log <= n + 2)%nat /\ outcome_of f r log.
Proof.
  unfold zbrent, logged at 1 2. intros E.
  destruct (f x1) as [fa|m|m] eqn:A.
  - destruct (f x2) as [fb|m|m] eqn:B.
    + destruct (same_sign fa fb).
      * inversion E; subst. split; [cbn; lia|]. right. now right.
      * apply brent_loop_outcome in E.
        -- destruct E as (E1 & E2). cbn [List.length] in E1. split; [lia|exact E2].
        -- intros x [<-|[<-|[]]]; eauto.
    + inversion E; subst. split; [cbn; lia|]. left. exists x2, [x1]. split; [reflexivity|]. split; [exact B|].
      intros z [<-|[]]; eauto.
    + inversion E; subst. split; [cbn; lia|]. left. exists x2, [x1]. split; [reflexivity|]. split; [exact B|].
      intros z [<-|[]]; eauto.
  - inversion E; subst. split; [cbn; lia|]. left. exists x1, []. split; [reflexivity|]. split; [exact A|easy].
  - inversion E; subst. split; [cbn; lia|]. left. exists x1, []. split; [reflexivity|]. split; [exact A|easy].
Qed.

(** ** Trials *)

Lemma de_range tol1 (s : brent R) : Rabs (tol1 - snd (brent_pq s)) <= 4 / 3 ->
  let d := fst (brent_de tol1 s) in let xm := brent_xm s in
  d = xm \/ d = 0 \/ (0 < d < 2 * xm) \/ (2 * xm < d < 0).
Proof.
  intros Hq. cbv zeta. unfold brent_de. destruct (brent_pq s) as (p, q) eqn:PQ. cbn [snd] in Hq.
  assert (Pp : 0 <= p).
  { unfold brent_pq in PQ. destruct (brent_pq0 s) as (p0, q0). inversion PQ. rnum. apply Rabs_pos. }
  set (xm := brent_xm s). destruct andb; [|now left].
  destruct (nofZ 2 * p <? nmin (nofZ 3 * xm * q * nabs (tol1 - q)) (nabs (be s * q)))%num eqn:M; [|now left].
  right. cbn [fst]. rnum. apply Rltb_iff in M.
  assert (M1 : 2 * p < 3 * xm * q * Rabs (tol1 - q)).
  { unfold nmin in M. rnum. rewrite (proj2 (Reqb_iff (3 * xm * q * Rabs (tol1 - q)) _) eq_refl) in M. destruct (Rltb_spec (Rabs (be s * q)) (3 * xm * q * Rabs (tol1 - q))); lra. }
  assert (A0 : 0 <= Rabs (tol1 - q)) by apply Rabs_pos.
  assert (XQ : 0 < xm * q) by nra.
  assert (M2 : p < 2 * (xm * q)) by nra.
  assert (q <> 0) by nra.
  assert (Pq : p / q * q = p) by (field; assumption).
  destruct (Req_dec p 0) as [Z|Z]; [left; rewrite Z; unfold Rdiv; ring|right].
  set (d := p / q) in *. destruct (Rlt_dec 0 q).
  - left. split; nra.
  - right. split; nra.
Qed.

Lemma trial_between tol (s : brent R) : 0 <= tol -> let tol1 := brent_tol tol s in
  tol1 < Rabs (brent_xm s) ->
  Rabs (tol1 - snd (brent_pq s)) <= 4 / 3 ->
  strictly_between (bb s) (bc s) (brent_trial tol1 (fst (brent_de tol1 s)) s) \/
  brent_trial tol1 (fst (brent_de tol1 s)) s = bb s.
Proof.
  intros Ht tol1 Hx Hq. pose proof (de_range tol1 s Hq) as R. cbv zeta in R.
  assert (T0 : 0 <= tol1).
  { unfold tol1, brent_tol, epsilon. rnum. pose proof (Rabs_pos (bb s)).
    assert (0 <= 2 * (1 / 4503599627370496) * Rabs (bb s)) by (apply Rmult_le_pos; lra). lra. }
  assert (XM : bc s = bb s + 2 * brent_xm s) by (unfold brent_xm; rnum; lra).
  unfold brent_trial. set (d := fst (brent_de tol1 s)) in *. set (xm := brent_xm s) in *.
  unfold strictly_between. rewrite XM. rnum. rcase.
  - unfold Rabs in *. destruct (Rcase_abs xm), (Rcase_abs d); lra.
  - rewrite (Rabs_right tol1) by lra. unfold signum. rnum. rewrite (proj2 (Reqb_iff xm xm) eq_refl).
    unfold Rabs in Hx. destruct (Rltb_spec xm 0); destruct (Rcase_abs xm); lra.
Qed.

(** ** A function for which the trials leave the bracket *)

Definition F_of (n : Z) (m : positive) : F64 := nlit n (Zpos m).

(** Defined on [0, 1] only, decreasing, and bracketing its only change of sign. *)
Definition fence (x : F64) : res F64 :=
  if negb ((n0 <=? x)%num && (x <=? n1)%num) then Err "outside the bracket"%string
  else if (x <? F_of 1 32)%num then Ok (nofZ 100)
  else if (x <? F_of 1 4)%num then Ok (nofZ (-8))
  else if (x <? F_of 3 4)%num then Ok (nofZ (-57))
  else Ok (nofZ (-95)).

Lemma fence_inside x : nleb n0 x = true -> nleb x n1 = true -> exists y, fence x = Ok y.
Proof.
  intros A B. unfold fence. rewrite A, B. cbn [andb negb]. repeat (destruct nltb; [eauto|]). eauto.
Qed.

Lemma fence_escapes : fst (zbrent _ (logged fence) F_nan n0 n1 (F_of 1 10000000000) 100 []) = Err "outside the bracket"%string.
Proof. vm_compute. reflexivity. Qed.
