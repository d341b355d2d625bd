(** A normal distribution function exists, and its first consequences. *)
From Coq Require Import Reals Lra.
From Verif Require Import S_Math.
Open Scope R_scope.

Definition bell (x : R) : R := exp (- (x * x / 2)).

Lemma bell_pos x : 0 < bell x.
Proof. apply exp_pos. Qed.
Lemma bell_even x : bell (- x) = bell x.
Proof. unfold bell. f_equal. field. Qed.

Lemma bell_derivable x : derivable_pt_lim bell x (- x * bell x).
Proof.
  unfold bell. replace (- x * exp (- (x * x / 2))) with (exp (- (x * x / 2)) * (- x)) by ring.
  apply (derivable_pt_lim_comp (fun x => - (x * x / 2)) exp).
  - apply derivable_pt_lim_opp.
    apply (derivable_pt_lim_ext (fun y => / 2 * (y * y))); [intros; field|].
    assert (E : x = / 2 * (1 * x + x * 1)) by field.
    pose proof (derivable_pt_lim_scal (fun y => y * y) (/ 2) x (1 * x + x * 1)
                  (derivable_pt_lim_mult id id x 1 1 (derivable_pt_lim_id x) (derivable_pt_lim_id x))) as D.
    rewrite <- E in D. exact D.
  - apply derivable_pt_lim_exp.
Qed.

Lemma bell_continuous x : continuity_pt bell x.
Proof. apply derivable_continuous_pt. eexists. apply bell_derivable. Qed.

(** An antiderivative. *)
Lemma bell_integrable a b : Riemann_integrable bell a b.
Proof.
  destruct (Rle_lt_dec a b) as [H|H].
  - apply continuity_implies_RiemannInt; [exact H|]. intros; apply bell_continuous.
  - apply RiemannInt_P1. apply continuity_implies_RiemannInt; [lra|]. intros; apply bell_continuous.
Qed.

Definition area (x : R) : R := RiemannInt (bell_integrable 0 x).

Lemma area_derivable x : derivable_pt_lim area x (bell x).
Proof.
  set (a := - Rabs x - 1). set (b := Rabs x + 1).
  assert (Hx : a < x < b).
  { unfold a, b, Rabs. destruct Rcase_abs; lra. }
  assert (H0 : a < 0 < b) by (unfold a, b; pose proof (Rabs_pos x); lra).
  assert (h : a <= b) by lra.
  set (C := fun (y : R) (_ : a <= y <= b) => bell_continuous y).
  apply (derivable_pt_lim_locally_ext (fun y => primitive h (FTC_P1 h C) y - RiemannInt (bell_integrable a 0)) _ x a b);
    [exact Hx| |].
  - intros z (Z1 & Z2). unfold primitive, area. destruct (Rle_dec a z) as [R1|]; [|lra].
    destruct (Rle_dec z b) as [R2|]; [|lra].
    rewrite <- (RiemannInt_P26 (bell_integrable a 0) (bell_integrable 0 z) (FTC_P1 h C R1 R2)). ring.
  - replace (bell x) with (bell x - 0) by ring.
    apply derivable_pt_lim_minus; [apply RiemannInt_P28; lra|]. apply derivable_pt_lim_const.
Qed.

Lemma area_0 : area 0 = 0.
Proof. unfold area. apply RiemannInt_P9. Qed.

(** Functions with the same derivative differ by a constant. *)
Lemma same_derivative f g f' : (forall x, derivable_pt_lim f x (f' x)) -> (forall x, derivable_pt_lim g x (f' x)) ->
  forall x y, f x - g x = f y - g y.
Proof.
  intros F G. assert (K : forall x y, x < y -> f x - g x = f y - g y).
  { intros x y L. destruct (MVT_cor2 (fun t => f t - g t) (fun t => f' t - f' t) x y L) as (c & E & _).
    - intros c _. apply derivable_pt_lim_minus; auto.
    - cbn beta in E. lra. }
  intros x y. destruct (Rtotal_order x y) as [L|[->|L]]; [now apply K|reflexivity|symmetry; now apply K].
Qed.

Lemma area_odd x : area (- x) = - area x.
Proof.
  assert (A : forall y, derivable_pt_lim (fun z => - area (- z)) y (bell y)).
  { intros y. replace (bell y) with (- (bell (- y) * -1)) by (rewrite bell_even; ring).
    apply derivable_pt_lim_opp. apply (derivable_pt_lim_comp (fun z => - z) area).
    - apply (derivable_pt_lim_opp id). apply derivable_pt_lim_id.
    - apply area_derivable. }
  pose proof (same_derivative _ _ bell A area_derivable x 0) as E. cbn beta in E.
  rewrite Ropp_0, area_0 in E. lra.
Qed.

Lemma strictly_increasing f f' : (forall x, derivable_pt_lim f x (f' x)) -> (forall x, 0 < f' x) ->
  forall x y, x < y -> f x < f y.
Proof.
  intros F P x y L. destruct (MVT_cor2 f f' x y L) as (c & E & _); [auto|].
  specialize (P c). assert (0 < f' c * (y - x)) by (apply Rmult_lt_0_compat; lra). lra.
Qed.

Lemma area_increasing x y : x < y -> area x < area y.
Proof. apply (strictly_increasing area bell area_derivable bell_pos). Qed.

(** area(x) + exp(1/2 - x) * 1 is bounded: compare with exp(1/2 - x), since -x^2/2 <= 1/2 - x. *)
Lemma bell_le x : bell x <= exp (/ 2 - x).
Proof.
  unfold bell. destruct (Req_dec (- (x * x / 2)) (/ 2 - x)) as [->|NE]; [lra|].
  left. apply exp_increasing.
  assert (0 <= (x - 1) * (x - 1)) by (apply (Rle_0_sqr (x - 1))). nra.
Qed.

Lemma area_bounded x : 0 <= x -> area x <= exp (/ 2).
Proof.
  intros H. destruct (Req_dec x 0) as [->|NE].
  - rewrite area_0. left. apply exp_pos.
  - destruct (MVT_cor2 (fun t => area t + exp (/ 2 - t)) (fun t => bell t + exp (/ 2 - t) * -1) 0 x) as (c & E & _).
    + lra.
    + intros c _. apply derivable_pt_lim_plus; [apply area_derivable|].
      apply (derivable_pt_lim_comp (fun t => / 2 - t) exp).
      * replace (-1) with (0 - 1) by ring. apply derivable_pt_lim_minus; [apply derivable_pt_lim_const|apply derivable_pt_lim_id].
      * apply derivable_pt_lim_exp.
    + cbn beta in E. rewrite area_0, Rminus_0_r in E. pose proof (bell_le c). pose proof (exp_pos (/ 2 - x)).
      assert ((bell c + exp (/ 2 - c) * -1) * (x - 0) <= 0) by nra. lra.
Qed.

(** The limit of the area. *)
Lemma area_limit : exists L, 0 < L /\ (forall x, area x < L) /\ forall eps, 0 < eps -> exists M, forall x, M <= x -> L - eps < area x.
Proof.
  destruct (completeness (fun y => exists x, 0 <= x /\ y = area x)) as (L & U & Lub).
  - exists (exp (/ 2)). intros y (x & H & ->). now apply area_bounded.
  - exists (area 0), 0. split; [lra|reflexivity].
  - assert (Up : forall x, area x < L).
    { intros x. set (z := Rmax x 0 + 1).
      assert (Hz : x < z /\ 0 <= z) by (unfold z; pose proof (Rmax_l x 0); pose proof (Rmax_r x 0); lra).
      apply Rlt_le_trans with (area z); [now apply area_increasing|]. apply U. exists z. tauto. }
    exists L. split; [rewrite <- area_0; apply Up|]. split; [exact Up|].
    intros eps He. destruct (Classical_Prop.classic (exists x, 0 <= x /\ L - eps < area x)) as [(x & Hx & Lx)|N].
    + exists x. intros y Hy. destruct (Req_dec x y) as [->|NE]; [exact Lx|].
      apply Rlt_trans with (area x); [exact Lx|]. apply area_increasing. lra.
    + exfalso. assert (L <= L - eps).
      { apply Lub. intros y (x & Hx & ->). destruct (Rle_lt_dec (area x) (L - eps)) as [K|K]; [exact K|].
        elim N. exists x. tauto. }
      lra.
Qed.

Lemma normal_cdf_exists : exists N, normal_cdf N.
Proof.
  destruct area_limit as (L & Lp & Up & Lim). exists (fun x => / 2 + / (2 * L) * area x).
  assert (K : 0 < / (2 * L)) by (apply Rinv_0_lt_compat; lra).
  split.
  - exists (/ (2 * L)). split; [exact K|]. intros x.
    replace (/ (2 * L) * exp (- (x * x / 2))) with (0 + / (2 * L) * bell x) by (unfold bell; ring).
    apply derivable_pt_lim_plus; [apply derivable_pt_lim_const|]. apply derivable_pt_lim_scal. apply area_derivable.
  - intros eps He. destruct (Lim (2 * L * eps)) as (M & HM); [apply Rmult_lt_0_compat; lra|].
    exists (- M). intros x Hx. specialize (HM (- x) ltac:(lra)). rewrite area_odd in HM.
    pose proof (Up (- x)) as U. rewrite area_odd in U.
    replace (/ 2 + / (2 * L) * area x) with (/ (2 * L) * (L + area x)) by (field; lra).
    rewrite Rabs_right.
    + apply (Rmult_lt_reg_l (2 * L)); [lra|]. rewrite <- Rmult_assoc, Rinv_r by lra. lra.
    + apply Rle_ge, Rmult_le_pos; lra.
  - intros x. rewrite area_odd. field. lra.
Qed.

Section Cdf.
  Variable N : R -> R.
  Hypothesis HN : normal_cdf N.

  Lemma cdf_increasing x y : x < y -> N x < N y.
  Proof.
    destruct (nc_density N HN) as (k & K & D).
    apply (strictly_increasing N (fun x => k * exp (- (x * x / 2))) D).
    intros z. apply Rmult_lt_0_compat; [exact K|apply exp_pos].
  Qed.

  Lemma cdf_pos x : 0 < N x.
  Proof.
    destruct (Rlt_le_dec 0 (N x)) as [H|H]; [exact H|exfalso].
    pose proof (cdf_increasing (x - 1) x ltac:(lra)) as I.
    destruct (nc_tail N HN (- N (x - 1)) ltac:(lra)) as (M & T).
    set (z := Rmin M (x - 1)).
    assert (N z <= N (x - 1)).
    { unfold z, Rmin. destruct Rle_dec; [|lra]. destruct (Req_dec M (x - 1)) as [->|]; [lra|].
      left. apply cdf_increasing. lra. }
    assert (A := T z (Rmin_l _ _)). unfold Rabs in A. destruct Rcase_abs; lra.
  Qed.

  Lemma cdf_lt_1 x : N x < 1.
  Proof. pose proof (cdf_pos (- x)) as P. rewrite (nc_symmetric N HN) in P. lra. Qed.
End Cdf.
