(** Rounding errors of the operations, and of linear interpolation. *)
From Coq Require Import ZArith Reals Lra Lia Bool.
From Coq.Floats Require Import SpecFloat.
From Flocq Require Import Core BinarySingleNaN Relative Plus_error.
From Verif Require Import Prelude Num M_Interp S_Double L_Double.
Open Scope R_scope.

#[local] Instance Hprec : FLX.Prec_gt_0 53 := eq_refl _.
#[local] Instance Hmax : Prec_lt_emax 53 1024 := eq_refl _.

(** Half a unit in the last place of 1, and half the smallest positive double. *)
Definition uu : R := bpow radix2 (-53).
Definition tiny : R := bpow radix2 (-1075).

Lemma uu_small : 0 < uu <= / 9007199254740992.
Proof. unfold uu. split; [apply bpow_gt_0|]. cbn. lra. Qed.
Lemma tiny_small : 0 < tiny <= uu / 1000.
Proof.
  unfold tiny, uu. split; [apply bpow_gt_0|]. apply Rle_trans with (bpow radix2 (-53 + -10)).
  - apply bpow_le. lia.
  - rewrite bpow_plus. assert (0 < bpow radix2 (-53)) by apply bpow_gt_0. cbn [bpow Z.pow_pos Pos.iter radix_val radix2]. cbn. unfold Rdiv. apply Rmult_le_compat_l; [|lra]. lra.
Qed.

Lemma rnd_error x : exists e h, Rabs e <= uu /\ Rabs h <= tiny /\ rnd x = x * (1 + e) + h.
Proof.
  destruct (error_N_FLT radix2 (-1074) 53 eq_refl (fun z => negb (Z.even z)) x) as (e & h & E & H & _ & R).
  exists e, h. split; [|split; [|exact R]].
  - eapply Rle_trans; [exact E|]. unfold uu. change (/ 2) with (bpow radix2 (-1)). rewrite <- bpow_plus. right. reflexivity.
  - eapply Rle_trans; [exact H|]. unfold tiny. change (/ 2) with (bpow radix2 (-1)). rewrite <- bpow_plus. right. reflexivity.
Qed.

Lemma finite_format x : finite x -> generic_format radix2 (FLT_exp (-1074) 53) (real x).
Proof. intros F. destruct (finite_B x F) as (b & <- & _ & <-). rewrite <- fexp_eq. apply generic_format_B2R. Qed.

(** Sums and differences have no error from underflow. *)
Lemma rnd_sum_error x y : generic_format radix2 (FLT_exp (-1074) 53) x -> generic_format radix2 (FLT_exp (-1074) 53) y ->
  exists e, Rabs e <= uu /\ rnd (x + y) = (x + y) * (1 + e).
Proof.
  intros X Y. destruct (FLT_plus_error_N_ex radix2 (-1074) 53 (fun z => negb (Z.even z)) x y X Y) as (e & E & R).
  exists e. split; [|exact R]. eapply Rle_trans; [exact E|]. eapply Rle_trans; [apply u_rod1pu_ro_le_u_ro|].
  unfold u_ro, uu. change (/ 2) with (bpow radix2 (-1)). rewrite <- bpow_plus. right. reflexivity.
Qed.
Lemma rnd_diff_error x y : generic_format radix2 (FLT_exp (-1074) 53) x -> generic_format radix2 (FLT_exp (-1074) 53) y ->
  exists e, Rabs e <= uu /\ rnd (x - y) = (x - y) * (1 + e).
Proof. intros X Y. apply rnd_sum_error; [exact X|now apply generic_format_opp]. Qed.

(** Powers of two bound roundings. *)
Lemma rnd_bound x k : (-1000 <= k <= 1023)%Z -> Rabs x <= bpow radix2 k -> Rabs (rnd x) <= bpow radix2 k.
Proof.
  intros K A. apply abs_round_le_generic; [apply FLT_exp_valid; reflexivity|apply valid_rnd_N| |exact A].
  apply generic_format_bpow. unfold FLT_exp. lia.
Qed.
Lemma bound_in_range x k : (-1000 <= k <= 1023)%Z -> Rabs x <= bpow radix2 k -> in_range x.
Proof. intros K A. unfold in_range. eapply Rle_lt_trans; [apply (rnd_bound x k K A)|]. apply bpow_lt. lia. Qed.

Lemma rnd_1 : rnd 1 = 1.
Proof. apply round_generic; [apply valid_rnd_N|]. change 1 with (bpow radix2 0). apply generic_format_bpow. unfold FLT_exp. lia. Qed.
Lemma rnd_unit x : 0 <= x <= 1 -> 0 <= rnd x <= 1.
Proof. intros [A B]. split; [rewrite <- rnd_0|rewrite <- rnd_1]; now apply rnd_le. Qed.

Lemma one_spec : finite n1 /\ real n1 = 1.
Proof. apply (ofZ_exact 1). cbn. lia. Qed.

Lemma abs_mult_le a b A B : Rabs a <= A -> Rabs b <= B -> Rabs (a * b) <= A * B.
Proof. intros. rewrite Rabs_mult. apply Rmult_le_compat; auto using Rabs_pos. Qed.

Section Lerp.
  Variables (y0 y1 d0 d : F64) (a b M : R).
  Hypotheses (F0 : finite y0) (F1 : finite y1) (Fd0 : finite d0) (Fd : finite d).
  Hypotheses (B0 : Rabs (real y0) <= M) (B1 : Rabs (real y1) <= M) (BM : M <= bpow radix2 1000).
  Hypotheses (A : 0 <= a) (AB : a <= b) (Bpos : 0 < b) (R0 : real d0 = rnd a) (R1 : real d = rnd b) (Pd : 0 < real d).
  Hypothesis E0 : exists e, Rabs e <= uu /\ rnd a = a * (1 + e).
  Hypothesis E1 : exists e, Rabs e <= uu /\ rnd b = b * (1 + e).

  Lemma quotient_spec : finite (ndiv d0 d) /\ 0 <= real (ndiv d0 d) <= 1 /\
    Rabs (real (ndiv d0 d) - a / b) <= 35 / 10 * uu + tiny.
  Proof.
    assert (Q : 0 <= real d0 / real d <= 1).
    { assert (0 <= real d0) by (rewrite R0, <- rnd_0; now apply rnd_le).
      assert (real d0 <= real d) by (rewrite R0, R1; now apply rnd_le).
      split; [apply Rmult_le_pos; [lra|left; now apply Rinv_0_lt_compat]|]. apply (Rmult_le_reg_r (real d)); [exact Pd|]. field_simplify; lra. }
    assert (IR : in_range (real d0 / real d)). { apply (bound_in_range _ 0); [lia|]. rewrite Rabs_right by lra. change (bpow radix2 0) with 1. lra. }
    destruct (div_spec d0 d Fd0 Fd ltac:(lra) IR) as [F R]. split; [exact F|]. rewrite R. split; [now apply rnd_unit|].
    destruct E0 as (e0 & H0 & X0), E1 as (e1 & H1 & X1). destruct (rnd_error (real d0 / real d)) as (e & h & H & Hh & X). rewrite X.
    pose proof uu_small as [U1 U2].
    assert (T : 0 <= a / b <= 1).
    { split; [apply Rmult_le_pos; [lra|left; now apply Rinv_0_lt_compat]|]. apply (Rmult_le_reg_r b); [exact Bpos|]. field_simplify; lra. }
    assert (D : Rabs (real d0 / real d - a / b) <= 25 / 10 * uu).
    { rewrite R0, R1, X0, X1.
      assert (P1 : 0 < 1 + e1) by (apply Rabs_le_inv in H1; lra).
      replace (a * (1 + e0) / (b * (1 + e1)) - a / b) with ((a / b) * ((e0 - e1) / (1 + e1))) by (field; lra).
      replace (25 / 10 * uu) with (1 * (25 / 10 * uu)) by ring. apply abs_mult_le; [rewrite Rabs_right by lra; lra|].
      unfold Rdiv. rewrite Rabs_mult, Rabs_inv, (Rabs_right (1 + e1)) by lra. apply (Rmult_le_reg_r (1 + e1)); [exact P1|].
      rewrite Rmult_assoc, Rinv_l, Rmult_1_r by lra.
      apply Rabs_le_inv in H1. apply Rabs_le_inv in H0. apply Rabs_le.
      assert (25 * / 10 * uu * (1 + e1) >= 2 * uu) by nra. lra. }
    replace (real d0 / real d * (1 + e) + h - a / b) with ((real d0 / real d - a / b) + (real d0 / real d * e) + h) by ring.
    eapply Rle_trans; [apply Rabs_triang|]. apply Rplus_le_compat; [|exact Hh].
    eapply Rle_trans; [apply Rabs_triang|].
    assert (Rabs (real d0 / real d * e) <= 1 * uu) by (apply abs_mult_le; [rewrite Rabs_right; lra|exact H]). lra.
  Qed.

  Lemma lerp_spec : let y := lerp y0 y1 (ndiv d0 d) in
    finite y /\ Rabs (real y - (real y0 + (real y1 - real y0) * (a / b))) <= bpow radix2 (-49) * M + bpow radix2 (-1073) /\
    (0 <= real y0 -> 0 <= real y1 -> 0 <= real y) /\ (real y0 <= 0 -> real y1 <= 0 -> real y <= 0).
  Proof.
    destruct quotient_spec as (Ft & Ut & Et). set (t := ndiv d0 d) in *. cbv zeta. unfold lerp.
    destruct one_spec as (F1' & R1').
    assert (BMpos : 0 <= M) by (eapply Rle_trans; [apply Rabs_pos|exact B0]).
    assert (S1 : finite (nsub n1 t) /\ real (nsub n1 t) = rnd (1 - real t)).
    { rewrite <- R1'. apply sub_spec; auto. rewrite R1'. apply (bound_in_range _ 0); [lia|]. rewrite Rabs_right by lra. change (bpow radix2 0) with 1. lra. }
    destruct S1 as (Fs & Rs). set (s := nsub n1 t) in *. clearbody s.
    assert (Us : 0 <= real s <= 1) by (rewrite Rs; apply rnd_unit; lra).
    assert (Es : exists e, Rabs e <= uu /\ real s = (1 - real t) * (1 + e)).
    { rewrite Rs. apply rnd_diff_error; [rewrite <- R1'; now apply finite_format|now apply finite_format]. }
    assert (M0 : finite (nmul y0 s) /\ real (nmul y0 s) = rnd (real y0 * real s)).
    { apply mul_spec; auto. apply (bound_in_range _ 1000); [lia|]. replace (bpow radix2 1000) with (bpow radix2 1000 * 1) by ring.
      apply abs_mult_le; [lra|rewrite Rabs_right; lra]. }
    assert (M1 : finite (nmul y1 t) /\ real (nmul y1 t) = rnd (real y1 * real t)).
    { apply mul_spec; auto. apply (bound_in_range _ 1000); [lia|]. replace (bpow radix2 1000) with (bpow radix2 1000 * 1) by ring.
      apply abs_mult_le; [lra|rewrite Rabs_right; lra]. }
    destruct M0 as (Fm0 & Rm0), M1 as (Fm1 & Rm1).
    assert (Bm0 : Rabs (real (nmul y0 s)) <= bpow radix2 1000).
    { rewrite Rm0. apply rnd_bound; [lia|]. replace (bpow radix2 1000) with (bpow radix2 1000 * 1) by ring.
      apply abs_mult_le; [lra|rewrite Rabs_right; lra]. }
    assert (Bm1 : Rabs (real (nmul y1 t)) <= bpow radix2 1000).
    { rewrite Rm1. apply rnd_bound; [lia|]. replace (bpow radix2 1000) with (bpow radix2 1000 * 1) by ring.
      apply abs_mult_le; [lra|rewrite Rabs_right; lra]. }
    set (m0 := nmul y0 s) in *. set (m1 := nmul y1 t) in *.
    assert (Sum : finite (nadd m0 m1) /\ real (nadd m0 m1) = rnd (real m0 + real m1)).
    { apply add_spec; auto. apply (bound_in_range _ 1001); [lia|]. eapply Rle_trans; [apply Rabs_triang|].
      change 1001%Z with (1 + 1000)%Z. rewrite bpow_plus. change (bpow radix2 1) with 2. lra. }
    destruct Sum as (Fr & Rr). split; [exact Fr|]. split; [|split].
    - destruct (rnd_sum_error (real m0) (real m1)) as (e7 & H7 & X7); [now apply finite_format..|]. rewrite Rr, X7.
      destruct (rnd_error (real y0 * real s)) as (e5 & h5 & H5 & G5 & X5). destruct (rnd_error (real y1 * real t)) as (e6 & h6 & H6 & G6 & X6).
      destruct Es as (e4 & H4 & X4). pose proof uu_small as [U1 U2]. pose proof tiny_small as [T1 T2].
      assert (T : 0 <= a / b <= 1).
      { split; [apply Rmult_le_pos; [lra|left; now apply Rinv_0_lt_compat]|]. apply (Rmult_le_reg_r b); [exact Bpos|]. field_simplify; lra. }
      set (tau := a / b) in *.
      assert (Ds : Rabs (real s - (1 - tau)) <= 45 / 10 * uu + tiny).
      { rewrite X4. replace ((1 - real t) * (1 + e4) - (1 - tau)) with (- (real t - tau) + (1 - real t) * e4) by ring.
        eapply Rle_trans; [apply Rabs_triang|]. rewrite Rabs_Ropp.
        assert (Rabs ((1 - real t) * e4) <= 1 * uu) by (apply abs_mult_le; [rewrite Rabs_right; lra|exact H4]). lra. }
      assert (D0 : Rabs (real m0 - real y0 * (1 - tau)) <= M * (55 / 10 * uu + tiny) + tiny).
      { rewrite Rm0, X5. replace (real y0 * real s * (1 + e5) + h5 - real y0 * (1 - tau)) with (real y0 * ((real s - (1 - tau)) + real s * e5) + h5) by ring.
        eapply Rle_trans; [apply Rabs_triang|]. apply Rplus_le_compat; [|exact G5]. apply abs_mult_le; [exact B0|].
        eapply Rle_trans; [apply Rabs_triang|].
        assert (Rabs (real s * e5) <= 1 * uu) by (apply abs_mult_le; [rewrite Rabs_right; lra|exact H5]). lra. }
      assert (D1 : Rabs (real m1 - real y1 * tau) <= M * (45 / 10 * uu + tiny) + tiny).
      { rewrite Rm1, X6. replace (real y1 * real t * (1 + e6) + h6 - real y1 * tau) with (real y1 * ((real t - tau) + real t * e6) + h6) by ring.
        eapply Rle_trans; [apply Rabs_triang|]. apply Rplus_le_compat; [|exact G6]. apply abs_mult_le; [exact B1|].
        eapply Rle_trans; [apply Rabs_triang|].
        assert (Rabs (real t * e6) <= 1 * uu) by (apply abs_mult_le; [rewrite Rabs_right; lra|exact H6]). lra. }
      assert (DL : Rabs (real y0 * (1 - tau) + real y1 * tau) <= M).
      { eapply Rle_trans; [apply Rabs_triang|].
        assert (Rabs (real y0 * (1 - tau)) <= M * (1 - tau)) by (apply abs_mult_le; [exact B0|rewrite Rabs_right; lra]).
        assert (Rabs (real y1 * tau) <= M * tau) by (apply abs_mult_le; [exact B1|rewrite Rabs_right; lra]). lra. }
      set (line := real y0 * (1 - tau) + real y1 * tau) in *.
      replace (real y0 + (real y1 - real y0) * tau) with line by (unfold line; ring).
      set (z := real m0 + real m1). assert (Dz : Rabs (z - line) <= M * (10 * uu + 2 * tiny) + 2 * tiny).
      { unfold z, line. replace (real m0 + real m1 - (real y0 * (1 - tau) + real y1 * tau)) with ((real m0 - real y0 * (1 - tau)) + (real m1 - real y1 * tau)) by ring.
        eapply Rle_trans; [apply Rabs_triang|]. lra. }
      replace (z * (1 + e7) - line) with ((z - line) + (line * e7 + (z - line) * e7)) by ring.
      eapply Rle_trans; [apply Rabs_triang|].
      assert (Rabs (line * e7 + (z - line) * e7) <= M * uu + (M * (10 * uu + 2 * tiny) + 2 * tiny) * uu).
      { eapply Rle_trans; [apply Rabs_triang|]. apply Rplus_le_compat; apply abs_mult_le; auto. }
      replace (bpow radix2 (-49)) with (16 * uu). 2: { unfold uu. change (16) with (bpow radix2 4). rewrite <- bpow_plus. reflexivity. }
      replace (bpow radix2 (-1073)) with (4 * tiny). 2: { unfold tiny. change 4 with (bpow radix2 2). rewrite <- bpow_plus. reflexivity. }
      assert (M * (10 * uu + 2 * tiny) + M * uu + M * ((10 * uu + 2 * tiny) * uu) <= M * (16 * uu)).
      { rewrite <- !Rmult_plus_distr_l. apply Rmult_le_compat_l; [exact BMpos|]. nra. }
      assert (2 * tiny * uu <= tiny) by nra. lra.
    - intros Y0 Y1. rewrite Rr, <- rnd_0. apply rnd_le. rewrite Rm0, Rm1. rewrite <- rnd_0 at 1.
      assert (rnd 0 <= rnd (real y0 * real s)) by (apply rnd_le, Rmult_le_pos; lra).
      assert (rnd 0 <= rnd (real y1 * real t)) by (apply rnd_le, Rmult_le_pos; lra). rewrite rnd_0 in *. lra.
    - intros Y0 Y1. rewrite Rr, <- rnd_0. apply rnd_le. rewrite Rm0, Rm1.
      assert (rnd (real y0 * real s) <= rnd 0) by (apply rnd_le; nra).
      assert (rnd (real y1 * real t) <= rnd 0) by (apply rnd_le; nra). rewrite rnd_0 in *. lra.
  Qed.
End Lerp.
