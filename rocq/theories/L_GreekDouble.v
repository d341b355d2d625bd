(** Rounding in deltas and gammas. *)
From Coq Require Import ZArith List String Bool Reals Lra Lia Psatz.
From Coq.Floats Require Import SpecFloat.
From Flocq Require Import Core BinarySingleNaN.
From Verif Require Import Prelude Num L_Num M_Dates M_Calendar M_Curves M_Fixings M_Forward M_Vol M_Instruments M_Deps M_Risk M_Reports S_Risk S_Reports L_Reports L_SelfReports S_Double S_GreekDouble L_Double L_DoubleError L_InterpDouble.
Import ListNotations.
Open Scope R_scope.

(** ** Operations with relative errors *)
Definition vv : R := 1001 / 1000 * uu.
Lemma vv_small : 0 < vv <= / 1000000.
Proof. unfold vv. pose proof uu_small. lra. Qed.

Lemma abs_pair a b A B : Rabs a <= A -> Rabs b <= B -> Rabs (a + b) <= A + B.
Proof. intros H K. eapply Rle_trans; [apply Rabs_triang|]. lra. Qed.

Lemma add_rel x y : finite x -> finite y -> Rabs (real x + real y) <= bpow radix2 900 -> finite (nadd x y) /\ exists e, Rabs e <= uu /\ real (nadd x y) = (real x + real y) * (1 + e).
Proof.
  intros X Y B. destruct (add_spec x y X Y (bound_in_range _ 900 ltac:(lia) B)) as [F E]. split; [exact F|].
  destruct (rnd_sum_error (real x) (real y) (finite_format x X) (finite_format y Y)) as (e & H & R). exists e. split; [exact H|]. now rewrite E.
Qed.
Lemma sub_rel x y : finite x -> finite y -> Rabs (real x - real y) <= bpow radix2 900 -> finite (nsub x y) /\ exists e, Rabs e <= uu /\ real (nsub x y) = (real x - real y) * (1 + e).
Proof.
  intros X Y B. destruct (sub_spec x y X Y (bound_in_range _ 900 ltac:(lia) B)) as [F E]. split; [exact F|].
  destruct (rnd_diff_error (real x) (real y) (finite_format x X) (finite_format y Y)) as (e & H & R). exists e. split; [exact H|]. now rewrite E.
Qed.
Lemma rnd_rel z : bpow radix2 (-1000) <= Rabs z -> exists e, Rabs e <= vv /\ rnd z = z * (1 + e).
Proof.
  intros B. destruct (rnd_error z) as (e & h & E & H & R). pose proof (bpow_gt_0 radix2 (-1000)). assert (z <> 0) by (intros ->; rewrite Rabs_R0 in B; lra).
  exists (e + h / z). split; [|rewrite R; field; assumption]. unfold vv. replace (1001 / 1000 * uu) with (uu + uu / 1000) by field. apply abs_pair; [exact E|].
  unfold Rdiv. rewrite Rabs_mult, Rabs_inv. apply Rmult_le_reg_r with (Rabs z); [lra|]. rewrite Rmult_assoc, Rinv_l, Rmult_1_r by (apply Rgt_not_eq; lra).
  eapply Rle_trans; [exact H|]. apply Rle_trans with (bpow radix2 (-63 + -1000)); [unfold tiny; apply bpow_le; lia|]. rewrite bpow_plus. apply Rmult_le_compat; [apply bpow_ge_0|lra| |exact B].
  unfold uu. change (-63)%Z with (-53 + -10)%Z. rewrite bpow_plus. apply Rmult_le_compat_l; [apply bpow_ge_0|]. change (bpow radix2 (-10)) with (/ 1024). lra.
Qed.
Lemma mul_rel x y : finite x -> finite y -> bpow radix2 (-1000) <= Rabs (real x * real y) <= bpow radix2 900 -> finite (nmul x y) /\ exists e, Rabs e <= vv /\ real (nmul x y) = real x * real y * (1 + e).
Proof.
  intros X Y B. destruct (mul_spec x y X Y (bound_in_range _ 900 ltac:(lia) (proj2 B))) as [F E]. split; [exact F|]. rewrite E. exact (rnd_rel _ (proj1 B)).
Qed.
Lemma div_abs x y : finite x -> finite y -> real y <> 0 -> Rabs (real x / real y) <= bpow radix2 1000 -> finite (ndiv x y) /\ exists e h, Rabs e <= uu /\ Rabs h <= tiny /\ real (ndiv x y) = real x / real y * (1 + e) + h.
Proof.
  intros X Y Z B. destruct (div_spec x y X Y Z (bound_in_range _ 1000 ltac:(lia) B)) as [F E]. split; [exact F|]. rewrite E. apply rnd_error.
Qed.
Lemma div_rel x y : finite x -> finite y -> real y <> 0 -> bpow radix2 (-1000) <= Rabs (real x / real y) <= bpow radix2 1000 -> finite (ndiv x y) /\ exists e, Rabs e <= vv /\ real (ndiv x y) = real x / real y * (1 + e).
Proof.
  intros X Y Z B. destruct (div_spec x y X Y Z (bound_in_range _ 1000 ltac:(lia) (proj2 B))) as [F E]. split; [exact F|]. rewrite E. exact (rnd_rel _ (proj1 B)).
Qed.

(** ** Products and quotients of such errors *)
Lemma both a b A B : Rabs a <= A -> Rabs b <= B -> exists c, (1 + a) * (1 + b) = 1 + c /\ Rabs c <= A + B + A * B.
Proof.
  intros H K. exists (a + b + a * b). split; [ring|]. apply abs_pair; [apply abs_pair; assumption|]. rewrite Rabs_mult. apply Rmult_le_compat; try apply Rabs_pos; assumption.
Qed.
Lemma over a b A B : Rabs a <= A -> Rabs b <= B -> B <= / 1000 -> exists c, (1 + a) / (1 + b) = 1 + c /\ Rabs c <= 1000 / 999 * (A + B).
Proof.
  intros H K S. apply Rabs_le_inv in K as K2. exists ((a - b) / (1 + b)). split; [field; lra|]. unfold Rdiv at 1. rewrite Rabs_mult, Rabs_inv, (Rabs_right (1 + b)) by lra.
  assert (J : / (1 + b) <= 1000 / 999) by (replace (1000 / 999) with (/ (999 / 1000)) by field; apply Rinv_le_contravar; lra). rewrite Rmult_comm.
  assert (0 < / (1 + b)) by (apply Rinv_0_lt_compat; lra). apply Rmult_le_compat; [lra|apply Rabs_pos|exact J|]. unfold Rminus. apply abs_pair; [exact H|now rewrite Rabs_Ropp].
Qed.

Lemma two_spec : finite (nofZ 2 : F64) /\ real (nofZ 2) = 2.
Proof. exact (ofZ_exact 2 ltac:(lia)). Qed.

Lemma uu_sq : 0 <= uu * uu <= uu / 1000000.
Proof. pose proof uu_small. split; [nra|]. unfold Rdiv. apply Rmult_le_compat_l; lra. Qed.
Lemma scaled a r : 0 <= a -> / 3 <= r <= 2 -> a / 3 <= a * r <= 2 * a.
Proof. intros A R. split; nra. Qed.

(** ** The quotients of the differences *)
Lemma quotient_near a b d e : Rabs (a - b) <= e -> d <> 0 -> Rabs (a / d - b / d) <= e / Rabs d.
Proof.
  intros E D. replace (a / d - b / d) with ((a - b) * / d) by (field; exact D). rewrite Rabs_mult, Rabs_inv. apply Rmult_le_compat_r; [|exact E]. apply Rlt_le, Rinv_0_lt_compat, Rabs_pos_lt, D.
Qed.

Lemma chain a b c P Q : Rabs (a - b) <= P -> Rabs (b - c) <= Q -> Rabs (a - c) <= P + Q.
Proof. intros H K. replace (a - c) with ((a - b) + (b - c)) by ring. now apply abs_pair. Qed.

Section Entry.
  Variables x y w size : F64.
  Variable z : R.
  Hypothesis size_ok : bpow radix2 (-200) <= Rabs z <= bpow radix2 100.
  Hypothesis size_rel : finite size /\ exists e, Rabs e <= vv /\ real size = z * (1 + e).
  Hypothesis (HX : ordinary_price x) (HY : ordinary_price y) (HW : ordinary_price w).

  Lemma z_nonzero : z <> 0.
  Proof. pose proof size_ok as [A _]. pose proof (bpow_gt_0 radix2 (-200)). intros E. rewrite E, Rabs_R0 in A. lra. Qed.

  Lemma near_half c e : Rabs e <= vv -> Rabs c / 2 <= Rabs (c * (1 + e)) <= 2 * Rabs c.
  Proof. intros E. apply Rabs_le_inv in E. pose proof vv_small. rewrite Rabs_mult, (Rabs_right (1 + e)) by lra. pose proof (Rabs_pos c). nra. Qed.

  Lemma big_enough k : (503 <= k <= 900)%Z -> forall a, Rabs a <= 4 * bpow radix2 500 -> Rabs a <= bpow radix2 k.
  Proof. intros K a B. eapply Rle_trans; [exact B|]. change 4 with (bpow radix2 2). rewrite <- bpow_plus. apply bpow_le. lia. Qed.

  Lemma delta_double : let d := ndiv (nsub x y) (nmul (nofZ 2) size) in
    finite d /\ Rabs (real d - (real x - real y) / (2 * z)) <= 5 * uu * (Rabs (real x - real y) / (2 * Rabs z)) + tiny.
  Proof.
    cbv zeta. pose proof uu_small as U. pose proof vv_small as Vs. destruct size_rel as (FS & e2 & E2 & RS). destruct two_spec as [F2 R2]. destruct HX as [FX BX], HY as [FY BY]. pose proof size_ok as [Z1 Z2]. pose proof (bpow_gt_0 radix2 (-200)) as P2. pose proof (bpow_gt_0 radix2 500) as P5.
    assert (BD : Rabs (real x - real y) <= 2 * bpow radix2 500) by (unfold Rminus; eapply Rle_trans; [apply abs_pair; [exact BX|rewrite Rabs_Ropp; exact BY]|lra]).
    destruct (sub_rel x y FX FY ltac:(apply (big_enough 900 ltac:(lia)); lra)) as (FD & e1 & E1 & RD).
    assert (NS := near_half z e2 E2). rewrite <- RS in NS.
    assert (BT : bpow radix2 (-1000) <= Rabs (real (nofZ 2) * real size) <= bpow radix2 900).
    { rewrite R2, Rabs_mult, (Rabs_right 2) by lra. assert (bpow radix2 (-1000) <= bpow radix2 (-200)) by (apply bpow_le; lia). assert (4 * bpow radix2 100 <= bpow radix2 900) by (change 4 with (bpow radix2 2); rewrite <- bpow_plus; apply bpow_le; lia). lra. }
    destruct (mul_rel (nofZ 2) size F2 FS BT) as (FT & e3 & E3 & RT). rewrite R2, RS in RT.
    destruct (both e2 e3 vv vv E2 E3) as (b & Eb & Bb). assert (B1 : Rabs b <= 21 / 10 * uu) by (pose proof uu_sq; unfold vv in *; lra).
    assert (RT' : real (nmul (nofZ 2) size) = 2 * z * (1 + b)) by (rewrite RT, <- Eb; ring).
    pose proof z_nonzero as ZN. apply Rabs_le_inv in B1 as B2.
    assert (N0 : real (nmul (nofZ 2) size) <> 0) by (rewrite RT'; apply Rmult_integral_contrapositive_currified; lra).
    destruct (over e1 b uu (21 / 10 * uu) E1 B1 ltac:(lra)) as (c & Ec & Bc).
    set (A := (real x - real y) / (2 * z)).
    assert (Q : real (nsub x y) / real (nmul (nofZ 2) size) = A * (1 + c)) by (rewrite RD, RT', <- Ec; unfold A; field; lra).
    assert (AA : Rabs A = Rabs (real x - real y) / (2 * Rabs z)) by (unfold A, Rdiv; rewrite Rabs_mult, Rabs_inv, Rabs_mult, (Rabs_right 2) by lra; reflexivity).
    assert (AB : Rabs A <= bpow radix2 701).
    { rewrite AA. replace (Rabs (real x - real y) / (2 * Rabs z)) with (Rabs (real x - real y) / 2 * / Rabs z) by (field; lra).
      change 701%Z with (500 + 201)%Z. rewrite bpow_plus. apply Rmult_le_compat; [pose proof (Rabs_pos (real x - real y)); lra|apply Rlt_le, Rinv_0_lt_compat; lra|lra|].
      apply Rle_trans with (/ bpow radix2 (-200)); [apply Rinv_le_contravar; lra|]. rewrite <- bpow_opp. apply bpow_le. lia. }
    assert (QB : Rabs (real (nsub x y) / real (nmul (nofZ 2) size)) <= bpow radix2 1000).
    { rewrite Q, Rabs_mult. apply Rle_trans with (bpow radix2 701 * 2); [apply Rmult_le_compat; try apply Rabs_pos; [exact AB|]|].
      - apply Rabs_le_inv in Bc. apply Rabs_le. lra.
      - change 2 with (bpow radix2 1). rewrite <- bpow_plus. apply bpow_le. lia. }
    destruct (div_abs _ _ FD FT N0 QB) as (FQ & e4 & t & E4 & Et & RQ). split; [exact FQ|]. rewrite RQ, Q.
    destruct (both c e4 _ _ Bc E4) as (g & Eg & Bg). replace (A * (1 + c) * (1 + e4) + t - A) with (A * g + t) by (replace (A * (1 + c) * (1 + e4)) with (A * ((1 + c) * (1 + e4))) by ring; rewrite Eg; ring).
    apply abs_pair; [|exact Et]. rewrite Rabs_mult, AA, Rmult_comm. apply Rmult_le_compat_r; [rewrite <- AA; apply Rabs_pos|]. pose proof uu_sq. lra.
  Qed.

  Lemma gamma_double : let g := ndiv (nsub (nadd x y) (nmul (nofZ 2) w)) (nmul size size) in
    finite g /\ Rabs (real g - (real x + real y - 2 * real w) / (z * z)) <= 8 * uu * ((Rabs (real x) + Rabs (real y) + 2 * Rabs (real w)) / (z * z)) + tiny.
  Proof.
    cbv zeta. pose proof uu_small as U. pose proof vv_small as Vs. destruct size_rel as (FS & e2 & E2 & RS). destruct two_spec as [F2 R2]. destruct HX as [FX BX], HY as [FY BY], HW as [FW BW]. pose proof size_ok as [Z1 Z2]. pose proof (bpow_gt_0 radix2 (-200)) as P2. pose proof (bpow_gt_0 radix2 500) as P5. pose proof z_nonzero as ZN.
    destruct (add_rel x y FX FY ltac:(apply (big_enough 900 ltac:(lia)); eapply Rle_trans; [apply abs_pair; [exact BX|exact BY]|lra])) as (FA & e1 & E1 & RA).
    assert (TW : finite (nmul (nofZ 2) w) /\ exists e, Rabs e <= uu /\ real (nmul (nofZ 2) w) = 2 * real w * (1 + e)).
    { destruct (mul_spec (nofZ 2) w F2 FW) as [F E]. { apply (bound_in_range _ 900 ltac:(lia)). rewrite R2. apply (big_enough 900 ltac:(lia)). rewrite Rabs_mult, (Rabs_right 2) by lra. lra. }
      split; [exact F|]. rewrite E, R2. destruct (rnd_sum_error (real w) (real w) (finite_format w FW) (finite_format w FW)) as (e & H & R). exists e. split; [exact H|]. replace (2 * real w) with (real w + real w) by ring. exact R. }
    destruct TW as (FT & e3 & E3 & RT).
    set (S := Rabs (real x) + Rabs (real y) + 2 * Rabs (real w)). assert (S0 : 0 <= S) by (unfold S; pose proof (Rabs_pos (real x)); pose proof (Rabs_pos (real y)); pose proof (Rabs_pos (real w)); lra).
    assert (SB : S <= 4 * bpow radix2 500) by (unfold S; lra).
    set (A := real x + real y - 2 * real w). assert (AS : Rabs A <= S).
    { unfold A, S, Rminus. apply abs_pair; [apply abs_pair; lra|]. rewrite Rabs_Ropp, Rabs_mult, (Rabs_right 2) by lra. lra. }
    set (D := (real x + real y) * e1 - 2 * real w * e3). assert (DS : Rabs D <= uu * S).
    { unfold D, S, Rminus. replace (uu * (Rabs (real x) + Rabs (real y) + 2 * Rabs (real w))) with ((Rabs (real x) + Rabs (real y)) * uu + 2 * Rabs (real w) * uu) by ring. apply abs_pair.
      - rewrite Rabs_mult. apply Rmult_le_compat; try apply Rabs_pos; [apply abs_pair; lra|exact E1].
      - rewrite Rabs_Ropp, !Rabs_mult, (Rabs_right 2) by lra. apply Rmult_le_compat; [pose proof (Rabs_pos (real w)); lra|apply Rabs_pos|lra|exact E3]. }
    assert (RN : real (nadd x y) - real (nmul (nofZ 2) w) = A + D) by (rewrite RA, RT; unfold A, D; ring).
    assert (AD : Rabs (A + D) <= 2 * S). { eapply Rle_trans; [apply (abs_pair A D S (uu * S)); assumption|]. nra. }
    destruct (sub_rel (nadd x y) (nmul (nofZ 2) w) FA FT) as (FD & e4 & E4 & RD).
    { rewrite RN. eapply Rle_trans; [exact AD|]. apply Rle_trans with (8 * bpow radix2 500); [lra|]. change 8 with (bpow radix2 3). rewrite <- bpow_plus. apply bpow_le. lia. }
    rewrite RN in RD.
    assert (ZZ : z * z = Rabs z * Rabs z) by (rewrite <- Rabs_mult, Rabs_right; [reflexivity|nra]).
    assert (Z0 : 0 < z * z) by (rewrite ZZ; apply Rmult_lt_0_compat; lra).
    assert (ZB : bpow radix2 (-400) <= z * z <= bpow radix2 200).
    { rewrite ZZ. change (-400)%Z with (-200 + -200)%Z. change 200%Z with (100 + 100)%Z. rewrite !bpow_plus. split; apply Rmult_le_compat; lra. }
    destruct (both e2 e2 vv vv E2 E2) as (b & Eb & Bb). assert (B1 : Rabs b <= 21 / 10 * uu) by (pose proof uu_sq; unfold vv in *; lra). apply Rabs_le_inv in B1 as B2.
    assert (RZ : real size * real size = z * z * (1 + b)) by (rewrite RS, <- Eb; ring).
    assert (BZ : bpow radix2 (-1000) <= Rabs (real size * real size) <= bpow radix2 900).
    { rewrite RZ, Rabs_right by (apply Rle_ge, Rmult_le_pos; lra). assert (bpow radix2 (-1000) <= bpow radix2 (-400) / 4).
      { replace (bpow radix2 (-400) / 4) with (bpow radix2 (-400 + -2)) by (rewrite bpow_plus; reflexivity). apply bpow_le. lia. }
      assert (2 * bpow radix2 200 <= bpow radix2 900) by (change 2 with (bpow radix2 1); rewrite <- bpow_plus; apply bpow_le; lia). pose proof (scaled (z * z) (1 + b) ltac:(lra) ltac:(lra)). pose proof (bpow_gt_0 radix2 (-400)). lra. }
    destruct (mul_rel _ _ FS FS BZ) as (FQ & e5 & E5 & RQ). rewrite RZ in RQ.
    destruct (both b e5 _ _ B1 E5) as (b' & Eb' & Bb'). assert (B3 : Rabs b' <= 32 / 10 * uu) by (pose proof uu_sq; unfold vv in *; lra). apply Rabs_le_inv in B3 as B4.
    assert (RQ' : real (nmul size size) = z * z * (1 + b')) by (rewrite RQ, <- Eb'; ring).
    assert (N0 : real (nmul size size) <> 0) by (rewrite RQ'; apply Rmult_integral_contrapositive_currified; lra).
    destruct (over e4 b' uu (32 / 10 * uu) E4 B3 ltac:(lra)) as (c & Ec & Bc).
    assert (Q : real (nsub (nadd x y) (nmul (nofZ 2) w)) / real (nmul size size) = (A + D) / (z * z) * (1 + c)) by (rewrite RD, RQ', <- Ec; field; lra).
    assert (I0 : 0 < / (z * z)) by (apply Rinv_0_lt_compat; lra).
    assert (I1 : / (z * z) <= bpow radix2 400) by (apply Rle_trans with (/ bpow radix2 (-400)); [apply Rinv_le_contravar; [apply bpow_gt_0|lra]|rewrite <- bpow_opp; apply bpow_le; lia]).
    assert (QA : Rabs ((A + D) / (z * z)) <= 2 * S * / (z * z)) by (unfold Rdiv; rewrite Rabs_mult, (Rabs_right (/ (z * z))) by lra; apply Rmult_le_compat_r; lra).
    assert (QB : Rabs (real (nsub (nadd x y) (nmul (nofZ 2) w)) / real (nmul size size)) <= bpow radix2 1000).
    { rewrite Q, Rabs_mult. apply Rle_trans with (8 * bpow radix2 500 * bpow radix2 400 * 2).
      - apply Rmult_le_compat; try apply Rabs_pos; [|apply Rabs_le_inv in Bc; apply Rabs_le; lra]. eapply Rle_trans; [exact QA|]. apply Rmult_le_compat; lra.
      - change 8 with (bpow radix2 3). change 2 with (bpow radix2 1). rewrite <- !bpow_plus. apply bpow_le. lia. }
    destruct (div_abs _ _ FD FQ N0 QB) as (FG & e6 & t & E6 & Et & RG). split; [exact FG|]. rewrite RG, Q.
    destruct (both c e6 _ _ Bc E6) as (g & Eg & Bg).
    assert (Bg' : Rabs g <= 6 * uu) by (pose proof uu_sq; lra).
    replace ((A + D) / (z * z) * (1 + c) * (1 + e6) + t - A / (z * z)) with ((D + (A + D) * g) * / (z * z) + t)
      by (replace ((A + D) / (z * z) * (1 + c) * (1 + e6)) with ((A + D) / (z * z) * ((1 + c) * (1 + e6))) by ring; rewrite Eg; field; lra).
    apply abs_pair; [|exact Et]. rewrite Rabs_mult, (Rabs_right (/ (z * z))) by lra. unfold Rdiv. rewrite <- Rmult_assoc. apply Rmult_le_compat_r; [lra|].
    assert (Rabs ((A + D) * g) <= (S + uu * S) * (6 * uu)) by (rewrite Rabs_mult; apply Rmult_le_compat; try apply Rabs_pos; [apply abs_pair; assumption|exact Bg']).
    eapply Rle_trans; [apply (abs_pair D ((A + D) * g) _ _ DS H)|]. assert (0 <= uu * S * (1 - 6 * uu)) by (apply Rmult_le_pos; [apply Rmult_le_pos|]; lra). lra.
  Qed.
End Entry.

Lemma size_ordinary h s : ordinary_bump h s -> bpow radix2 (-200) <= Rabs (real h * real s) <= bpow radix2 100 /\
  finite (nmul h s) /\ exists e, Rabs e <= vv /\ real (nmul h s) = real h * real s * (1 + e).
Proof.
  intros (FH & H & FS & S). pose proof (bpow_gt_0 radix2 (-100)).
  assert (B : bpow radix2 (-200) <= Rabs (real h * real s) <= bpow radix2 100).
  { rewrite Rabs_mult. change (-200)%Z with (-100 + -100)%Z. rewrite bpow_plus. split; [apply Rmult_le_compat; lra|]. replace (bpow radix2 100) with (1 * bpow radix2 100) by ring. apply Rmult_le_compat; lra. }
  split; [exact B|]. apply mul_rel; [assumption|assumption|]. assert (bpow radix2 (-1000) <= bpow radix2 (-200)) by (apply bpow_le; lia). assert (bpow radix2 100 <= bpow radix2 900) by (apply bpow_le; lia). lra.
Qed.

(** Both against the differences of the true prices. *)
Lemma entry_double x y u size z : bpow radix2 (-200) <= Rabs z <= bpow radix2 100 -> (finite size /\ exists e, Rabs e <= vv /\ real size = z * (1 + e)) ->
  ordinary_price x -> ordinary_price y -> ordinary_price u -> forall X Y V e,
  Rabs (real x - X) <= e -> Rabs (real y - Y) <= e -> Rabs (real u - V) <= e ->
  let delta := ndiv (nsub x y) (nmul (nofZ 2) size) in let gamma := ndiv (nsub (nadd x y) (nmul (nofZ 2) u)) (nmul size size) in
  finite delta /\ Rabs (real delta - (X - Y) / (2 * z)) <= 5 * uu * (Rabs (real x - real y) / (2 * Rabs z)) + tiny + e / Rabs z /\
  finite gamma /\ Rabs (real gamma - (X + Y - 2 * V) / (z * z)) <= 8 * uu * ((Rabs (real x) + Rabs (real y) + 2 * Rabs (real u)) / (z * z)) + tiny + 4 * e / (z * z).
Proof.
  intros ZB SZ HX HY HW X Y V e EX EY EV. cbv zeta.
  destruct (delta_double x y size z ZB SZ HX HY) as [F1 D1]. destruct (gamma_double x y u size z ZB SZ HX HY HW) as [F2 D2]. pose proof (z_nonzero z ZB) as ZN.
  apply Rabs_le_inv in EX. apply Rabs_le_inv in EY. apply Rabs_le_inv in EV. assert (0 < Rabs z) by (apply Rabs_pos_lt; exact ZN).
  split; [exact F1|]. split; [|split; [exact F2|]].
  - eapply chain; [exact D1|]. replace (e / Rabs z) with (2 * e / Rabs (2 * z)) by (rewrite Rabs_mult, (Rabs_right 2) by lra; field; lra).
    apply quotient_near; [apply Rabs_le; lra|lra].
  - eapply chain; [exact D2|]. assert (ZZ : 0 < z * z) by nra. replace (4 * e / (z * z)) with (4 * e / Rabs (z * z)) by (rewrite (Rabs_right (z * z)) by lra; reflexivity).
    apply quotient_near; [apply Rabs_le; lra|lra].
Qed.

(** ** The spots *)
Definition up_spot (h s : F64) : F64 := nmul s (nadd n1 h).
Definition down_spot (h s : F64) : F64 := nmul (up_spot h s) (nadd n1 (nsub (ndiv (nsub n1 h) (nadd n1 h)) n1)).

Lemma modest a k : (3 <= k)%Z -> Rabs a <= 8 -> Rabs a <= bpow radix2 k.
Proof. intros K A. eapply Rle_trans; [exact A|]. change 8 with (bpow radix2 3). apply bpow_le. lia. Qed.

Lemma within a b A B : - A <= a <= A -> - B <= b <= B -> - (A * B) <= a * b <= A * B.
Proof. intros HA HB. assert (Rabs (a * b) <= A * B) as K by (rewrite Rabs_mult; apply Rmult_le_compat; try apply Rabs_pos; now apply Rabs_le). now apply Rabs_le_inv in K. Qed.

Lemma spots_double h s : ordinary_bump h s ->
  (finite (up_spot h s) /\ Rabs (real (up_spot h s) - real s * (1 + real h)) <= 4 * uu * Rabs (real s)) /\
  (finite (down_spot h s) /\ Rabs (real (down_spot h s) - real s * (1 - real h)) <= 64 * uu * Rabs (real s)).
Proof.
  intros (FH & HH & FS & HS). pose proof uu_small as U. destruct one_spec as [F1 R1]. pose proof (bpow_gt_0 radix2 (-100)) as P0. assert (BH := Rabs_le_inv _ _ (proj2 HH)).
  destruct (add_rel n1 h F1 FH) as (FA & e1 & E1 & RA). { rewrite R1. apply modest; [lia|]. apply Rabs_le. lra. }
  destruct (sub_rel n1 h F1 FH) as (FM & e3 & E3 & RM). { rewrite R1. apply modest; [lia|]. apply Rabs_le. lra. }
  rewrite R1 in RA, RM. set (H := real h) in *. set (S := real s) in *. apply Rabs_le_inv in E1 as E1'. apply Rabs_le_inv in E3 as E3'.
  assert (A1 : / 3 <= real (nadd n1 h) <= 2) by (rewrite RA; clear - BH E1' U; nra). assert (A2 : / 3 <= real (nsub n1 h) <= 2) by (rewrite RM; clear - BH E3' U; nra).
  assert (BU : bpow radix2 (-1000) <= Rabs (S * real (nadd n1 h)) <= bpow radix2 900).
  { rewrite Rabs_mult, (Rabs_right (real (nadd n1 h))) by lra. assert (bpow radix2 (-1000) <= bpow radix2 (-100) / 4).
    { replace (bpow radix2 (-100) / 4) with (bpow radix2 (-100 + -2)) by (rewrite bpow_plus; reflexivity). apply bpow_le. lia. }
    assert (2 * bpow radix2 100 <= bpow radix2 900) by (change 2 with (bpow radix2 1); rewrite <- bpow_plus; apply bpow_le; lia). pose proof (scaled (Rabs S) (real (nadd n1 h)) ltac:(lra) A1). lra. }
  destruct (mul_rel s (nadd n1 h) FS FA BU) as (FU & e2 & E2 & RU). fold (up_spot h s) in FU, RU. fold S in RU.
  assert (S0 : 0 < Rabs S) by lra.
  destruct (both e1 e2 _ _ E1 E2) as (c & Ec & Bc). assert (Bc' : Rabs c <= 201 / 100 * uu) by (pose proof uu_sq; unfold vv in *; lra).
  assert (RU' : real (up_spot h s) = S * ((1 + H) * (1 + c))) by (rewrite RU, RA, <- Ec; ring).
  assert (UE : Rabs (real (up_spot h s) - S * (1 + H)) <= 4 * uu * Rabs S).
  { rewrite RU'. replace (S * ((1 + H) * (1 + c)) - S * (1 + H)) with ((1 + H) * c * S) by ring. rewrite !Rabs_mult, (Rabs_right (1 + H)) by lra. apply Rmult_le_compat_r; [lra|]. pose proof (Rabs_pos c). nra. }
  split; [split; assumption|].
  (* the factor of the bump down *)
  assert (N0 : real (nadd n1 h) <> 0) by lra.
  set (q := (1 - H) / (1 + H)). assert (q3 : / 3 <= q <= 3).
  { unfold q, Rdiv. split; apply Rmult_le_reg_r with (1 + H); try lra; rewrite Rmult_assoc, Rinv_l by lra; lra. }
  destruct (over e3 e1 _ _ E3 E1 ltac:(lra)) as (a & Ea & Ba). apply Rabs_le_inv in Ba as Ba'.
  assert (Q : real (nsub n1 h) / real (nadd n1 h) = q * (1 + a)) by (rewrite RM, RA, <- Ea; unfold q; field; lra).
  assert (BQ : bpow radix2 (-1000) <= Rabs (real (nsub n1 h) / real (nadd n1 h)) <= bpow radix2 1000).
  { pose proof (scaled q (1 + a) ltac:(lra) ltac:(lra)). rewrite Q, Rabs_right by lra. assert (bpow radix2 (-1000) <= / 16) by (replace (/ 16) with (bpow radix2 (-4)) by reflexivity; apply bpow_le; lia). assert (8 <= bpow radix2 1000) by (change 8 with (bpow radix2 3); apply bpow_le; lia). lra. }
  destruct (div_rel _ _ FM FA N0 BQ) as (FQ & e4 & E4 & RQ). rewrite Q in RQ. set (Qd := ndiv (nsub n1 h) (nadd n1 h)) in *.
  destruct (both a e4 _ _ Ba E4) as (b & Eb & Bb). assert (Bb' : Rabs b <= 31 / 10 * uu) by (pose proof uu_sq; unfold vv in *; lra). apply Rabs_le_inv in Bb' as Bb2.
  assert (RQ' : real Qd = q + q * b) by (rewrite RQ, Rmult_assoc, Eb; ring).
  assert (D1 : - (93 / 10 * uu) <= q * b <= 93 / 10 * uu) by (pose proof (within q b 3 (31 / 10 * uu) ltac:(lra) Bb2); lra).
  destruct (sub_rel Qd n1 FQ F1) as (FR & e5 & E5 & RR). { rewrite R1, RQ'. apply modest; [lia|]. apply Rabs_le. lra. }
  rewrite R1, RQ' in RR. apply Rabs_le_inv in E5 as E5'.
  set (k := q * b) in *. assert (D2 : - (21 / 10 * uu) <= (q + k - 1) * e5 <= 21 / 10 * uu) by (pose proof (within (q + k - 1) e5 (21 / 10) uu ltac:(lra) E5'); lra).
  destruct (add_rel n1 (nsub Qd n1) F1 FR) as (FT & e6 & E6 & RT). { rewrite R1, RR. apply modest; [lia|]. apply Rabs_le. lra. }
  rewrite R1, RR in RT. apply Rabs_le_inv in E6 as E6'. set (l := (q + k - 1) * e5) in *.
  assert (RT1 : real (nadd n1 (nsub Qd n1)) = q + k + l + (q + k + l) * e6) by (rewrite RT; unfold l; ring).
  assert (D3 : - (31 / 10 * uu) <= (q + k + l) * e6 <= 31 / 10 * uu) by (pose proof (within (q + k + l) e6 (31 / 10) uu ltac:(lra) E6'); lra). set (m := (q + k + l) * e6) in *.
  assert (DT : Rabs (real (nadd n1 (nsub Qd n1)) - q) <= 15 * uu) by (rewrite RT1; apply Rabs_le; lra).
  set (t := nadd n1 (nsub Qd n1)) in *. apply Rabs_le_inv in DT as DT'.
  assert (RP : real (up_spot h s) * real t = S * ((1 + H) * (1 + c) * real t)) by (rewrite RU'; ring).
  apply Rabs_le_inv in Bc' as Bc2. set (r := real t) in *.
  assert (G1 : (1 + H) * q = 1 - H) by (unfold q; field; lra).
  set (j := r - q) in *. assert (Er : r = q + j) by (unfold j; ring).
  assert (G2 : (1 + H) * (1 + c) * r = 1 - H + ((1 - H) * c + (1 + H) * (1 + c) * j)) by (rewrite Er, <- G1; ring).
  assert (G3 : - (31 / 10 * uu) <= (1 - H) * c <= 31 / 10 * uu) by (pose proof (within (1 - H) c (3 / 2) (201 / 100 * uu) ltac:(lra) Bc2); lra).
  assert (G4 : 0 <= (1 + H) * (1 + c) <= 16 / 10) by (clear - BH Bc2 U; nra).
  assert (G5 : - (24 * uu) <= (1 + H) * (1 + c) * j <= 24 * uu) by (pose proof (within ((1 + H) * (1 + c)) j (16 / 10) (15 * uu) ltac:(lra) DT'); lra).
  set (w := (1 - H) * c + (1 + H) * (1 + c) * j) in *. assert (G6 : - (28 * uu) <= w <= 28 * uu) by (unfold w; lra).
  rewrite G2 in RP.
  assert (BP : bpow radix2 (-1000) <= Rabs (real (up_spot h s) * r) <= bpow radix2 900).
  { rewrite RP, Rabs_mult, (Rabs_right (1 - H + w)) by lra. assert (bpow radix2 (-1000) <= bpow radix2 (-100) / 4).
    { replace (bpow radix2 (-100) / 4) with (bpow radix2 (-100 + -2)) by (rewrite bpow_plus; reflexivity). apply bpow_le. lia. }
    assert (2 * bpow radix2 100 <= bpow radix2 900) by (change 2 with (bpow radix2 1); rewrite <- bpow_plus; apply bpow_le; lia). clear - H0 H1 HS BH G6 U S0. nra. }
  destruct (mul_rel (up_spot h s) t FU FT BP) as (FD & e7 & E7 & RD). change (nmul (up_spot h s) t) with (down_spot h s) in FD, RD. split; [exact FD|].
  fold r in RD. rewrite RD, RP. replace (S * (1 - H + w) * (1 + e7) - S * (1 - H)) with ((w + (1 - H + w) * e7) * S) by ring. rewrite Rabs_mult. apply Rmult_le_compat_r; [lra|].
  apply Rabs_le_inv in E7. unfold vv in E7. apply Rabs_le. pose proof (within (1 - H + w) e7 2 (1001 / 1000 * uu) ltac:(lra) E7). lra.
Qed.

(** ** The report *)
Lemma greeks_double (TR : Trans F64) (nan : F64) cdf (h : F64) sp u r sp' sv' : self_price nan cdf sp = Ok u ->
  generate nan (self_ops nan cdf) (DeltaGammaGenerator h) sp saved_prefetch_new u = (Ok r, sp', sv') ->
  exists m, r = DeltaGammaReport h m /\
  forall id delta gamma, get id m = Some (delta, gamma) -> exists s up down x y,
    look (pf_data (sp_context sp)) (SpotFor id) = Some (ASpot s) /\
    price_with_spot (self_ops nan cdf) id up sp = Ok x /\ price_with_spot (self_ops nan cdf) id down sp = Ok y /\
    (ordinary_bump h s ->
      (finite up /\ Rabs (real up - real s * (1 + real h)) <= bpow radix2 (-51) * Rabs (real s)) /\
      (finite down /\ Rabs (real down - real s * (1 - real h)) <= bpow radix2 (-47) * Rabs (real s)) /\
      (ordinary_price x -> ordinary_price y -> ordinary_price u -> forall X Y V e,
        Rabs (real x - X) <= e -> Rabs (real y - Y) <= e -> Rabs (real u - V) <= e ->
        let z := real h * real s in
        finite delta /\ Rabs (real delta - (X - Y) / (2 * z)) <= 5 * bpow radix2 (-53) * (Rabs (real x - real y) / (2 * Rabs z)) + bpow radix2 (-1075) + e / Rabs z /\
        finite gamma /\ Rabs (real gamma - (X + Y - 2 * V) / (z * z)) <= 8 * bpow radix2 (-53) * ((Rabs (real x) + Rabs (real y) + 2 * Rabs (real u)) / (z * z)) + bpow radix2 (-1075) + 4 * e / (z * z))).
Proof.
  intros PU G. destruct (delta_exact nan cdf h sp u r sp' sv' PU G) as (m & -> & _ & ALL). exists m. split; [reflexivity|].
  intros id d g E. destruct (ALL id (d, g) E) as (s & x & y & LS & PX & PY & EQ). exists s, (up_spot h s), (down_spot h s), x, y. split; [exact LS|]. split; [exact PX|]. split; [exact PY|].
  injection EQ as Ed Eg. intros HB. destruct (spots_double h s HB) as [[FU EU] [FD ED]].
  replace (bpow radix2 (-51)) with (4 * uu) by (unfold uu; change 4 with (bpow radix2 2); rewrite <- bpow_plus; reflexivity).
  replace (bpow radix2 (-47)) with (64 * uu) by (unfold uu; change 64 with (bpow radix2 6); rewrite <- bpow_plus; reflexivity).
  split; [split; assumption|]. split; [split; assumption|]. intros HX HY HW X Y V e EX EY EV z.
  destruct (size_ordinary h s HB) as [ZB SZ]. subst d g. exact (entry_double x y u (nmul h s) z ZB SZ HX HY HW X Y V e EX EY EV).
Qed.

Lemma vegas_double (TR : Trans F64) (nan : F64) P (ops : pricer_ops F64 P) new f p u r p' sv' : well_behaved ops new -> op_price ops p = Ok u ->
  generate nan ops (VegaVolgaGenerator f) p new u = (Ok r, p', sv') ->
  exists m, r = VegaVolgaReport (vol_bumpsize nan f) m /\
  forall id vega volga, get id m = Some (vega, volga) -> exists x y,
    price_after ops [BVol id f] p = Ok x /\ price_after ops [BVol id f; BVol id (vol_opposite nan f)] p = Ok y /\
    (finite (vol_bumpsize nan f) -> bpow radix2 (-200) <= Rabs (real (vol_bumpsize nan f)) <= bpow radix2 100 ->
      ordinary_price x -> ordinary_price y -> ordinary_price u -> forall X Y V e,
        Rabs (real x - X) <= e -> Rabs (real y - Y) <= e -> Rabs (real u - V) <= e ->
        let z := real (vol_bumpsize nan f) in
        finite vega /\ Rabs (real vega - (X - Y) / (2 * z)) <= 5 * bpow radix2 (-53) * (Rabs (real x - real y) / (2 * Rabs z)) + bpow radix2 (-1075) + e / Rabs z /\
        finite volga /\ Rabs (real volga - (X + Y - 2 * V) / (z * z)) <= 8 * bpow radix2 (-53) * ((Rabs (real x) + Rabs (real y) + 2 * Rabs (real u)) / (z * z)) + bpow radix2 (-1075) + 4 * e / (z * z)).
Proof.
  intros WB PU G. destruct (vega_entries nan ops new WB f p u r p' sv' PU G) as (ids & m & _ & -> & _ & EN). exists m. split; [reflexivity|].
  intros id d g E. destruct (EN id (d, g) E) as (x & y & A & B & EQ). exists x, y. split; [exact A|]. split; [exact B|]. injection EQ as Ed Eg.
  intros FZ ZB HX HY HW X Y V e EX EY EV z. subst d g. apply (entry_double x y u (vol_bumpsize nan f) z ZB); try assumption.
  split; [exact FZ|]. exists 0. split; [rewrite Rabs_R0; pose proof vv_small; lra|unfold z; ring].
Qed.

(** Theta: a difference of two prices. *)
Lemma theta_double (TR : Trans F64) (nan : F64) P (ops : pricer_ops F64 P) new bt gs p u r p' sv' : well_behaved ops new ->
  generate nan ops (TimeBumpedGenerator bt gs) p new u = (Ok r, p', sv') ->
  exists later x theta subs, op_bump_time ops bt p = (Ok tt, later) /\ op_price ops later = Ok x /\ r = TimeBumpedReport x theta subs /\
    (ordinary_price x -> ordinary_price u -> forall X V e, Rabs (real x - X) <= e -> Rabs (real u - V) <= e ->
      finite theta /\ Rabs (real theta - (X - V)) <= bpow radix2 (-53) * Rabs (real x - real u) + 2 * e).
Proof.
  intros WB G. destruct (time_entries nan ops new WB bt gs p u r p' sv' G) as (later & x & subs & B & PX & -> & _). exists later, x, (nsub x u), subs.
  split; [exact B|]. split; [exact PX|]. split; [reflexivity|]. intros [FX BX] [FU BU] X V e EX EV. fold uu.
  assert (BD : Rabs (real x - real u) <= 4 * bpow radix2 500) by (unfold Rminus; eapply Rle_trans; [apply abs_pair; [exact BX|rewrite Rabs_Ropp; exact BU]|pose proof (bpow_gt_0 radix2 500); lra]).
  destruct (sub_rel x u FX FU ltac:(apply (big_enough 900 ltac:(lia)); exact BD)) as (F & d & D & R). split; [exact F|]. rewrite R.
  apply chain with (real x - real u).
  - replace ((real x - real u) * (1 + d) - (real x - real u)) with (d * (real x - real u)) by ring. rewrite Rabs_mult. apply Rmult_le_compat_r; [apply Rabs_pos|exact D].
  - apply Rabs_le_inv in EX. apply Rabs_le_inv in EV. apply Rabs_le. lra.
Qed.
