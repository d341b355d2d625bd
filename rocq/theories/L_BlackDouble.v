(** Black's formula and the fixing of options on doubles. *)
From Coq Require Import ZArith List String Bool Lia Reals Lra.
From Coq.Floats Require Import SpecFloat.
From Flocq Require Import Core BinarySingleNaN.
From Verif Require Import Prelude Num M_Dates M_Calendar M_Curves M_Fixings M_Forward M_Vol M_Black76 M_Instruments S_Instruments S_Double S_CurveDouble S_BlackDouble
  L_Num L_Double L_DoubleError L_InterpDouble L_CalendarDouble L_CurveDouble L_Instruments L_PricingAny.
Import ListNotations.
Open Scope string_scope.
Open Scope list_scope.
Open Scope R_scope.

(** ** No NaN *)

Lemma overflow_number s : number (binary_overflow 53 1024 mode_NE s).
Proof. destruct s; split; try reflexivity; discriminate. Qed.

Lemma div_number x y : number x -> finite y -> real y <> 0 -> number (ndiv x y).
Proof.
  intros [Dx Nx] Fy Ny. destruct (double_B x Dx) as (bx & <-). destruct (finite_B y Fy) as (b & <- & Fb & Rb). rewrite <- Rb in Ny.
  cbn [ndiv FNum]. rewrite div_equiv. pose proof (Bdiv_correct 53 1024 L_Double.Hprec L_Double.Hmax mode_NE bx b Ny) as C. cbv zeta in C.
  destruct bx as [sx|sx| |sx mx ex Hx].
  - rewrite Rlt_bool_true in C.
    + destruct C as (_ & C & _). apply finite_number. now apply finite_of_B.
    + cbn [B2R]. unfold Rdiv. rewrite Rmult_0_l, round_0 by apply valid_rnd_N. rewrite Rabs_R0. apply bpow_gt_0.
  - destruct b as [sb|sb| |sb mb eb Hb]; cbn in Ny; try (now contradiction Ny); try discriminate. split; destruct sx, sb; try reflexivity; discriminate.
  - now contradiction Nx.
  - destruct (Rlt_bool _ _).
    + destruct C as (_ & C & _). apply finite_number. apply finite_of_B. exact C.
    + rewrite C. apply overflow_number.
Qed.

Lemma add_number x y : number x -> finite y -> number (nadd x y).
Proof.
  intros [Dx Nx] Fy. destruct (double_B x Dx) as (bx & <-). destruct (finite_B y Fy) as (b & <- & Fb & Rb).
  cbn [nadd FNum]. rewrite add_equiv. destruct (is_finite bx) eqn:Fx.
  - pose proof (Bplus_correct 53 1024 L_Double.Hprec L_Double.Hmax mode_NE bx b Fx Fb) as C. cbv zeta in C. destruct (Rlt_bool _ _).
    + destruct C as (_ & C & _). apply finite_number. now apply finite_of_B.
    + destruct C as (C & _). rewrite C. apply overflow_number.
  - destruct bx as [sx|sx| |sx mx ex Hx]; try discriminate; [|now contradiction Nx].
    destruct b as [sb|sb| |sb mb eb Hb]; try discriminate; split; destruct sx; try reflexivity; discriminate.
Qed.

Lemma opp_number x : number x -> number (nopp x).
Proof. intros [D N]. destruct (double_B x D) as (b & <-). split; [|destruct b; try discriminate; now contradiction N].
  cbn [nopp FNum]. replace (SFopp (B2SF b)) with (B2SF (Bopp b)) by (destruct b; reflexivity). unfold double. apply valid_binary_B2SF.
Qed.

Lemma sub_number x y : number x -> finite y -> number (nsub x y).
Proof.
  intros [Dx Nx] Fy. destruct (double_B x Dx) as (bx & <-). destruct (finite_B y Fy) as (b & <- & Fb & Rb).
  cbn [nsub FNum]. rewrite sub_equiv. destruct (is_finite bx) eqn:Fx.
  - pose proof (Bminus_correct 53 1024 L_Double.Hprec L_Double.Hmax mode_NE bx b Fx Fb) as C. cbv zeta in C. destruct (Rlt_bool _ _).
    + destruct C as (_ & C & _). apply finite_number. now apply finite_of_B.
    + destruct C as (C & _). rewrite C. apply overflow_number.
  - destruct bx as [sx|sx| |sx mx ex Hx]; try discriminate; [|now contradiction Nx].
    destruct b as [sb|sb| |sb mb eb Hb]; try discriminate; split; destruct sx; try reflexivity; discriminate.
Qed.

(** The quotient of numbers that are not negative is not negative. *)
Lemma div_nonneg x y : finite x -> finite y -> 0 <= real x -> 0 < real y -> number (ndiv x y) /\ 0 <= place (ndiv x y).
Proof.
  intros Fx Fy Px Py. split; [apply div_number; [now apply finite_number|exact Fy|lra]|].
  destruct (Rlt_dec (Rabs (rnd (real x / real y))) (bpow radix2 1024)) as [L|L].
  - destruct (div_spec x y Fx Fy) as [F R]; [lra|exact L|]. rewrite finite_place by exact F. rewrite R, <- rnd_0. apply rnd_le.
    apply Rmult_le_pos; [exact Px|]. left. now apply Rinv_0_lt_compat.
  - destruct (finite_B x Fx) as (bx & <- & Fbx & Rx). destruct (finite_B y Fy) as (b & <- & Fb & Rb).
    cbn [ndiv FNum]. rewrite div_equiv. assert (Ny : B2R b <> 0) by lra. pose proof (Bdiv_correct 53 1024 L_Double.Hprec L_Double.Hmax mode_NE bx b Ny) as C. cbv zeta in C.
    rewrite fexp_eq in C. change (round radix2 (FLT_exp (-1074) 53) (round_mode mode_NE)) with rnd in C. rewrite Rx, Rb in C.
    rewrite Rlt_bool_false in C by lra. rewrite C.
    assert (Sx : Bsign bx = false).
    { destruct bx as [sx|sx| |[|] mx ex Hx]; try discriminate; try reflexivity.
      - exfalso. apply L. rewrite <- Rx. cbn [B2R]. unfold Rdiv. rewrite Rmult_0_l, rnd_0, Rabs_R0. apply bpow_gt_0.
      - exfalso. rewrite <- Rx in Px. cbn [B2R] in Px. assert (F2R (Float radix2 (cond_Zopp true (Z.pos mx)) ex) < 0) by (apply F2R_lt_0; reflexivity). lra. }
    assert (Sy : Bsign b = false).
    { destruct b as [sb|sb| |[|] mb eb Hb]; try discriminate; try reflexivity.
      - exfalso. now apply Ny.
      - exfalso. rewrite <- Rb in Py. cbn [B2R] in Py. assert (F2R (Float radix2 (cond_Zopp true (Z.pos mb)) eb) < 0) by (apply F2R_lt_0; reflexivity). lra. }
    rewrite Sx, Sy. change (0 <= bpow radix2 1024). apply bpow_ge_0.
Qed.

(** ** Black's formula *)

Definition huge : R := bpow radix2 400.

(** Discounted difference of two weighted amounts. *)
Lemma weighted_near (df p q f k : F64) : finite df -> finite p -> finite q -> finite f -> finite k ->
  0 <= real df <= huge -> 0 <= real p <= 1 -> 0 <= real q <= 1 -> 0 <= real f <= huge -> 0 <= real k <= huge ->
  let x := nmul df (nsub (nmul p f) (nmul q k)) in
  finite x /\ - rnd (real df * real k) <= real x <= rnd (real df * real f) /\
  Rabs (real x - real df * (real p * real f - real q * real k)) <= (7 * uu / 2) * (real df * (real f + real k)) + 4 * tiny * (real df + 1).
Proof.
  intros Fd Fp Fq Ff Fk Bd Bp Bq Bf Bk x. pose proof uu_small as U. pose proof tiny_small as TS. pose proof (bpow_ge_0 radix2 400) as H0. fold huge in H0.
  assert (PF : 0 <= real p * real f <= real f) by nra. assert (QK : 0 <= real q * real k <= real k) by nra.
  assert (Hk : forall y, Rabs y <= huge -> in_range y) by (intros y Hy; apply (bound_in_range y 400); [lia|exact Hy]).
  destruct (mul_spec p f Fp Ff) as [F1 R1]; [apply Hk; rewrite Rabs_right; lra|].
  destruct (mul_spec q k Fq Fk) as [F2 R2]; [apply Hk; rewrite Rabs_right; lra|].
  assert (Gf : rnd (real f) = real f) by (apply round_generic; [apply valid_rnd_N|now apply finite_format]).
  assert (Gk : rnd (real k) = real k) by (apply round_generic; [apply valid_rnd_N|now apply finite_format]).
  assert (B1 : 0 <= real (nmul p f) <= real f).
  { rewrite R1. split; [rewrite <- rnd_0; apply rnd_le; lra|]. apply Rle_trans with (rnd (real f)); [apply rnd_le; lra|rewrite Gf; lra]. }
  assert (B2 : 0 <= real (nmul q k) <= real k).
  { rewrite R2. split; [rewrite <- rnd_0; apply rnd_le; lra|]. apply Rle_trans with (rnd (real k)); [apply rnd_le; lra|rewrite Gk; lra]. }
  destruct (sub_spec _ _ F1 F2) as [F3 R3]; [apply Hk, Rabs_le; lra|]. set (d := nsub (nmul p f) (nmul q k)) in *.
  assert (Gn : rnd (- real k) = - real k).
  { apply round_generic; [apply valid_rnd_N|]. apply generic_format_opp. now apply finite_format. }
  assert (B3 : - real k <= real d <= real f).
  { rewrite R3. split; [apply Rle_trans with (rnd (- real k)); [lra|]|apply Rle_trans with (rnd (real f)); [|lra]]; apply rnd_le; lra. }
  assert (Ad : Rabs (real d) <= huge) by (apply Rabs_le; lra).
  assert (Ax : Rabs (real df * real d) <= bpow radix2 800).
  { rewrite Rabs_mult, (Rabs_right (real df)) by lra. replace (bpow radix2 800) with (huge * huge) by (unfold huge; rewrite <- bpow_plus; reflexivity).
    apply Rmult_le_compat; [lra|apply Rabs_pos|lra|exact Ad]. }
  destruct (mul_spec df d Fd F3) as [F4 R4]; [apply (bound_in_range _ 800); [lia|exact Ax]|]. change (nmul df d) with x in F4, R4.
  split; [exact F4|]. split.
  { rewrite R4. assert (O : - rnd (real df * real k) = rnd (- (real df * real k))) by (symmetry; apply round_NE_opp). rewrite O. split; apply rnd_le; nra. }
  destruct (rnd_error (real p * real f)) as (e1 & h1 & E1 & H1 & Q1). rewrite Q1 in R1.
  destruct (rnd_error (real q * real k)) as (e2 & h2 & E2 & H2 & Q2). rewrite Q2 in R2.
  destruct (rnd_diff_error (real (nmul p f)) (real (nmul q k)) (finite_format _ F1) (finite_format _ F2)) as (e3 & E3 & Q3). rewrite Q3 in R3.
  destruct (rnd_error (real df * real d)) as (e4 & h4 & E4 & H4 & Q4). rewrite Q4 in R4.
  set (D := real p * real f - real q * real k). set (s := real f + real k) in *.
  assert (S0 : 0 <= s) by (unfold s; lra). assert (US : 0 <= uu * s) by (apply Rmult_le_pos; lra).
  assert (N1 : Rabs ((real (nmul p f) - real (nmul q k)) - D) <= uu * s + 2 * tiny).
  { unfold D. rewrite R1, R2.
    replace (real p * real f * (1 + e1) + h1 - (real q * real k * (1 + e2) + h2) - (real p * real f - real q * real k))
      with ((e1 * (real p * real f) + - (e2 * (real q * real k))) + (h1 + - h2)) by ring.
    eapply Rle_trans; [apply Rabs_triang|]. apply Rplus_le_compat.
    - eapply Rle_trans; [apply Rabs_triang|]. rewrite Rabs_Ropp, (Rabs_mult e1), (Rabs_mult e2), (Rabs_right (real p * real f)), (Rabs_right (real q * real k)) by lra.
      assert (Rabs e1 * (real p * real f) <= uu * real f) by (apply Rmult_le_compat; try lra; apply Rabs_pos).
      assert (Rabs e2 * (real q * real k) <= uu * real k) by (apply Rmult_le_compat; try lra; apply Rabs_pos). unfold s. lra.
    - eapply Rle_trans; [apply Rabs_triang|]. rewrite Rabs_Ropp. lra. }
  set (D1 := real (nmul p f) - real (nmul q k)) in *.
  assert (N2 : Rabs (real d - D) <= 2 * (uu * s) + 2 * tiny).
  { rewrite R3. replace (D1 * (1 + e3) - D) with ((D1 - D) + e3 * D1) by ring. eapply Rle_trans; [apply Rabs_triang|]. rewrite Rabs_mult.
    assert (Rabs D1 <= s) by (unfold D1, s; apply Rabs_le; lra).
    assert (Rabs e3 * Rabs D1 <= uu * s) by (apply Rmult_le_compat; try lra; apply Rabs_pos). lra. }
  rewrite R4. fold D. replace (real df * real d * (1 + e4) + h4 - real df * D) with (real df * (real d - D) + e4 * (real df * real d) + h4) by ring.
  eapply Rle_trans; [apply Rabs_triang|]. eapply Rle_trans; [apply Rplus_le_compat_r, Rabs_triang|]. rewrite !Rabs_mult, (Rabs_right (real df)) by lra.
  assert (As : Rabs (real d) <= s) by (unfold s; apply Rabs_le; lra).
  assert (M1 : real df * Rabs (real d - D) <= real df * (2 * (uu * s) + 2 * tiny)) by (apply Rmult_le_compat_l; lra).
  assert (M2 : Rabs e4 * (real df * Rabs (real d)) <= uu * (real df * s)).
  { apply Rmult_le_compat; [apply Rabs_pos|apply Rmult_le_pos; [lra|apply Rabs_pos]|exact E4|]. apply Rmult_le_compat_l; lra. }
  assert (0 <= uu * (real df * s)) by (apply Rmult_le_pos; [lra|apply Rmult_le_pos; lra]).
  assert (0 <= tiny * real df) by (apply Rmult_le_pos; lra).
  replace (7 * uu / 2 * (real df * s)) with (3 * (uu * (real df * s)) + uu * (real df * s) / 2) by field.
  replace (real df * (2 * (uu * s) + 2 * tiny)) with (2 * (uu * (real df * s)) + 2 * (tiny * real df)) in M1 by ring. lra.
Qed.

Lemma arguments (TR : Trans F64) (f k s : F64) : logs TR -> finite f -> finite k -> finite s -> 0 <= real f -> 0 < real k -> 0 < real s <= huge ->
  number (fst (d_plus_minus (nln (ndiv f k)) s)) /\ number (snd (d_plus_minus (nln (ndiv f k)) s)).
Proof.
  intros HL Ff Fk Fs Pf Pk Ps. destruct (div_nonneg f k Ff Fk Pf Pk) as [N0 P0]. destruct (HL _ N0 P0) as [NL _]. unfold d_plus_minus. cbn [fst snd].
  assert (Fh : finite (nmul (nlit 1 2) s)).
  { assert (Fl : finite (nlit 1 2)) by (split; reflexivity). assert (Rl : real (nlit 1 2) = / 2) by (vm_compute; lra).
    apply (mul_spec _ _ Fl Fs). apply (bound_in_range _ 400); [lia|]. rewrite Rl, Rabs_right by lra. fold huge. lra. }
  assert (ND : number (nadd (ndiv (nln (ndiv f k)) s) (nmul (nlit 1 2) s))).
  { apply add_number; [|exact Fh]. apply div_number; [exact NL|exact Fs|lra]. }
  split; [exact ND|]. apply sub_number; assumption.
Qed.

Lemma black_parity eps cdf (TR : Trans F64) df f k s : balanced eps cdf -> logs TR -> finite df -> finite f -> finite k -> finite s ->
  0 <= real df <= huge -> 0 <= real f <= huge -> 0 < real k <= huge -> 0 < real s <= huge ->
  let c := call_price cdf df f k s in let p := put_price cdf df f k s in
  finite c /\ finite p /\ real c <= rnd (real df * real f) /\ real p <= rnd (real df * real k) /\
  Rabs (real c - real p - real df * (real f - real k)) <= (7 * uu + eps) * (real df * (real f + real k)) + 8 * tiny * (real df + 1).
Proof.
  intros HB HL Fd Ff Fk Fs Bd Bf Bk Bs c p. destruct (arguments TR f k s HL Ff Fk Fs) as [N1 N2]; [lra|lra|lra|].
  unfold c, p, call_price, put_price. clear c p. destruct (d_plus_minus (nln (ndiv f k)) s) as [dp dm]. cbn [fst snd] in *.
  destruct (HB dp N1) as (F1 & B1 & S1). destruct (HB dm N2) as (F2 & B2 & S2).
  destruct (HB _ (opp_number dp N1)) as (F3 & B3 & _). destruct (HB _ (opp_number dm N2)) as (F4 & B4 & _).
  assert (Bk' : 0 <= real k <= huge) by lra.
  destruct (weighted_near df _ _ f k Fd F1 F2 Ff Fk Bd B1 B2 Bf Bk') as (Fc & [_ Uc] & Nc).
  destruct (weighted_near df _ _ k f Fd F4 F3 Fk Ff Bd B4 B3 Bk' Bf) as (Fp & [_ Up] & Np).
  split; [exact Fc|]. split; [exact Fp|]. split; [exact Uc|]. split; [exact Up|].
  set (C := real (nmul df (nsub (nmul (cdf dp) f) (nmul (cdf dm) k)))) in *. set (P := real (nmul df (nsub (nmul (cdf (nopp dm)) k) (nmul (cdf (nopp dp)) f)))) in *.
  set (a := real (cdf dp)) in *. set (b := real (cdf dm)) in *. set (a' := real (cdf (nopp dp))) in *. set (b' := real (cdf (nopp dm))) in *.
  assert (Sy : Rabs (real df * ((a + a' - 1) * real f - (b + b' - 1) * real k)) <= eps * (real df * (real f + real k))).
  { rewrite Rabs_mult, (Rabs_right (real df)) by lra. replace (eps * (real df * (real f + real k))) with (real df * (eps * real f + eps * real k)) by ring.
    apply Rmult_le_compat_l; [lra|]. unfold Rminus at 1. eapply Rle_trans; [apply Rabs_triang|]. rewrite Rabs_Ropp, !Rabs_mult, (Rabs_right (real f)), (Rabs_right (real k)) by lra.
    apply Rplus_le_compat; apply Rmult_le_compat_r; lra. }
  replace (C - P - real df * (real f - real k))
    with ((C - real df * (a * real f - b * real k)) + (- (P - real df * (b' * real k - a' * real f)) + real df * ((a + a' - 1) * real f - (b + b' - 1) * real k))) by ring.
  eapply Rle_trans; [apply Rabs_triang|]. eapply Rle_trans; [apply Rplus_le_compat_l, Rabs_triang|]. rewrite Rabs_Ropp. rewrite (Rplus_comm (real k)) in Np. lra.
Qed.

(** ** The quotient of two doubles is on the right side of one *)

Lemma ulp_large x : 0 < x -> x < bpow radix2 53 * ulp radix2 (FLT_exp (-1074) 53) x.
Proof.
  intros P. rewrite ulp_neq_0 by lra. unfold cexp. rewrite <- bpow_plus. pose proof (bpow_mag_gt radix2 x) as B. rewrite Rabs_right in B by lra.
  eapply Rlt_le_trans; [exact B|]. apply bpow_le. unfold FLT_exp. lia.
Qed.

Lemma succ_le f k : finite f -> finite k -> 0 < real k < real f -> real k + ulp radix2 (FLT_exp (-1074) 53) (real k) <= real f.
Proof.
  intros Ff Fk [P L]. rewrite <- succ_eq_pos by lra. apply succ_le_lt; [apply FLT_exp_valid; reflexivity|now apply finite_format|now apply finite_format|exact L].
Qed.

Lemma format_1p : generic_format radix2 (FLT_exp (-1074) 53) (1 + bpow radix2 (-52)).
Proof.
  replace (1 + bpow radix2 (-52)) with (succ radix2 (FLT_exp (-1074) 53) 1).
  - apply generic_format_succ; [apply FLT_exp_valid; reflexivity|]. change 1 with (bpow radix2 0). apply generic_format_bpow. unfold FLT_exp. lia.
  - rewrite succ_eq_pos by lra. f_equal. change 1 with (bpow radix2 0). rewrite ulp_bpow. f_equal.
Qed.

Lemma quotient_above f k : finite f -> finite k -> 0 < real k < real f -> 1 < rnd (real f / real k).
Proof.
  intros Ff Fk H. pose proof (succ_le f k Ff Fk H) as S1. pose proof (ulp_large (real k) ltac:(lra)) as UL. set (u := ulp _ _ _) in *.
  assert (Q : 1 + bpow radix2 (-53) < real f / real k).
  { apply Rmult_lt_reg_r with (real k); [lra|]. unfold Rdiv. rewrite Rmult_assoc, Rinv_l, Rmult_1_r by lra.
    assert (bpow radix2 (-53) * real k < u).
    { apply Rmult_lt_reg_l with (bpow radix2 53); [apply bpow_gt_0|]. rewrite <- Rmult_assoc, <- bpow_plus. change (bpow radix2 (53 + -53)) with 1. lra. }
    lra. }
  assert (R : 1 + bpow radix2 (-52) <= rnd (real f / real k)).
  { apply round_N_ge_midp; [apply FLT_exp_valid; reflexivity|exact format_1p|].
    assert (P : pred radix2 (FLT_exp (-1074) 53) (1 + bpow radix2 (-52)) = 1).
    { replace (1 + bpow radix2 (-52)) with (succ radix2 (FLT_exp (-1074) 53) 1).
      - apply pred_succ; [apply FLT_exp_valid; reflexivity|]. change 1 with (bpow radix2 0). apply generic_format_bpow. unfold FLT_exp. lia.
      - rewrite succ_eq_pos by lra. f_equal. change 1 with (bpow radix2 0) at 1. rewrite ulp_bpow. reflexivity. }
    rewrite P. replace ((1 + bpow radix2 (-52) + 1) / 2) with (1 + bpow radix2 (-53)); [exact Q|].
    change (-52)%Z with (1 + -53)%Z. rewrite bpow_plus. change (bpow radix2 1) with 2. field. }
  pose proof (bpow_gt_0 radix2 (-52)). lra.
Qed.

Lemma quotient_below f k : finite f -> finite k -> 0 <= real f < real k -> rnd (real f / real k) < 1.
Proof.
  intros Ff Fk H. destruct (Req_dec (real f) 0) as [Z|Z].
  { rewrite Z. unfold Rdiv. rewrite Rmult_0_l, rnd_0. lra. }
  pose proof (succ_le k f Fk Ff ltac:(lra)) as S1. pose proof (ulp_large (real f) ltac:(lra)) as UL. set (u := ulp _ _ _) in *.
  assert (Q : real f / real k < 1 - bpow radix2 (-54)).
  { apply Rmult_lt_reg_r with (real k); [lra|]. unfold Rdiv. rewrite Rmult_assoc, Rinv_l, Rmult_1_r by lra.
    assert (U0 : 0 < u). { assert (P53 : 0 < bpow radix2 53) by apply bpow_gt_0. nra. }
    assert (HH : bpow radix2 (-54) * (real f + u) < u).
    { apply Rmult_lt_reg_l with (bpow radix2 54); [apply bpow_gt_0|]. rewrite <- Rmult_assoc, <- bpow_plus. change (bpow radix2 (54 + -54)) with 1.
      change (bpow radix2 54) with 18014398509481984. change (bpow radix2 53) with 9007199254740992 in UL. lra. }
    assert (SM : 0 < bpow radix2 (-54) < 1). { split; [apply bpow_gt_0|]. change 1 with (bpow radix2 0). apply bpow_lt. lia. }
    assert ((1 - bpow radix2 (-54)) * (real f + u) <= (1 - bpow radix2 (-54)) * real k) by (apply Rmult_le_compat_l; lra). lra. }
  assert (F1 : generic_format radix2 (FLT_exp (-1074) 53) 1) by (change 1 with (bpow radix2 0); apply generic_format_bpow; unfold FLT_exp; lia).
  assert (P : pred radix2 (FLT_exp (-1074) 53) 1 = 1 - bpow radix2 (-53)).
  { change 1 with (bpow radix2 0) at 1. rewrite pred_bpow. reflexivity. }
  assert (R : rnd (real f / real k) <= 1 - bpow radix2 (-53)).
  { apply round_N_le_midp; [apply FLT_exp_valid; reflexivity| |].
    - rewrite <- P. apply generic_format_pred; [apply FLT_exp_valid; reflexivity|exact F1].
    - rewrite <- P. rewrite succ_pred; [|apply FLT_exp_valid; reflexivity|exact F1]. rewrite P.
      replace ((1 - bpow radix2 (-53) + 1) / 2) with (1 - bpow radix2 (-54)); [exact Q|].
      change (-53)%Z with (1 + -54)%Z. rewrite bpow_plus. change (bpow radix2 1) with 2. field. }
  pose proof (bpow_gt_0 radix2 (-53)). lra.
Qed.

Lemma moneyness f k : finite f -> finite k -> 0 <= real f -> 0 < real k ->
  (real k < real f -> 1 < place (ndiv f k)) /\ (real f < real k -> place (ndiv f k) < 1) /\ (real f = real k -> place (ndiv f k) = 1).
Proof.
  intros Ff Fk Pf Pk. destruct (div_nonneg f k Ff Fk Pf Pk) as [N0 P0].
  destruct (Rlt_dec (Rabs (rnd (real f / real k))) (bpow radix2 1024)) as [L|L].
  - destruct (div_spec f k Ff Fk) as [F R]; [lra|exact L|]. rewrite finite_place, R by exact F. repeat split; intros H.
    + apply quotient_above; auto.
    + apply quotient_below; auto.
    + rewrite H. unfold Rdiv. rewrite Rinv_r by lra. apply rnd_1.
  - assert (Big : real k < real f).
    { apply Rnot_le_lt. intros K. apply L. assert (0 <= real f / real k <= 1).
      { split; [apply Rmult_le_pos; [exact Pf|left; now apply Rinv_0_lt_compat]|]. apply Rmult_le_reg_r with (real k); [lra|]. unfold Rdiv. rewrite Rmult_assoc, Rinv_l; lra. }
      destruct (rnd_unit _ H) as [A B]. rewrite Rabs_right by lra. apply Rle_lt_trans with 1; [lra|]. change 1 with (bpow radix2 0). apply bpow_lt. lia. }
    split; [intros _|split; intros; lra].
    destruct (number_cases _ N0) as [F|[E|E]].
    + exfalso. apply L. destruct (finite_B f Ff) as (bf & <- & Fbf & Rf). destruct (finite_B k Fk) as (b & <- & Fb & Rb).
      cbn [ndiv FNum] in F. rewrite div_equiv in F. assert (Ny : B2R b <> 0) by lra. pose proof (Bdiv_correct 53 1024 L_Double.Hprec L_Double.Hmax mode_NE bf b Ny) as C. cbv zeta in C.
      rewrite fexp_eq in C. change (round radix2 (FLT_exp (-1074) 53) (round_mode mode_NE)) with rnd in C. rewrite Rf, Rb in C.
      rewrite Rlt_bool_false in C by lra. rewrite C in F. destruct F as [_ F]. discriminate.
    + rewrite E. cbn [place]. change 1 with (bpow radix2 0). apply bpow_lt. lia.
    + rewrite E in P0. cbn [place] in P0. pose proof (bpow_gt_0 radix2 1024). lra.
Qed.

(** ** Without variance *)

Notation plus_infinity := (S754_infinity false).
Notation minus_infinity := (S754_infinity true).

Lemma positive_form l : number l -> 0 < place l -> (exists m e, l = S754_finite false m e) \/ l = plus_infinity.
Proof.
  intros [D N] P. destruct l as [s|[|]| |[|] m e]; cbn [place] in P; auto; try (exfalso; unfold real, SF2R in P; lra).
  - exfalso. pose proof (bpow_gt_0 radix2 1024). lra.
  - exfalso. unfold real, SF2R in P. assert (F2R (Float radix2 (cond_Zopp true (Z.pos m)) e) < 0) by (apply F2R_lt_0; reflexivity). lra.
  - left. eauto.
Qed.
Lemma negative_form l : number l -> place l < 0 -> (exists m e, l = S754_finite true m e) \/ l = minus_infinity.
Proof.
  intros [D N] P. destruct l as [s|[|]| |[|] m e]; cbn [place] in P; auto; try (exfalso; unfold real, SF2R in P; lra).
  - exfalso. pose proof (bpow_gt_0 radix2 1024). lra.
  - left. eauto.
  - exfalso. unfold real, SF2R in P. assert (0 < F2R (Float radix2 (cond_Zopp false (Z.pos m)) e)) by (apply F2R_gt_0; reflexivity). lra.
Qed.

Lemma no_variance_above l : number l -> 0 < place l -> d_plus_minus l n0 = (plus_infinity, plus_infinity).
Proof. intros N P. destruct (positive_form l N P) as [(m & e & ->)| ->]; reflexivity. Qed.
Lemma no_variance_below l : number l -> place l < 0 -> d_plus_minus l n0 = (minus_infinity, minus_infinity).
Proof. intros N P. destruct (negative_form l N P) as [(m & e & ->)| ->]; reflexivity. Qed.

Lemma settled (df f k p : F64) (x : R) : finite df -> finite f -> finite k -> 0 <= real df <= huge -> 0 <= real f <= huge -> 0 <= real k <= huge ->
  (p = n1 /\ x = 1) \/ (p = n0 /\ x = 0) ->
  finite (nmul df (nsub (nmul p f) (nmul p k))) /\ real (nmul df (nsub (nmul p f) (nmul p k))) = rnd (real df * rnd (x * (real f - real k))).
Proof.
  intros Fd Ff Fk Bd Bf Bk Hp. assert (Fp : finite p /\ real p = x).
  { destruct Hp as [[-> ->]|[-> ->]]; [exact one_spec|exact zero_spec]. }
  destruct Fp as [Fp Rp]. assert (X : 0 <= x <= 1) by (destruct Hp as [[_ ->]|[_ ->]]; lra).
  assert (G : forall y, finite y -> 0 <= real y <= huge -> finite (nmul p y) /\ real (nmul p y) = x * real y).
  { intros y Fy By. destruct (mul_spec p y Fp Fy) as [F R].
    - apply (bound_in_range _ 400); [lia|]. rewrite Rp. fold huge. rewrite Rabs_right; nra.
    - split; [exact F|]. rewrite R, Rp. destruct Hp as [[_ ->]|[_ ->]].
      + rewrite Rmult_1_l. apply round_generic; [apply valid_rnd_N|now apply finite_format].
      + rewrite Rmult_0_l. apply rnd_0. }
  destruct (G f Ff Bf) as [F1 R1]. destruct (G k Fk Bk) as [F2 R2].
  assert (A : Rabs (x * real f - x * real k) <= huge) by (apply Rabs_le; nra).
  destruct (sub_spec _ _ F1 F2) as [F3 R3]; [rewrite R1, R2; apply (bound_in_range _ 400); [lia|exact A]|]. rewrite R1, R2 in R3.
  assert (A3 : Rabs (rnd (x * real f - x * real k)) <= huge) by (apply rnd_bound; [lia|exact A]).
  destruct (mul_spec df _ Fd F3) as [F4 R4].
  - apply (bound_in_range _ 800); [lia|]. rewrite R3, Rabs_mult, (Rabs_right (real df)) by lra.
    replace (bpow radix2 800) with (huge * huge) by (unfold huge; rewrite <- bpow_plus; reflexivity). apply Rmult_le_compat; [lra|apply Rabs_pos|lra|exact A3].
  - split; [exact F4|]. rewrite R4, R3. do 3 f_equal. ring.
Qed.

Lemma intrinsic (cdf : F64 -> F64) (TR : Trans F64) df f k : logs TR -> cdf plus_infinity = n1 -> cdf minus_infinity = n0 -> finite df -> finite f -> finite k ->
  0 <= real df <= huge -> 0 <= real f <= huge -> 0 < real k <= huge -> real f <> real k ->
  let c := call_price cdf df f k n0 in let p := put_price cdf df f k n0 in
  finite c /\ finite p /\ real c = rnd (real df * rnd (Rmax (real f - real k) 0)) /\ real p = rnd (real df * rnd (Rmax (real k - real f) 0)).
Proof.
  intros HL C1 C0 Fd Ff Fk Bd Bf Bk NE c p. destruct (div_nonneg f k Ff Fk) as [N0 P0]; [lra|lra|]. destruct (HL _ N0 P0) as (NL & HA & HB & _).
  destruct (moneyness f k Ff Fk) as (MA & MB & _); [lra|lra|]. unfold c, p, call_price, put_price. clear c p.
  assert (Bk' : 0 <= real k <= huge) by lra.
  destruct (Rtotal_order (real f) (real k)) as [L|[E|L]]; [| contradiction|].
  - rewrite (no_variance_below _ NL (HB (MB L))). change (nopp minus_infinity) with plus_infinity. rewrite C1, C0.
    destruct (settled df f k n0 0 Fd Ff Fk Bd Bf Bk') as [F1 R1]; [right; auto|]. destruct (settled df k f n1 1 Fd Fk Ff Bd Bk' Bf) as [F2 R2]; [left; auto|].
    split; [exact F1|]. split; [exact F2|]. rewrite R1, R2, Rmax_right, Rmax_left, Rmult_0_l, Rmult_1_l by lra. split; reflexivity.
  - rewrite (no_variance_above _ NL (HA (MA L))). change (nopp plus_infinity) with minus_infinity. rewrite C1, C0.
    destruct (settled df f k n1 1 Fd Ff Fk Bd Bf Bk') as [F1 R1]; [left; auto|]. destruct (settled df k f n0 0 Fd Fk Ff Bd Bk' Bf) as [F2 R2]; [right; auto|].
    split; [exact F1|]. split; [exact F2|]. rewrite R1, R2, Rmax_left, Rmax_right, Rmult_0_l, Rmult_1_l by lra. split; reflexivity.
Qed.

Lemma mul_nan_r (x : F64) : nmul x F_nan = F_nan.
Proof. destruct x as [s|s| |s m e]; reflexivity. Qed.
Lemma zero_form l : number l -> place l = 0 -> exists s, l = S754_zero s.
Proof.
  intros [D N] P. destruct l as [s|[|]| |[|] m e]; cbn [place] in P; eauto; exfalso; try (pose proof (bpow_gt_0 radix2 1024); lra); unfold real, SF2R in P.
  - now apply N.
  - assert (F2R (Float radix2 (cond_Zopp true (Z.pos m)) e) < 0) by (apply F2R_lt_0; reflexivity). lra.
  - assert (0 < F2R (Float radix2 (cond_Zopp false (Z.pos m)) e)) by (apply F2R_gt_0; reflexivity). lra.
Qed.

Lemma at_the_money (cdf : F64 -> F64) (TR : Trans F64) df f k : logs TR -> cdf F_nan = F_nan -> finite f -> finite k -> 0 < real k -> real f = real k ->
  call_price cdf df f k n0 = F_nan /\ put_price cdf df f k n0 = F_nan.
Proof.
  intros HL CN Ff Fk Pk E. destruct (div_nonneg f k Ff Fk) as [N0 P0]; [lra|lra|]. destruct (HL _ N0 P0) as (NL & _ & _ & HE).
  destruct (moneyness f k Ff Fk) as (_ & _ & ME); [lra|lra|]. destruct (zero_form _ NL (HE (ME E))) as (s & Z).
  unfold call_price, put_price. rewrite Z. assert (DP : d_plus_minus (S754_zero s : F64) (n0 : F64) = (F_nan, F_nan)) by (destruct s; reflexivity).
  rewrite DP. change (nopp F_nan) with F_nan. rewrite CN. split; apply (mul_nan_r df).
Qed.

(** ** An option priced at its expiry *)

Definition share : instrument F64 := IEquity "BP" "BP-CR" (mkCurrency "USD" NullRule) NullRule.
Definition share_option (pc : put_or_call) : vanilla F64 :=
  mkVanilla "OPT" "OPT-CR" share NullRule (mkDT 365%Z Open_) pc CashSettled (mkDDF 365%Z n0) 365%Z.
Definition flat_market : pricing_context F64 :=
  mkContext 0%Z (fun _ _ => Ok (ZeroRateCurve 0%Z)) (fun _ => Ok (nofZ 100)) (fun _ _ => Ok (DriftlessForward (nofZ 100)))
    (fun _ _ _ => Ok (FlatVolSurface (nlit 1 5) EveryDay (mkDDF 0%Z n0))).

Lemma share_option_new pc : vanilla_new "OPT" "OPT-CR" share NullRule (mkDT 365%Z Open_) pc CashSettled = Ok (share_option pc).
Proof. vm_compute. reflexivity. Qed.

Lemma expiry_price (TR : Trans F64) nan cdf pc k :
  price nan cdf flat_market (ISpotEuropean (share_option pc) k) (mkDT 365%Z Open_) =
    Ok (match pc with Call => call_price cdf | Put => put_price cdf end (nmul (nexp (nopp n0)) (nexp n0)) (nofZ 100) (nadd k n0) n0).
Proof.
  assert (Q : nsqrt (n0 : F64) = n0) by (vm_compute; reflexivity). assert (G : nsub (nofZ 100 : F64) n0 = nofZ 100) by (vm_compute; reflexivity).
  enough (E : price nan cdf flat_market (ISpotEuropean (share_option pc) k) (mkDT 365%Z Open_) =
    Ok (black cdf pc (nmul (nexp (nopp n0)) (nexp n0)) (nsub (nofZ 100 : F64) n0) (nadd k n0) (nsqrt (n0 : F64)))) by (rewrite Q, G in E; exact E).
  apply (spot_priced nan cdf flat_market (share_option pc) k (mkDT 365%Z Open_) (nofZ 100) (ZeroRateCurve 0%Z)
    (FlatVolSurface (nlit 1 5) EveryDay (mkDDF 0%Z n0)) n0 n0 365%Z n0 (mkDDF 365%Z n0) n0); vm_compute; reflexivity.
Qed.

Lemma expiry_nan (TR : Trans F64) nan cdf pc : logs TR -> cdf F_nan = F_nan ->
  price nan cdf flat_market (ISpotEuropean (share_option pc) (nofZ 100)) (mkDT 365%Z Open_) = Ok F_nan.
Proof.
  intros HL CN. rewrite expiry_price. f_equal.
  assert (F : finite (nofZ 100 : F64)) by (split; reflexivity). assert (F' : finite (nadd (nofZ 100) n0 : F64)) by (split; reflexivity).
  assert (R : real (nofZ 100) = 100) by (vm_compute; lra). assert (R' : real (nadd (nofZ 100) n0) = 100) by (vm_compute; lra).
  destruct (at_the_money cdf TR (nmul (nexp (nopp n0)) (nexp n0)) (nofZ 100) (nadd (nofZ 100) n0) HL CN F F') as [C P]; [lra|lra|].
  destruct pc; assumption.
Qed.

(** ** Fixing *)

Lemma difference_sign x k : modest x -> modest k ->
  finite (nsub x k) /\ (exists e, Rabs e <= uu /\ real (nsub x k) = (real x - real k) * (1 + e)) /\
  finite (nmul (nopp n1) (nsub x k)) /\ real (nmul (nopp n1) (nsub x k)) = - real (nsub x k) /\
  finite (nmul n1 (nsub x k)) /\ real (nmul n1 (nsub x k)) = real (nsub x k).
Proof.
  intros [Fx Bx] [Fk Bk]. assert (A : Rabs (real x - real k) <= bpow radix2 1001).
  { unfold Rminus. eapply Rle_trans; [apply Rabs_triang|]. rewrite Rabs_Ropp. change 1001%Z with (1 + 1000)%Z. rewrite bpow_plus. change (bpow radix2 1) with 2. lra. }
  destruct (sub_spec x k Fx Fk) as [F R]; [apply (bound_in_range _ 1001); [lia|exact A]|]. split; [exact F|].
  destruct (rnd_diff_error (real x) (real k) (finite_format _ Fx) (finite_format _ Fk)) as (e & He & Re). split; [exists e; split; [exact He|congruence]|].
  assert (A' : Rabs (real (nsub x k)) <= bpow radix2 1001) by (rewrite R; apply rnd_bound; [lia|exact A]).
  destruct one_spec as [F1 R1]. destruct (opp_spec n1 F1) as [Fo Ro]. rewrite R1 in Ro.
  assert (G : rnd (real (nsub x k)) = real (nsub x k)) by (apply round_generic; [apply valid_rnd_N|now apply finite_format]).
  assert (Gn : rnd (- real (nsub x k)) = - real (nsub x k)).
  { apply round_generic; [apply valid_rnd_N|]. apply generic_format_opp. now apply finite_format. }
  destruct (mul_spec _ _ Fo F) as [Fm Rm].
  { apply (bound_in_range _ 1001); [lia|]. rewrite Ro, Rabs_mult, Rabs_left, Ropp_involutive, Rmult_1_l by lra. exact A'. }
  split; [exact Fm|]. split; [rewrite Rm, Ro; replace (- (1) * real (nsub x k)) with (- real (nsub x k)) by ring; exact Gn|].
  destruct (mul_spec _ _ F1 F) as [Fp Rp].
  { apply (bound_in_range _ 1001); [lia|]. rewrite R1, Rmult_1_l. exact A'. }
  split; [exact Fp|]. rewrite Rp, R1, Rmult_1_l. exact G.
Qed.

Lemma pays pc x k : modest x -> modest k -> let pay := nmul (option_sign pc) (nsub x k) in
  (nltb n0 pay = true <-> in_the_money pc x k) /\
  finite pay /\ exists e, Rabs e <= uu /\ real pay = match pc with Call => real x - real k | Put => real k - real x end * (1 + e).
Proof.
  intros Mx Mk pay. destruct (difference_sign x k Mx Mk) as (F & (e & He & R) & Fm & Rm & Fp & Rp). destruct zero_spec as [F0 R0].
  pose proof uu_small as U. apply Rabs_le_inv in He as He'. assert (E1 : 0 < 1 + e) by lra.
  unfold pay, option_sign, in_the_money. destruct pc; rewrite (ltb_spec n0 _ F0) by assumption; rewrite R0; (split; [|split; [assumption|exists e; split; [exact He|]]]).
  - rewrite Rm, R. split; intros H; nra.
  - rewrite Rm, R. ring.
  - rewrite Rp, R. split; intros H; nra.
  - rewrite Rp, R. reflexivity.
Qed.

Lemma fix_double (t : fixing_table F64) v k x : get_optional t (instrument_id (van_underlying v)) (van_expiry v) = Some x -> modest x -> modest k ->
  exists d, fix_instrument t (ISpotEuropean v k) = Ok (Some d) /\ (~ in_the_money (van_put_or_call v) x k -> d = []) /\
    (in_the_money (van_put_or_call v) x k -> match van_cash_or_physical v, van_put_or_call v with
      | CashSettled, pc => exists pay e, d = [(pay, payment_of v)] /\ finite pay /\ Rabs e <= uu /\
          real pay = match pc with Call => real x - real k | Put => real k - real x end * (1 + e)
      | PhysicalSettled, Call => exists w, d = [(w, payment_of v); (n1, van_underlying v)] /\ finite w /\ real w = - real k
      | PhysicalSettled, Put => exists w, d = [(w, payment_of v); (nopp n1, van_underlying v)] /\ finite w /\ real w = real k
      end).
Proof.
  intros G Mx Mk. destruct (pays (van_put_or_call v) x k Mx Mk) as (I & F & e & He & R).
  destruct (van_cash_or_physical v) eqn:C.
  - eexists. split; [exact (fix_cash_any t v k x G C)|].
    destruct (nltb n0 _) eqn:L; split; intros H; try (exfalso; apply H, I; reflexivity); try reflexivity.
    + eexists _, e. split; [reflexivity|]. split; [exact F|]. split; [exact He|exact R].
    + apply I in H. discriminate.
  - eexists. split; [exact (fix_physical_any t v k x G C)|].
    destruct (nltb n0 _) eqn:L; split; intros H; try (exfalso; apply H, I; reflexivity); try reflexivity.
    + destruct Mk as [Fk Bk]. destruct (opp_spec k Fk) as [Fo Ro]. destruct one_spec as [F1 R1]. destruct (opp_spec n1 F1) as [Fn Rn]. rewrite R1 in Rn.
      assert (Gk : rnd (real k) = real k) by (apply round_generic; [apply valid_rnd_N|now apply finite_format]).
      assert (Gn : rnd (- real k) = - real k) by (apply round_generic; [apply valid_rnd_N|apply generic_format_opp; now apply finite_format]).
      unfold option_sign. destruct (van_put_or_call v).
      * destruct (mul_spec _ _ Fo Fn) as [Fm Rm]; [rewrite Ro, Rn; apply (bound_in_range _ 1000); [lia|]; replace (- real k * - (1)) with (real k) by ring; exact Bk|].
        eexists. split; [reflexivity|]. split; [exact Fm|]. rewrite Rm, Ro, Rn. replace (- real k * - (1)) with (real k) by ring. exact Gk.
      * destruct (mul_spec _ _ Fo F1) as [Fm Rm]; [rewrite Ro, R1, Rmult_1_r; apply (bound_in_range _ 1000); [lia|]; rewrite Rabs_Ropp; exact Bk|].
        eexists. split; [reflexivity|]. split; [exact Fm|]. rewrite Rm, Ro, R1, Rmult_1_r. exact Gn.
    + apply I in H. discriminate.
Qed.

(** ** A logarithm and a distribution function *)

Definition rounded_ln : Trans F64 := {| nexp := nexp (Trans := rounded_exp);
  nln := fun x => match x with
    | S754_infinity false => plus_infinity
    | S754_zero _ => minus_infinity
    | _ => nearest_double (ln (real x))
    end |}.

Lemma ln_mono x y : 0 < x -> x <= y -> ln x <= ln y.
Proof. intros P [L| ->]; [left; now apply ln_increasing|lra]. Qed.

Lemma ln_range x : finite x -> 0 < real x -> Rabs (ln (real x)) <= bpow radix2 1000.
Proof.
  intros F P. assert (E3 : forall x, 1 + x <= exp x) by exact exp_ineq1_le.
  assert (B : bpow radix2 11 <= bpow radix2 1000) by (apply bpow_le; lia). change (bpow radix2 11) with 2048 in B.
  assert (HB : forall n : Z, (0 <= n)%Z -> ln (bpow radix2 n) <= IZR n).
  { intros n Hn. rewrite bpow_exp. rewrite ln_exp.
    assert (ln (IZR radix2) <= 1). { pose proof (E3 (ln 2)) as X. rewrite exp_ln in X by lra. change (IZR radix2) with 2. lra. }
    apply IZR_le in Hn. nra. }
  assert (U : real x < bpow radix2 1024).
  { destruct (finite_B x F) as (b & <- & Fb & Rb). rewrite <- Rb in *. pose proof (abs_B2R_lt_emax 53 1024 b) as A. rewrite Rabs_right in A by lra. exact A. }
  assert (Lw : bpow radix2 (-1074) <= real x).
  { destruct (finite_B x F) as (b & <- & Fb & Rb). rewrite <- Rb in *. assert (SP : is_finite_strict b = true) by (destruct b; cbn in P, Fb |- *; try lra; try discriminate; reflexivity).
    pose proof (abs_B2R_ge_emin 53 1024 b SP) as A. rewrite Rabs_right in A by lra. exact A. }
  apply Rle_trans with 2048; [|exact B]. apply Rabs_le. split.
  - apply Ropp_le_cancel. rewrite <- ln_Rinv by exact P. rewrite Ropp_involutive. apply Rle_trans with (ln (bpow radix2 1074)).
    + apply ln_mono; [now apply Rinv_0_lt_compat|]. change 1074%Z with (- (-1074))%Z. rewrite bpow_opp. apply Rinv_le_contravar; [apply bpow_gt_0|exact Lw].
    + pose proof (HB 1074%Z ltac:(lia)). lra.
  - apply Rle_trans with (ln (bpow radix2 1024)); [apply ln_mono; lra|]. pose proof (HB 1024%Z ltac:(lia)). lra.
Qed.

Lemma rounded_ln_logs : logs rounded_ln.
Proof.
  intros x N P. destruct (number_cases x N) as [F|[->| ->]].
  - rewrite (finite_place x F) in *. destruct (Rle_lt_or_eq_dec _ _ P) as [P'|Z].
    + assert (E : nln (Trans := rounded_ln) x = nearest_double (ln (real x))) by (destruct x as [s|[]| |s m e]; try reflexivity; cbn in P'; lra).
      rewrite E. pose proof (ln_range x F P') as B. destruct (nearest_double_spec (ln (real x))) as [Fl Rl]; [apply (bound_in_range _ 1000); [lia|exact B]|].
      rewrite (finite_place _ Fl), Rl. split; [now apply finite_number|].
      assert (E3 : forall x, 1 + x <= exp x) by exact exp_ineq1_le. destruct one_spec as [F1 R1].
      assert (Pos : 0 < bpow radix2 (-60)) by apply bpow_gt_0.
      assert (G60 : rnd (bpow radix2 (-60)) = bpow radix2 (-60)) by (apply round_generic; [apply valid_rnd_N|apply generic_format_bpow; unfold FLT_exp; lia]).
      assert (G60n : rnd (- bpow radix2 (-60)) = - bpow radix2 (-60)) by (apply round_generic; [apply valid_rnd_N|apply generic_format_opp, generic_format_bpow; unfold FLT_exp; lia]).
      split; [|split].
      * intros H. pose proof (quotient_above x n1 F F1) as Q. pose proof (succ_le x n1 F F1) as S1. rewrite R1 in *. specialize (S1 ltac:(lra)).
        assert (UB : ulp radix2 (FLT_exp (-1074) 53) 1 = bpow radix2 (-52)) by (change 1 with (bpow radix2 0); rewrite ulp_bpow; reflexivity). rewrite UB in S1.
        assert (SM : bpow radix2 (-52) = 256 * bpow radix2 (-60)) by (change (-52)%Z with (8 + -60)%Z; rewrite bpow_plus; reflexivity).
        assert (LT : bpow radix2 (-60) <= / 256). { change (/ 256) with (bpow radix2 (-8)). apply bpow_le. lia. }
        apply Rlt_le_trans with (bpow radix2 (-60)); [exact Pos|]. rewrite <- G60. apply rnd_le.
        pose proof (E3 (- ln (real x))) as X. rewrite exp_Ropp, exp_ln in X by exact P'.
        assert (/ real x <= 1 - bpow radix2 (-60)).
        { apply Rmult_le_reg_r with (real x); [exact P'|]. rewrite Rinv_l by lra. nra. }
        lra.
      * intros H. pose proof (succ_le n1 x F1 F) as S1. rewrite R1 in S1. specialize (S1 ltac:(lra)).
        pose proof (ulp_large (real x) P') as UL.
        assert (SM : bpow radix2 53 * bpow radix2 (-60) <= / 2). { rewrite <- bpow_plus. change (/ 2) with (bpow radix2 (-1)). apply bpow_le. lia. }
        assert (LT : bpow radix2 (-60) <= / 256). { change (/ 256) with (bpow radix2 (-8)). apply bpow_le. lia. }
        apply Rle_lt_trans with (- bpow radix2 (-60)); [|lra]. rewrite <- G60n. apply rnd_le.
        pose proof (E3 (ln (real x))) as X. rewrite exp_ln in X by exact P'.
        assert (real x <= 1 - bpow radix2 (-60)); [|lra]. assert (0 < bpow radix2 53) by apply bpow_gt_0. set (u := ulp _ _ _) in *.
        destruct (Rle_lt_dec (/ 2) (real x)) as [L|L]; [|lra].
        assert (bpow radix2 (-60) <= u); [|lra].
        apply Rmult_le_reg_l with (bpow radix2 53); [assumption|]. lra.
      * intros ->. rewrite ln_1, rnd_0. reflexivity.
    + assert (E : exists s, x = S754_zero s) by (apply zero_form; [exact N|rewrite finite_place by exact F; congruence]). destruct E as (s & ->).
      cbn [nln rounded_ln]. assert (Pb : 0 < bpow radix2 1024) by apply bpow_gt_0. split; [split; [reflexivity|discriminate]|]. rewrite <- Z.
      cbn [place]. repeat split; intros; lra.
  - cbn [nln rounded_ln]. assert (Pb : 1 < bpow radix2 1024) by (change 1 with (bpow radix2 0); apply bpow_lt; lia).
    split; [split; [reflexivity|discriminate]|]. cbn [place]. repeat split; intros; lra.
  - cbn [place] in P. assert (Pb : 0 < bpow radix2 1024) by apply bpow_gt_0. lra.
Qed.

Definition step_cdf (x : F64) : F64 :=
  match x with
  | S754_nan => F_nan
  | S754_zero _ => nlit 1 2
  | S754_infinity false | S754_finite false _ _ => n1
  | _ => n0
  end.

Lemma step_cdf_balanced : balanced 0 step_cdf /\ step_cdf F_nan = F_nan /\ step_cdf plus_infinity = n1 /\ step_cdf minus_infinity = n0.
Proof.
  split; [|repeat split]. destruct one_spec as [F1 R1]. destruct zero_spec as [F0 R0].
  assert (FH : finite (nlit 1 2 : F64)) by (split; reflexivity). assert (RH : real (nlit 1 2) = / 2) by (vm_compute; lra).
  intros x [_ N]. destruct x as [s|s| |s m e]; [| |now contradiction N|]; [|destruct s..]; cbn [step_cdf nopp FNum SFopp negb]; rewrite ?R1, ?R0, ?RH;
    (split; [assumption|split; [lra|]]); rewrite Rabs_right; lra.
Qed.

Lemma expiry_day :
  let market := mkContext 0%Z (fun _ _ => Ok (ZeroRateCurve 0%Z)) (fun _ => Ok (nofZ 100)) (fun _ _ => Ok (DriftlessForward (nofZ 100)))
    (fun _ _ _ => Ok (FlatVolSurface (nlit 1 5) EveryDay (mkDDF 0%Z n0))) in
  forall (TR : Trans F64) nan cdf pc, logs TR -> cdf F_nan = F_nan -> exists v,
    vanilla_new "OPT" "OPT-CR" (IEquity "BP" "BP-CR" (mkCurrency "USD" NullRule) NullRule) NullRule (mkDT 365%Z Open_) pc CashSettled = Ok v /\
    price nan cdf market (ISpotEuropean v (nofZ 100)) (mkDT 365%Z Open_) = Ok F_nan.
Proof. intros market TR nan cdf pc HL CN. exists (share_option pc). split; [apply share_option_new|]. exact (expiry_nan TR nan cdf pc HL CN). Qed.

Lemma assumptions_hold : logs rounded_ln /\ accurate (2 * uu) rounded_ln /\
  exists cdf, balanced 0 cdf /\ cdf F_nan = F_nan /\ cdf plus_infinity = n1 /\ cdf minus_infinity = n0.
Proof. split; [exact rounded_ln_logs|]. split; [exact rounded_exp_accurate|]. exists step_cdf. exact step_cdf_balanced. Qed.

Lemma ordinary_numbers : forall x, In x [nlit 9 10; nofZ 100; nofZ 120; nlit 1 5] -> finite x /\ 0 < real x <= bpow radix2 400.
Proof.
  assert (B : bpow radix2 7 <= bpow radix2 400) by (apply bpow_le; lia). change (bpow radix2 7) with 128 in B.
  assert (R : forall x : F64, finite x -> 0 < real x <= 128 -> finite x /\ 0 < real x <= bpow radix2 400) by (intros; split; [assumption|lra]).
  intros x [<-|[<-|[<-|[<-|[]]]]]; (apply R; [split; reflexivity|vm_compute; lra]).
Qed.
