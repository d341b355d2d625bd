(** How far option prices on doubles are from Black's. *)
From Coq Require Import ZArith List Reals Lra Lia Psatz.
From Coq.Floats Require Import SpecFloat.
From Flocq Require Import Core BinarySingleNaN.
From Verif Require Import Prelude Num M_Dates M_Calendar M_Curves M_Vol M_Black76 M_Instruments S_Math S_Calendar S_Interp S_Data S_Expectation S_Vol S_VolDouble S_Double S_CurveDouble S_BlackDouble L_Normal L_Gauss L_Black76 L_Expectation L_Double L_DoubleError L_InterpDouble L_BrentDouble L_CalendarDouble L_CurveDouble L_BlackDouble L_VolDouble.
From Verif Require L_BlackPrices L_PricingAny.
Import ListNotations.
Open Scope list_scope.
Open Scope R_scope.

#[local] Instance Hprec : FLX.Prec_gt_0 53 := eq_refl _.
#[local] Instance Hmax : Prec_lt_emax 53 1024 := eq_refl _.

(** ** Real numbers *)

Lemma ln_below x : 0 < x -> ln x <= x - 1.
Proof. intros P. pose proof (exp_ineq1_le (ln x)) as E. rewrite exp_ln in E by exact P. lra. Qed.

Lemma ln_1p e : Rabs e <= / 100 -> Rabs (ln (1 + e)) <= 102 / 100 * Rabs e.
Proof.
  intros H. pose proof (Rabs_le_inv _ _ H) as B. assert (P : 0 < 1 + e) by lra. pose proof (ln_below (1 + e) P) as U.
  pose proof (ln_below (/ (1 + e)) (Rinv_0_lt_compat _ P)) as L. rewrite ln_Rinv in L by exact P.
  assert (Q : / (1 + e) - 1 = - e * / (1 + e)) by (field; lra).
  assert (I : 0 < / (1 + e) <= 102 / 100).
  { split; [now apply Rinv_0_lt_compat|]. apply (Rmult_le_reg_r (1 + e)); [exact P|]. rewrite Rinv_l by lra. lra. }
  assert (E : Rabs (- e * / (1 + e)) <= 102 / 100 * Rabs e).
  { rewrite Rabs_mult, Rabs_Ropp, (Rabs_right (/ (1 + e))) by lra. pose proof (Rabs_pos e). nra. }
  apply Rabs_le_inv in E. pose proof (Rle_abs e). pose proof (Rabs_pos e). apply Rabs_le. lra.
Qed.

Section Normal.
  Variable N : R -> R.
  Hypothesis HN : normal_cdf N.

  Lemma density_below_1 c : (forall x, derivable_pt_lim N x (c * bell x)) -> 0 < c -> c <= 1.
  Proof.
    intros D C. destruct (MVT_cor2 N (fun x => c * bell x) (-1) 1 ltac:(lra)) as (z & E & B); [intros; apply D|].
    pose proof (cdf_lt_1 N HN 1). pose proof (cdf_pos N HN (-1)).
    assert (/ 2 <= bell z). { unfold bell. eapply Rle_trans; [|apply exp_ineq1_le]. nra. }
    nra.
  Qed.

  Lemma cdf_lipschitz x y : Rabs (N x - N y) <= Rabs (x - y).
  Proof.
    destruct (nc_density N HN) as (c & C & D). pose proof (density_below_1 c D C) as C1.
    assert (K : forall x y, x < y -> Rabs (N x - N y) <= Rabs (x - y)).
    { clear x y. intros x y L. destruct (MVT_cor2 N (fun x => c * bell x) x y L) as (z & E & _); [intros; apply D|].
      rewrite Rabs_minus_sym, E, Rabs_mult, (Rabs_minus_sym x y). pose proof (bell_pos z). pose proof (bell_le_1 z).
      rewrite (Rabs_right (c * bell z)) by nra. rewrite <- (Rmult_1_l (Rabs (y - x))) at 2. apply Rmult_le_compat_r; [apply Rabs_pos|nra]. }
    destruct (Rtotal_order x y) as [L|[->|L]]; [now apply K|rewrite !Rminus_diag_eq by reflexivity; lra|].
    rewrite Rabs_minus_sym, (Rabs_minus_sym x y). now apply K.
  Qed.

  Lemma call_near_s df f k s1 s2 : 0 <= df -> 0 < f -> 0 < k -> 0 < s1 -> 0 < s2 ->
    Rabs (call_price N df f k s1 - call_price N df f k s2) <= df * f * Rabs (s1 - s2).
  Proof.
    intros Hd Hf Hk. assert (K : forall s1 s2, 0 < s1 -> s1 < s2 -> Rabs (call_price N df f k s1 - call_price N df f k s2) <= df * f * Rabs (s1 - s2)).
    { clear s1 s2. intros s1 s2 H1 H2. destruct (nc_density N HN) as (c & Hc & D). pose proof (density_below_1 c D Hc) as C1.
      destruct (MVT_cor2 (fun s => call_price N df f k s) (fun s => df * (c * bell (dplus f k s) * f)) s1 s2 H2) as (z & E & Z1 & Z2).
      - intros z (Z1 & Z2). destruct (dplus_in_s f k z ltac:(lra)) as (d & Dd).
        pose proof (call_chain N c df (fun _ => f) (fun _ => k) (fun s => s) z 0 0 d D Hf Hk ltac:(lra) 1) as C. cbn beta in C.
        replace (df * (c * bell (dplus f k z) * f)) with (df * (N (dplus f k z) * 0 - N (dminus f k z) * 0 + c * bell (dplus f k z) * f * 1)) by ring.
        apply C; [apply derivable_pt_lim_const|apply derivable_pt_lim_const|apply derivable_pt_lim_id|exact Dd].
      - cbn beta in E. rewrite Rabs_minus_sym, E, Rabs_mult, (Rabs_minus_sym s1 s2). apply Rmult_le_compat_r; [apply Rabs_pos|].
        pose proof (bell_pos (dplus f k z)). pose proof (bell_le_1 (dplus f k z)). assert (0 < c * bell (dplus f k z) <= 1) by nra.
        assert (0 <= c * bell (dplus f k z) * f <= f) by nra. rewrite Rabs_right by nra. nra. }
    intros H1 H2. destruct (Rtotal_order s1 s2) as [L|[->|L]]; [now apply K| |].
    - rewrite !Rminus_diag_eq by reflexivity. rewrite Rabs_R0. nra.
    - rewrite Rabs_minus_sym, (Rabs_minus_sym s1). now apply K.
  Qed.

  Lemma put_near_s df f k s1 s2 : 0 <= df -> 0 < f -> 0 < k -> 0 < s1 -> 0 < s2 ->
    Rabs (put_price N df f k s1 - put_price N df f k s2) <= df * f * Rabs (s1 - s2).
  Proof.
    intros. pose proof (parity N df f k s1 (nc_symmetric N HN)) as P1. pose proof (parity N df f k s2 (nc_symmetric N HN)) as P2.
    replace (put_price N df f k s1 - put_price N df f k s2) with (call_price N df f k s1 - call_price N df f k s2) by lra. now apply call_near_s.
  Qed.

  (** In the forward. *)
  Lemma call_near_f df f1 f2 k s : 0 < df -> 0 < f1 -> 0 < f2 -> 0 < k -> 0 < s ->
    Rabs (call_price N df f1 k s - call_price N df f2 k s) <= df * Rabs (f1 - f2).
  Proof.
    intros Hd H1 H2 Hk Hs. destruct (Rtotal_order f1 f2) as [L|[->|L]].
    - destruct (call_increasing_in_f N HN df f1 f2 k s Hd ltac:(lra) Hk Hs). rewrite !Rabs_left by lra. lra.
    - rewrite !Rminus_diag_eq by reflexivity. rewrite Rabs_R0. lra.
    - destruct (call_increasing_in_f N HN df f2 f1 k s Hd ltac:(lra) Hk Hs). rewrite !Rabs_right by lra. lra.
  Qed.
  Lemma put_near_f df f1 f2 k s : 0 < df -> 0 < f1 -> 0 < f2 -> 0 < k -> 0 < s ->
    Rabs (put_price N df f1 k s - put_price N df f2 k s) <= df * Rabs (f1 - f2).
  Proof.
    intros Hd H1 H2 Hk Hs. destruct (Rtotal_order f1 f2) as [L|[->|L]].
    - rewrite !put_is_call by lra. destruct (call_decreasing_in_k N HN df k f1 f2 s Hd Hk ltac:(lra) Hs). rewrite Rabs_right, Rabs_left by lra. lra.
    - rewrite !Rminus_diag_eq by reflexivity. rewrite Rabs_R0. lra.
    - rewrite !put_is_call by lra. destruct (call_decreasing_in_k N HN df k f2 f1 s Hd Hk ltac:(lra) Hs). rewrite Rabs_left, Rabs_right by lra. lra.
  Qed.
End Normal.

(** ** The arguments of the distribution function *)

Lemma abs_sum a b A B : Rabs a <= A -> Rabs b <= B -> Rabs (a + b) <= A + B.
Proof. intros. eapply Rle_trans; [apply Rabs_triang|]. lra. Qed.
Lemma abs_diff a b A B : Rabs a <= A -> Rabs b <= B -> Rabs (a - b) <= A + B.
Proof. intros. unfold Rminus. apply abs_sum; [assumption|]. now rewrite Rabs_Ropp. Qed.
Lemma abs_near a b D B : Rabs (a - b) <= D -> Rabs b <= B -> Rabs a <= D + B.
Proof. intros. replace a with ((a - b) + b) by ring. now apply abs_sum. Qed.

Lemma opp_real x : finite x -> finite (nopp x) /\ real (nopp x) = - real x.
Proof.
  intros F. destruct (finite_B x F) as (b & <- & Fb & Rb).
  assert (E : nopp (B2SF b : F64) = B2SF (Bopp b)) by (destruct b; reflexivity). rewrite E. split.
  - apply finite_of_B. now rewrite is_finite_Bopp.
  - rewrite !real_of_B. apply B2R_Bopp.
Qed.

(** How far the arguments are out: [x] is the logarithm of the moneyness. *)
Definition argument_error (eps x s : R) : R := ((eps + 4 * uu) * Rabs x + 5 * uu) / s + 2 * uu * s.

Section Arguments.
  Context {TR : Trans F64}.
  Variables (eps : R) (f k s : F64).
  Hypothesis HL : close_ln eps TR.
  Hypothesis E0 : 0 <= eps <= / 1000.
  Hypotheses (Ff : finite f) (Fk : finite k) (Fs : finite s).
  Hypothesis Bf : bpow radix2 (-400) <= real f <= bpow radix2 400.
  Hypothesis Bk : bpow radix2 (-400) <= real k <= bpow radix2 400.
  Hypothesis Bs : bpow radix2 (-100) <= real s <= bpow radix2 100.

  Let x := ln (real f / real k).

  Lemma quotient_range : bpow radix2 (-800) <= real f / real k <= bpow radix2 800.
  Proof.
    pose proof (bpow_gt_0 radix2 (-400)) as P0. pose proof (bpow_gt_0 radix2 400) as P1. split; apply (Rmult_le_reg_r (real k)); try lra.
    - replace (real f / real k * real k) with (real f) by (field; lra). apply Rle_trans with (bpow radix2 (-800) * bpow radix2 400).
      + apply Rmult_le_compat_l; [apply bpow_ge_0|lra].
      + rewrite <- bpow_plus. apply (proj1 Bf).
    - replace (real f / real k * real k) with (real f) by (field; lra). apply Rle_trans with (bpow radix2 800 * bpow radix2 (-400)).
      + rewrite <- bpow_plus. apply (proj2 Bf).
      + apply Rmult_le_compat_l; [apply bpow_ge_0|lra].
  Qed.

  Lemma x_range : Rabs x <= 800.
  Proof.
    assert (HB : forall n : Z, (0 <= n)%Z -> ln (bpow radix2 n) <= IZR n).
    { intros n Hn. rewrite bpow_exp, ln_exp. assert (ln (IZR radix2) <= 1) by (pose proof (ln_below 2 ltac:(lra)) as X; change (IZR radix2) with 2; lra).
      apply IZR_le in Hn. nra. }
    destruct quotient_range as [L U]. unfold x. pose proof (bpow_gt_0 radix2 (-800)) as P0.
    pose proof (HB 800%Z ltac:(lia)) as H8. apply Rabs_le. split.
    - apply Rle_trans with (ln (bpow radix2 (-800))).
      + change (-800)%Z with (- (800))%Z. rewrite bpow_opp, ln_Rinv by apply bpow_gt_0. lra.
      + apply ln_mono; lra.
    - apply Rle_trans with (ln (bpow radix2 800)); [apply ln_mono; lra|exact H8].
  Qed.

  Lemma log_near : finite (nln (ndiv f k)) /\ Rabs (real (nln (ndiv f k)) - x) <= eps * Rabs x + 4 * uu.
  Proof.
    pose proof uu_small as [U1 U2]. destruct quotient_range as [QL QU]. pose proof (bpow_gt_0 radix2 (-800)) as P0. pose proof (bpow_gt_0 radix2 (-400)) as P4.
    destruct (div_spec f k Ff Fk ltac:(lra)) as [Fq Rq]; [apply (bound_in_range _ 800); [lia|rewrite Rabs_right; lra]|].
    destruct (rnd_error (real f / real k)) as (e & h & He & Hh & Q). set (q := real f / real k) in *. assert (Pq : 0 < q) by lra.
    assert (Hr : Rabs (h / q) <= uu).
    { unfold Rdiv. rewrite Rabs_mult, (Rabs_right (/ q)) by (left; now apply Rinv_0_lt_compat). apply (Rmult_le_reg_r q); [exact Pq|].
      rewrite Rmult_assoc, Rinv_l, Rmult_1_r by lra. apply Rle_trans with (uu * bpow radix2 (-800)); [|apply Rmult_le_compat_l; lra].
      eapply Rle_trans; [exact Hh|]. unfold uu, tiny. rewrite <- bpow_plus. apply bpow_le. lia. }
    set (d := e + h / q). assert (Hd : Rabs d <= 2 * uu) by (replace (2 * uu) with (uu + uu) by ring; now apply abs_sum).
    assert (E : real (ndiv f k) = q * (1 + d)) by (rewrite Rq, Q; unfold d; field; lra). pose proof (Rabs_le_inv _ _ Hd) as Bd.
    assert (P1 : 0 < 1 + d) by lra. destruct (HL (ndiv f k) Fq) as [Fl Nl]; [rewrite E; nra|]. split; [exact Fl|].
    rewrite E, ln_mult in Nl by assumption. change (ln q) with x in Nl. assert (Ld : Rabs (ln (1 + d)) <= 3 * uu) by (eapply Rle_trans; [apply ln_1p; lra|lra]).
    assert (B2 : eps * Rabs (x + ln (1 + d)) <= eps * Rabs x + eps * (3 * uu)).
    { rewrite <- Rmult_plus_distr_l. apply Rmult_le_compat_l; [lra|]. apply abs_sum; [lra|exact Ld]. }
    replace (real (nln (ndiv f k)) - x) with ((real (nln (ndiv f k)) - (x + ln (1 + d))) + ln (1 + d)) by ring.
    eapply Rle_trans; [apply Rabs_triang|]. assert (eps * (3 * uu) <= / 1000 * (3 * uu)) by (apply Rmult_le_compat_r; lra). lra.
  Qed.

  Lemma arguments_near : let '(dp, dm) := d_plus_minus (nln (ndiv f k)) s in
    finite dp /\ finite dm /\ Rabs (real dp - (x / real s + / 2 * real s)) <= argument_error eps x (real s) /\
    Rabs (real dm - (x / real s + / 2 * real s - real s)) <= argument_error eps x (real s).
  Proof.
    unfold d_plus_minus. pose proof uu_small as [U1 U2]. pose proof tiny_small as [T1 T2]. destruct log_near as [Fl Nl]. pose proof x_range as Bx.
    set (l := nln (ndiv f k)) in *. set (S := real s) in *. pose proof (bpow_gt_0 radix2 (-100)) as P0. assert (PS : 0 < S) by (lra).
    assert (PI : 0 < / S) by now apply Rinv_0_lt_compat. set (X := Rabs x) in *. assert (X0 : 0 <= X) by apply Rabs_pos.
    assert (IS : / S <= bpow radix2 100).
    { replace (bpow radix2 100) with (/ bpow radix2 (-100)) by (rewrite <- bpow_opp; reflexivity). apply Rinv_le_contravar; [exact P0|]. lra. }
    assert (TS : tiny <= uu / 1000 * S).
    { apply Rle_trans with (uu / 1000 * bpow radix2 (-100)); [|apply Rmult_le_compat_l; [lra|lra]].
      apply Rle_trans with (bpow radix2 (-53 + -10 + -100)); [unfold tiny; apply bpow_le; lia|]. rewrite !bpow_plus.
      apply Rmult_le_compat_r; [apply bpow_ge_0|]. fold uu. unfold Rdiv. apply Rmult_le_compat_l; [lra|]. change (bpow radix2 (-10)) with (/ 1024). lra. }
    assert (XI : 0 <= X * / S) by (apply Rmult_le_pos; lra). set (w := X * / S) in *. set (i := / S) in *. assert (i0 : 0 <= i) by lra.
    assert (Bl : Rabs (real l) <= 1001 / 1000 * X + 5 * uu).
    { eapply Rle_trans; [apply (abs_near _ x _ X Nl); apply Rle_refl|]. assert (eps * X <= / 1000 * X) by (apply Rmult_le_compat_r; lra). fold X. lra. }
    (* quotient *)
    assert (Bq : Rabs (real l / S) <= 1001 / 1000 * w + 5 * uu * i).
    { change (real l / S) with (real l * i). rewrite Rabs_mult, (Rabs_right i) by lra.
      replace (1001 / 1000 * w + 5 * uu * i) with ((1001 / 1000 * X + 5 * uu) * i) by (unfold w, i; ring). apply Rmult_le_compat_r; lra. }
    assert (Bw : w <= 800 * i) by (change w with (X * i); apply Rmult_le_compat_r; lra).
    assert (B110 : 900 * i <= bpow radix2 110).
    { replace (bpow radix2 110) with (1024 * bpow radix2 100) by (change 110%Z with (10 + 100)%Z; rewrite bpow_plus; reflexivity). fold i in IS. lra. }
    destruct (div_spec l s Fl Fs ltac:(fold S; lra)) as [Fa Ra]; [apply (bound_in_range _ 110); [lia|]; fold S; eapply Rle_trans; [exact Bq|]; nra|].
    fold S in Ra. set (a := ndiv l s) in *. destruct (rnd_error (real l / S)) as (e2 & h2 & He2 & Hh2 & Q2). rewrite Q2 in Ra.
    assert (Na : Rabs (real a - x * i) <= (eps + 101 / 100 * uu) * w + (4 + / 100) * uu * i + uu / 1000 * S).
    { rewrite Ra. replace (real l / S * (1 + e2) + h2 - x * i) with ((real l - x) * i + e2 * (real l / S) + h2) by (unfold i; field; lra).
      assert (A1 : Rabs ((real l - x) * i) <= (eps * X + 4 * uu) * i) by (apply abs_mult_le; [exact Nl|rewrite Rabs_right; lra]).
      assert (A2 : Rabs (e2 * (real l / S)) <= uu * (1001 / 1000 * w + 5 * uu * i)) by (apply abs_mult_le; assumption).
      eapply Rle_trans; [apply Rabs_triang|]. eapply Rle_trans; [apply Rplus_le_compat_r, Rabs_triang|].
      assert (UUI : uu * (5 * uu * i) <= / 100 * uu * i).
      { replace (uu * (5 * uu * i)) with (5 * uu * (uu * i)) by ring. replace (/ 100 * uu * i) with (/ 100 * (uu * i)) by ring. apply Rmult_le_compat_r; [apply Rmult_le_pos; lra|lra]. }
      assert (0 <= uu * w) by (apply Rmult_le_pos; lra).
      replace ((eps * X + 4 * uu) * i) with (eps * w + 4 * uu * i) in A1 by (unfold w; ring). lra. }
    (* half *)
    assert (Fh : finite (nlit 1 2)) by (split; reflexivity). assert (Rh : real (nlit 1 2) = / 2) by (vm_compute; lra).
    destruct (mul_spec (nlit 1 2) s Fh Fs) as [Fb Rb]; [rewrite Rh; apply (bound_in_range _ 100); [lia|]; fold S; rewrite Rabs_right by lra; lra|].
    rewrite Rh in Rb. fold S in Rb. set (b := nmul (nlit 1 2) s) in *. destruct (rnd_error (/ 2 * S)) as (e3 & h3 & He3 & Hh3 & Q3). rewrite Q3 in Rb.
    assert (Nb : Rabs (real b - / 2 * S) <= 501 / 1000 * uu * S).
    { rewrite Rb. replace (/ 2 * S * (1 + e3) + h3 - / 2 * S) with (e3 * (/ 2 * S) + h3) by ring.
      assert (A1 : Rabs (e3 * (/ 2 * S)) <= uu * (/ 2 * S)) by (apply abs_mult_le; [assumption|rewrite Rabs_right; lra]).
      eapply Rle_trans; [apply Rabs_triang|]. lra. }
    (* sum *)
    assert (Bab : Rabs (x * i + / 2 * S) <= w + / 2 * S).
    { apply abs_sum; [rewrite Rabs_mult, (Rabs_right i) by lra; change w with (X * i); fold X; lra|rewrite Rabs_right; lra]. }
    assert (Nab : Rabs (real a + real b - (x * i + / 2 * S)) <= (eps + 101 / 100 * uu) * w + (4 + / 100) * uu * i + 502 / 1000 * uu * S).
    { replace (real a + real b - (x * i + / 2 * S)) with ((real a - x * i) + (real b - / 2 * S)) by ring. eapply Rle_trans; [apply abs_sum; [exact Na|exact Nb]|]. lra. }
    assert (Small : (eps + 101 / 100 * uu) * w + (4 + / 100) * uu * i + 502 / 1000 * uu * S <= 11 / 10000 * w + 5 * uu * i + / 1000 * S).
    { assert ((eps + 101 / 100 * uu) * w <= 11 / 10000 * w) by (apply Rmult_le_compat_r; lra). assert (0 <= uu * i) by (apply Rmult_le_pos; lra).
      assert (502 / 1000 * uu * S <= / 1000 * S) by (apply Rmult_le_compat_r; lra). lra. }
    assert (Bsum : Rabs (real a + real b) <= 10011 / 10000 * w + 5 * uu * i + 501 / 1000 * S) by (eapply Rle_trans; [apply (abs_near _ _ _ _ Nab Bab)|]; lra).
    assert (SB : S <= bpow radix2 110) by (apply Rle_trans with (bpow radix2 100); [lra|apply bpow_le; lia]).
    assert (B112 : 4 * bpow radix2 110 = bpow radix2 112) by (change 112%Z with (2 + 110)%Z; rewrite bpow_plus; reflexivity). assert (Hui : 0 <= uu * i <= / 1000 * i) by nra.
    destruct (add_spec a b Fa Fb) as [Fp Rp]; [apply (bound_in_range _ 112); [lia|]; eapply Rle_trans; [exact Bsum|]; nra|].
    destruct (rnd_sum_error (real a) (real b) (finite_format _ Fa) (finite_format _ Fb)) as (e4 & He4 & Q4). rewrite Q4 in Rp.
    change (nadd (ndiv l s) (nmul (nlit 1 2) s)) with (nadd a b). set (dp := nadd a b) in *.
    assert (uw : 0 <= uu * w) by (apply Rmult_le_pos; lra). assert (uS : 0 <= uu * S) by (apply Rmult_le_pos; lra).
    assert (uui : uu * (5 * uu * i) <= / 100 * (uu * i)) by nra.
    assert (Np : Rabs (real dp - (x * i + / 2 * S)) <= (eps + 202 / 100 * uu) * w + (4 + 2 / 100) * uu * i + 1004 / 1000 * uu * S).
    { rewrite Rp. replace ((real a + real b) * (1 + e4) - (x * i + / 2 * S)) with ((real a + real b - (x * i + / 2 * S)) + e4 * (real a + real b)) by ring.
      assert (A2 := abs_mult_le _ _ _ _ He4 Bsum). eapply Rle_trans; [apply Rabs_triang|]. lra. }
    (* difference *)
    assert (Bm0 : Rabs (x * i + / 2 * S - S) <= w + / 2 * S).
    { replace (x * i + / 2 * S - S) with (x * i + - (/ 2 * S)) by field. apply abs_sum; [rewrite Rabs_mult, (Rabs_right i) by lra; change w with (X * i); fold X; lra|].
      rewrite Rabs_Ropp, Rabs_right; lra. }
    assert (Nm0 : Rabs (real dp - S - (x * i + / 2 * S - S)) <= (eps + 202 / 100 * uu) * w + (4 + 2 / 100) * uu * i + 1004 / 1000 * uu * S).
    { replace (real dp - S - (x * i + / 2 * S - S)) with (real dp - (x * i + / 2 * S)) by ring. exact Np. }
    assert (Small2 : (eps + 202 / 100 * uu) * w + (4 + 2 / 100) * uu * i + 1004 / 1000 * uu * S <= 11 / 10000 * w + 5 * uu * i + / 1000 * S).
    { assert ((eps + 202 / 100 * uu) * w <= 11 / 10000 * w) by (apply Rmult_le_compat_r; lra).
      assert (1004 / 1000 * uu * S <= / 1000 * S) by (apply Rmult_le_compat_r; lra). lra. }
    assert (Bdm : Rabs (real dp - S) <= 10011 / 10000 * w + 5 * uu * i + 501 / 1000 * S) by (eapply Rle_trans; [apply (abs_near _ _ _ _ Nm0 Bm0)|]; lra).
    destruct (sub_spec dp s Fp Fs) as [Fm Rm]; [fold S; apply (bound_in_range _ 112); [lia|]; eapply Rle_trans; [exact Bdm|]; nra|].
    destruct (rnd_diff_error (real dp) (real s) (finite_format _ Fp) (finite_format _ Fs)) as (e5 & He5 & Q5). rewrite Q5 in Rm. fold S in Rm.
    assert (Nm : Rabs (real (nsub dp s) - (x * i + / 2 * S - S)) <= (eps + 304 / 100 * uu) * w + (4 + 3 / 100) * uu * i + 151 / 100 * uu * S).
    { rewrite Rm. replace ((real dp - S) * (1 + e5) - (x * i + / 2 * S - S)) with ((real dp - S - (x * i + / 2 * S - S)) + e5 * (real dp - S)) by ring.
      assert (A2 := abs_mult_le _ _ _ _ He5 Bdm). eapply Rle_trans; [apply Rabs_triang|]. lra. }
    assert (AE : argument_error eps x S = (eps + 4 * uu) * w + 5 * uu * i + 2 * uu * S).
    { unfold argument_error, w. fold i X. unfold Rdiv. fold i. ring. }
    split; [exact Fp|]. split; [exact Fm|]. rewrite AE. unfold Rdiv. fold i. split.
    - eapply Rle_trans; [exact Np|]. lra.
    - eapply Rle_trans; [exact Nm|]. lra.
  Qed.
End Arguments.

(** ** The formula on doubles *)

Definition option_price {T} `{Num T} `{Trans T} (pc : put_or_call) : (T -> T) -> T -> T -> T -> T -> T :=
  match pc with Call => call_price | Put => put_price end.

Lemma differ_by df a b f k x d : 0 <= df -> 0 <= f -> 0 <= k -> Rabs (a - x) <= d -> forall y, Rabs (b - y) <= d ->
  Rabs (df * (a * f - b * k) - df * (x * f - y * k)) <= d * (df * (f + k)).
Proof.
  intros D F K A y B. replace (df * (a * f - b * k) - df * (x * f - y * k)) with (df * ((a - x) * f - (b - y) * k)) by ring.
  rewrite Rabs_mult, (Rabs_right df) by lra. replace (d * (df * (f + k))) with (df * (d * f + d * k)) by ring. apply Rmult_le_compat_l; [exact D|].
  apply abs_diff; apply abs_mult_le; try assumption; rewrite Rabs_right; lra.
Qed.

Lemma black_near N eps cdf (TR : Trans F64) pc df f k s : normal_cdf N -> close_cdf eps N cdf -> close_ln eps TR -> 0 <= eps <= / 1000 ->
  finite df -> finite f -> finite k -> finite s -> 0 <= real df <= bpow radix2 400 ->
  bpow radix2 (-400) <= real f <= bpow radix2 400 -> bpow radix2 (-400) <= real k <= bpow radix2 400 -> bpow radix2 (-100) <= real s <= bpow radix2 100 ->
  finite (option_price pc cdf df f k s) /\
  Rabs (real (option_price pc cdf df f k s) - option_price pc N (real df) (real f) (real k) (real s)) <=
    (eps + argument_error eps (ln (real f / real k)) (real s) + 7 / 2 * uu) * (real df * (real f + real k)) + 4 * tiny * (real df + 1).
Proof.
  intros HN HC HL E0 Fd Ff Fk Fs Bd Bf Bk Bs. pose proof (arguments_near eps f k s HL E0 Ff Fk Fs Bf Bk Bs) as A.
  pose proof (bpow_gt_0 radix2 (-400)) as P4.
  assert (K : forall x y D, finite x -> Rabs (real x - y) <= D -> Rabs (real (cdf x) - N y) <= eps + D).
  { intros x y D Fx H. destruct (HC x Fx) as (_ & _ & C). replace (real (cdf x) - N y) with ((real (cdf x) - N (real x)) + (N (real x) - N y)) by ring.
    apply abs_sum; [exact C|]. eapply Rle_trans; [now apply cdf_lipschitz|exact H]. }
  set (D := argument_error eps (ln (real f / real k)) (real s)) in *.
  assert (B' : 0 <= real f <= huge /\ 0 <= real k <= huge) by (unfold huge; lra). destruct B' as [Bf' Bk'].
  unfold option_price. destruct pc.
  - unfold put_price at 1 2. destruct (d_plus_minus (nln (ndiv f k)) s) as [dp dm]. destruct A as (Fp & Fm & Np & Nm).
    destruct (opp_real dp Fp) as [Fp' Rp]. destruct (opp_real dm Fm) as [Fm' Rm].
    destruct (HC _ Fp') as (Cp & Up & _). destruct (HC _ Fm') as (Cm & Um & _).
    destruct (weighted_near df _ _ k f Fd Cm Cp Fk Ff Bd Um Up Bk' Bf') as (Fx & _ & Nx). split; [exact Fx|].
    rewrite put_eq. unfold dplus at 1, dminus, dplus.
    assert (A1 := K (nopp dm) _ D Fm' ltac:(rewrite Rm; instantiate (1 := - (ln (real f / real k) / real s + / 2 * real s - real s));
      rewrite <- Rabs_Ropp, Ropp_minus_distr; unfold Rminus at 1; rewrite Ropp_involutive, Rplus_comm; exact Nm)).
    assert (A2 := K (nopp dp) _ D Fp' ltac:(rewrite Rp; instantiate (1 := - (ln (real f / real k) / real s + / 2 * real s));
      rewrite <- Rabs_Ropp, Ropp_minus_distr; unfold Rminus at 1; rewrite Ropp_involutive, Rplus_comm; exact Np)).
    assert (W := differ_by (real df) _ _ (real k) (real f) _ _ ltac:(lra) ltac:(lra) ltac:(lra) A1 _ A2).
    set (x := real (nmul df _)) in *. 
    match goal with |- Rabs (x - ?y) <= _ => set (Y := y) in * end.
    match type of Nx with Rabs (x - ?y) <= _ => set (Z := y) in * end.
    replace (x - Y) with ((x - Z) + (Z - Y)) by ring. eapply Rle_trans; [apply abs_sum; [exact Nx|exact W]|]. rewrite (Rplus_comm (real k)). lra.
  - unfold call_price at 1 2. destruct (d_plus_minus (nln (ndiv f k)) s) as [dp dm]. destruct A as (Fp & Fm & Np & Nm).
    destruct (HC _ Fp) as (Cp & Up & _). destruct (HC _ Fm) as (Cm & Um & _).
    destruct (weighted_near df _ _ f k Fd Cp Cm Ff Fk Bd Up Um Bf' Bk') as (Fx & _ & Nx). split; [exact Fx|].
    rewrite call_eq. unfold dplus at 1, dminus, dplus.
    assert (W := differ_by (real df) _ _ (real f) (real k) _ _ ltac:(lra) ltac:(lra) ltac:(lra) (K dp _ D Fp Np) _ (K dm _ D Fm Nm)).
    set (x := real (nmul df _)) in *. 
    match goal with |- Rabs (x - ?y) <= _ => set (Y := y) in * end.
    match type of Nx with Rabs (x - ?y) <= _ => set (Z := y) in * end.
    replace (x - Y) with ((x - Z) + (Z - Y)) by ring. eapply Rle_trans; [apply abs_sum; [exact Nx|exact W]|]. lra.
Qed.

(** ** Square roots *)

Lemma sqrt_equiv (x : L_Double.B) : SFsqrt 53 1024 (B2SF x) = B2SF (Bsqrt mode_NE x).
Proof.
  case x as [sx|[|]| |[|] mx ex Bx]; try reflexivity.
  simpl. rewrite B2SF_SF2B. set (melz := SFsqrt_core_binary _ _ _ _). case melz as [[mz ez] lz]. apply binary_round_aux_equiv.
Qed.

Lemma sqrt_real x : finite x -> 0 <= real x -> finite (nsqrt x) /\ real (nsqrt x) = rnd (sqrt (real x)).
Proof.
  intros F P. destruct (finite_B x F) as (b & E & Fb & Rb). destruct (Bsqrt_correct 53 1024 Hprec Hmax mode_NE b) as (R & FF & _).
  change (nsqrt x) with (SFsqrt 53 1024 x). rewrite <- E, sqrt_equiv. split.
  - apply finite_of_B. rewrite FF. destruct b as [|[]| |[|] m e B]; try reflexivity; try discriminate.
    rewrite <- Rb in P. exfalso. assert (L : F2R (Float radix2 (Z.neg m) e) < 0) by (apply F2R_lt_0; reflexivity). change (0 <= F2R (Float radix2 (Z.neg m) e)) in P. lra.
  - rewrite real_of_B, R, Rb, E. reflexivity.
Qed.

Lemma root_near q V a : finite q -> 0 <= real q -> Rabs (real q - V) <= a -> 10 * a <= V -> bpow radix2 (-180) <= V <= bpow radix2 180 ->
  finite (nsqrt q) /\ Rabs (real (nsqrt q) - sqrt V) <= a / sqrt V + 2 * uu * sqrt V /\ 8 / 10 * sqrt V <= real (nsqrt q) <= 12 / 10 * sqrt V.
Proof.
  intros Fq Pq Hq HV BV. destruct (sqrt_real q Fq Pq) as [F R]. split; [exact F|]. pose proof uu_small as [U1 U2]. pose proof tiny_small as [T1 T2].
  pose proof (bpow_gt_0 radix2 (-180)) as P0. assert (PV : 0 < V) by lra. pose proof (sqrt_lt_R0 V PV) as PS. assert (SV := sqrt_sqrt V ltac:(lra)).
  pose proof (sqrt_pos (real q)) as PQ. assert (SQ := sqrt_sqrt (real q) Pq). set (s := sqrt V) in *. set (r := sqrt (real q)) in *.
  pose proof (Rabs_pos (real q - V)) as A0. pose proof (Rabs_le_inv _ _ Hq) as Bq.
  assert (Pr : 0 < r + s) by lra.
  assert (D : Rabs (r - s) <= a / s).
  { apply (Rmult_le_reg_r s); [exact PS|]. replace (a / s * s) with a by (field; lra). apply Rle_trans with (Rabs (r - s) * (r + s)).
    - apply Rmult_le_compat_l; [apply Rabs_pos|lra].
    - rewrite <- (Rabs_right (r + s)) at 1 by lra. rewrite <- Rabs_mult. replace ((r - s) * (r + s)) with (real q - V) by (rewrite <- SQ, <- SV; ring). exact Hq. }
  assert (As : a / s <= s / 10).
  { apply (Rmult_le_reg_r s); [exact PS|]. replace (a / s * s) with a by (field; lra). lra. }
  apply Rabs_le_inv in D. destruct (rnd_error r) as (e & h & He & Hh & Q).
  assert (S90 : bpow radix2 (-90) <= s).
  { unfold s. rewrite <- (sqrt_Rsqr (bpow radix2 (-90))) by apply bpow_ge_0. apply sqrt_le_1_alt. unfold Rsqr. rewrite <- bpow_plus. apply (proj1 BV). }
  assert (TS : tiny <= uu / 1000 * s).
  { apply Rle_trans with (uu / 1000 * bpow radix2 (-90)); [|apply Rmult_le_compat_l; lra].
    apply Rle_trans with (bpow radix2 (-53 + -10 + -90)); [unfold tiny; apply bpow_le; lia|]. rewrite !bpow_plus.
    apply Rmult_le_compat_r; [apply bpow_ge_0|]. fold uu. unfold Rdiv. apply Rmult_le_compat_l; [lra|]. change (bpow radix2 (-10)) with (/ 1024). lra. }
  assert (us : 0 <= uu * s <= / 100 * s) by (split; [apply Rmult_le_pos; lra|apply Rmult_le_compat_r; lra]).
  assert (N : Rabs (real (nsqrt q) - r) <= 12 / 10 * (uu * s)).
  { rewrite R, Q. replace (r * (1 + e) + h - r) with (e * r + h) by ring.
    assert (Rabs (e * r) <= uu * (11 / 10 * s)) by (apply abs_mult_le; [exact He|rewrite Rabs_right; lra]). eapply Rle_trans; [apply Rabs_triang|]. lra. }
  apply Rabs_le_inv in N. split; [apply Rabs_le; lra|lra].
Qed.

(** ** Discount factors *)

Lemma exp_200 v : Rabs v <= 200 -> bpow radix2 (-340) <= exp v <= bpow radix2 340.
Proof.
  assert (U : forall v, Rabs v <= 200 -> exp v <= bpow radix2 340).
  { intros w H. destruct (exp_640 (w + (w + w))) as [_ U]; [apply Rabs_le_inv in H; apply Rabs_le; lra|]. rewrite !exp_plus in U.
    destruct (Rle_lt_dec (exp w) (bpow radix2 340)) as [L|L]; [exact L|exfalso]. pose proof (bpow_gt_0 radix2 340) as P.
    assert (B : bpow radix2 1020 = bpow radix2 340 * (bpow radix2 340 * bpow radix2 340)) by (rewrite <- !bpow_plus; reflexivity). rewrite B in U.
    assert (bpow radix2 340 * bpow radix2 340 < exp w * exp w) by (apply Rmult_le_0_lt_compat; lra).
    assert (bpow radix2 340 * (bpow radix2 340 * bpow radix2 340) < exp w * (exp w * exp w)) by (apply Rmult_le_0_lt_compat; try lra; nra). lra. }
  intros H. split; [|now apply U]. specialize (U (- v)). rewrite Rabs_Ropp in U. specialize (U H). rewrite exp_Ropp in U.
  change (-340)%Z with (- (340))%Z. rewrite bpow_opp. rewrite <- (Rinv_inv (exp v)).
  apply Rinv_le_contravar; [apply Rinv_0_lt_compat, exp_pos|exact U].
Qed.

Lemma factor_near nan nan' eps (TR : Trans F64) c M pay st u r : accurate eps TR -> 0 <= eps <= / 1000 ->
  rates_within M c -> bpow radix2 (-900) <= M <= bpow radix2 900 -> (bumps c <= 1000)%nat -> i32 pay -> i32 st ->
  let years_away := Rabs (years (base_date c) pay) + Rabs (years (base_date c) st) in M * years_away <= 200 ->
  rt nan c pay = Ok u -> rt nan c st = Ok r ->
  finite (nmul (nexp (nopp u)) (nexp r)) /\ exists D, df nan' (exact_curve c) pay st = Ok D /\ bpow radix2 (-340) <= D <= bpow radix2 340 /\
    Rabs (real (nmul (nexp (nopp u)) (nexp r)) - D) <= (3 * eps + (90 + 9 * INR (bumps c)) * uu * M * years_away + 2 * uu) * D /\
    3 * eps + (90 + 9 * INR (bumps c)) * uu * M * years_away + 2 * uu <= / 100.
Proof.
  intros HT E0 W BM NB Dp Ds A MA Eu Er. pose proof (few _ NB) as Fw. set (n := INR (bumps c)) in *. pose proof uu_small as [U1 U2]. pose proof tiny_small as [T1 T2].
  pose proof (within_pos M c W (proj2 BM)) as M0.
  destruct (rt_near nan nan' TR c M pay u W BM NB Dp Eu) as (Fu & yu & Yu & Bu & Nu). destruct (rt_near nan nan' TR c M st r W BM NB Ds Er) as (Fr & yr & Yr & Br & Nr).
  fold n in Nu, Nr. set (au := Rabs (years (base_date c) pay)) in *. set (ar := Rabs (years (base_date c) st)) in *.
  assert (au0 : 0 <= au) by apply Rabs_pos. assert (ar0 : 0 <= ar) by apply Rabs_pos.
  assert (Mu : 0 <= M * au) by (apply Rmult_le_pos; lra). assert (Mr : 0 <= M * ar) by (apply Rmult_le_pos; lra). assert (MAs : M * au + M * ar <= 200) by (unfold A in MA; lra).
  set (eta := (20 + 2 * n) * uu). assert (eta0 : 0 <= eta <= / 100000000) by (unfold eta; split; [apply Rmult_le_pos; lra|nra]).
  replace ((20 + 2 * n) * uu * M * au) with (eta * (M * au)) in Nu by (unfold eta; ring). replace ((20 + 2 * n) * uu * M * ar) with (eta * (M * ar)) in Nr by (unfold eta; ring).
  set (eu := eta * (M * au)) in *. set (er := eta * (M * ar)) in *.
  assert (eu0 : 0 <= eu <= / 100000) by (unfold eu; nra). assert (er0 : 0 <= er <= / 100000) by (unfold er; nra).
  assert (X : df nan' (exact_curve c) pay st = Ok (exp (yr - yu))).
  { unfold df. destruct (pay =? st)%Z eqn:Q; [|rewrite Yu, Yr; reflexivity]. apply Z.eqb_eq in Q. subst st. assert (yr = yu) by congruence. subst yr.
    rewrite Rminus_diag_eq by reflexivity. now rewrite exp_0. }
  destruct (opp_real u Fu) as [Fo Ro]. pose proof (abs_near _ _ _ _ Nu Bu) as Su. pose proof (abs_near _ _ _ _ Nr Br) as Sr.
  destruct (HT (nopp u) Fo) as [F1 N1]; [rewrite Ro, Rabs_Ropp; lra|]. destruct (HT r Fr) as [F2 N2]; [lra|]. rewrite Ro in N1.
  assert (Nu' : Rabs (- real u - - yu) <= eu) by (replace (- real u - - yu) with (- (real u - yu)) by ring; now rewrite Rabs_Ropp).
  pose proof (exp_near eps eu _ _ _ (proj1 E0) Nu' N1) as G1. pose proof (exp_near eps er _ _ _ (proj1 E0) Nr N2) as G2.
  assert (K : forall e, 0 <= e <= / 100000 -> 0 <= (1 + eps) * exp e - 1 <= eps + 201 / 100 * e).
  { intros e He. pose proof (exp_upper e ltac:(lra)). pose proof (exp_ineq1_le e). split; nra. }
  pose proof (K eu eu0) as K1. pose proof (K er er0) as K2. set (p1 := (1 + eps) * exp eu - 1) in *. set (p2 := (1 + eps) * exp er - 1) in *. clear K.
  set (a := real (nexp (nopp u))) in *. set (b := real (nexp r)) in *. set (x := exp (- yu)) in *. set (y := exp yr) in *.
  assert (XY : x * y = exp (yr - yu)) by (unfold x, y; rewrite <- exp_plus; f_equal; ring).
  destruct (exp_200 (- yu)) as [x1 x2]; [rewrite Rabs_Ropp; lra|]. fold x in x1, x2. destruct (exp_200 yr) as [y1 y2]; [lra|]. fold y in y1, y2.
  assert (BD : bpow radix2 (-340) <= x * y <= bpow radix2 340).
  { rewrite XY. apply exp_200. eapply Rle_trans; [apply abs_diff; [exact Br|exact Bu]|]. lra. }
  pose proof (bpow_gt_0 radix2 (-340)) as P3. assert (x0 : 0 < x) by lra. assert (y0 : 0 < y) by lra. set (D := x * y) in *. assert (D0 : 0 < D) by lra.
  assert (Nab : Rabs (a * b - D) <= (p1 + p2 + p1 * p2) * D).
  { replace (a * b - D) with ((a - x) * y + (b - y) * x + (a - x) * (b - y)) by (unfold D; ring).
    eapply Rle_trans; [apply Rabs_triang|]. eapply Rle_trans; [apply Rplus_le_compat_r, Rabs_triang|].
    assert (Z1 : Rabs ((a - x) * y) <= p1 * x * y) by (apply abs_mult_le; [exact G1|rewrite Rabs_right; lra]).
    assert (Z2 : Rabs ((b - y) * x) <= p2 * y * x) by (apply abs_mult_le; [exact G2|rewrite Rabs_right; lra]).
    assert (Z3 : Rabs ((a - x) * (b - y)) <= p1 * x * (p2 * y)) by (apply abs_mult_le; assumption).
    replace (p1 * x * y) with (p1 * D) in Z1 by (unfold D; ring). replace (p2 * y * x) with (p2 * D) in Z2 by (unfold D; ring).
    replace (p1 * x * (p2 * y)) with (p1 * p2 * D) in Z3 by (unfold D; ring). lra. }
  assert (PP : p1 + p2 + p1 * p2 <= 21 / 10 * eps + 21 / 10 * (eu + er)) by nra. assert (PP0 : 0 <= p1 * p2) by nra.
  set (g := p1 + p2 + p1 * p2) in *. assert (g1 : 0 <= g <= / 200) by (unfold g in *; lra).
  assert (ab1 : Rabs (a * b) <= 11 / 10 * D).
  { eapply Rle_trans; [apply (abs_near _ D _ D Nab); rewrite Rabs_right; lra|]. nra. }
  destruct (mul_spec _ _ F1 F2) as [F R].
  { fold a b. apply (bound_in_range _ 341); [lia|]. eapply Rle_trans; [exact ab1|]. change 341%Z with (1 + 340)%Z. rewrite bpow_plus. change (bpow radix2 1) with 2. lra. }
  split; [exact F|]. exists D. split; [rewrite X, <- XY; reflexivity|]. split; [exact BD|].
  fold a b in R. destruct (rnd_error (a * b)) as (e & h & He & Hh & Q).
  assert (TD : tiny <= uu / 1000 * D).
  { apply Rle_trans with (uu / 1000 * bpow radix2 (-340)); [|apply Rmult_le_compat_l; lra].
    apply Rle_trans with (bpow radix2 (-53 + -10 + -340)); [unfold tiny; apply bpow_le; lia|]. rewrite !bpow_plus.
    apply Rmult_le_compat_r; [apply bpow_ge_0|]. fold uu. unfold Rdiv. apply Rmult_le_compat_l; [lra|]. change (bpow radix2 (-10)) with (/ 1024). lra. }
  assert (EE : (90 + 9 * n) * uu * M * A = 45 / 10 * (eu + er)) by (unfold eu, er, eta, A; field).
  assert (uD : 0 <= uu * D) by (apply Rmult_le_pos; lra). rewrite EE. split; [|lra].
  rewrite R, Q. replace (a * b * (1 + e) + h - D) with ((a * b - D) + e * (a * b) + h) by ring.
  eapply Rle_trans; [apply Rabs_triang|]. eapply Rle_trans; [apply Rplus_le_compat_r, Rabs_triang|].
  assert (Z : Rabs (e * (a * b)) <= uu * (11 / 10 * D)) by (apply abs_mult_le; assumption).
  assert (g * D <= (21 / 10 * eps + 21 / 10 * (eu + er)) * D) by (apply Rmult_le_compat_r; lra).
  assert (0 <= eps * D) by (apply Rmult_le_pos; lra). assert (0 <= (eu + er) * D) by (apply Rmult_le_pos; lra). lra.
Qed.

(** ** All together *)

Lemma plain_bound N pc f k s : normal_cdf N -> 0 <= f -> 0 <= k -> Rabs (option_price pc N 1 f k s) <= f + k.
Proof.
  intros HN F K. assert (B : forall x y a b, 0 <= a -> 0 <= b -> Rabs (1 * (N x * a - N y * b)) <= a + b).
  { intros x y a b A B. rewrite Rmult_1_l. pose proof (cdf_pos N HN x). pose proof (cdf_lt_1 N HN x). pose proof (cdf_pos N HN y). pose proof (cdf_lt_1 N HN y).
    apply Rabs_le. assert (0 <= N x * a <= a) by nra. assert (0 <= N y * b <= b) by nra. lra. }
  unfold option_price. destruct pc; [rewrite put_eq, (Rplus_comm f)|rewrite call_eq]; now apply B.
Qed.

Lemma df_out N pc D f k s : option_price pc N D f k s = D * option_price pc N 1 f k s.
Proof. unfold option_price. destruct pc; rewrite ?put_eq, ?call_eq; ring. Qed.

Lemma together N eps cdf (TR : Trans F64) pc df D g f k q V a : normal_cdf N -> close_cdf eps N cdf -> close_ln eps TR -> 0 <= eps <= / 1000 ->
  finite df -> finite f -> finite k -> finite q -> bpow radix2 (-340) <= D <= bpow radix2 340 -> Rabs (real df - D) <= (3 * eps + g * uu + 2 * uu) * D -> 0 <= g ->
  3 * eps + g * uu + 2 * uu <= / 100 ->
  bpow radix2 (-340) <= real f <= bpow radix2 340 -> bpow radix2 (-340) <= real k <= bpow radix2 340 ->
  0 <= real q -> Rabs (real q - V) <= a -> 10 * a <= V -> bpow radix2 (-180) <= V <= bpow radix2 180 ->
  let x := option_price pc cdf df f k (nsqrt q) in
  finite x /\ Rabs (real x - D * blacks_price N pc (real f) (real k) (sqrt V)) <= pricing_error eps g (real f / real k) (sqrt V) a * (D * (real f + real k)).
Proof.
  intros HN HC HL E0 Fd Ff Fk Fq BD ND G0 GS Bf Bk Pq Nq AV BV x. pose proof uu_small as [U1 U2]. pose proof tiny_small as [T1 T2].
  destruct (root_near q V a Fq Pq Nq AV BV) as (Fs & Ns & Ls & Us). pose proof (bpow_gt_0 radix2 (-340)) as P3. pose proof (bpow_gt_0 radix2 (-180)) as P1.
  assert (S90 : bpow radix2 (-90) <= sqrt V).
  { rewrite <- (sqrt_Rsqr (bpow radix2 (-90))) by apply bpow_ge_0. apply sqrt_le_1_alt. unfold Rsqr. rewrite <- bpow_plus. apply (proj1 BV). }
  assert (S90' : sqrt V <= bpow radix2 90).
  { rewrite <- (sqrt_Rsqr (bpow radix2 90)) by apply bpow_ge_0. apply sqrt_le_1_alt. unfold Rsqr. rewrite <- bpow_plus. apply (proj2 BV). }
  pose proof (bpow_gt_0 radix2 (-90)) as P9. set (s := sqrt V) in *. assert (s0 : 0 < s) by lra. set (sh := nsqrt q) in *.
  assert (Bs : bpow radix2 (-100) <= real sh <= bpow radix2 100).
  { assert (bpow radix2 (-100) <= bpow radix2 (-90) * (8 / 10)).
    { change (-100)%Z with (-90 + -10)%Z. rewrite bpow_plus. apply Rmult_le_compat_l; [lra|]. change (bpow radix2 (-10)) with (/ 1024). lra. }
    assert (bpow radix2 90 * (12 / 10) <= bpow radix2 100).
    { change 100%Z with (90 + 10)%Z. rewrite bpow_plus. apply Rmult_le_compat_l; [apply bpow_ge_0|]. change (bpow radix2 10) with 1024. lra. }
    lra. }
  set (d := 3 * eps + g * uu + 2 * uu) in *. assert (gu : 0 <= g * uu) by (apply Rmult_le_pos; lra). assert (d0 : 0 <= d) by (unfold d; lra).
  assert (D0 : 0 < D) by lra. pose proof (Rabs_le_inv _ _ ND) as ND'. assert (dD : 0 <= d * D <= / 100 * D) by (split; [apply Rmult_le_pos; lra|apply Rmult_le_compat_r; lra]).
  assert (B34 : forall v, bpow radix2 (-340) <= v <= bpow radix2 340 -> bpow radix2 (-400) <= v <= bpow radix2 400).
  { intros v Hv. assert (bpow radix2 (-400) <= bpow radix2 (-340)) by (apply bpow_le; lia). assert (bpow radix2 340 <= bpow radix2 400) by (apply bpow_le; lia). lra. }
  assert (Bd : 0 <= real df <= bpow radix2 400).
  { split; [lra|]. apply Rle_trans with (bpow radix2 340 * 1024); [lra|]. change 1024 with (bpow radix2 10). rewrite <- bpow_plus. apply bpow_le. lia. }
  destruct (black_near N eps cdf TR pc df f k sh HN HC HL E0 Fd Ff Fk Fs Bd (B34 _ Bf) (B34 _ Bk) Bs) as [Fx Nx]. fold x in Fx, Nx. split; [exact Fx|].
  assert (Q1 : Rabs (option_price pc N (real df) (real f) (real k) (real sh) - option_price pc N (real df) (real f) (real k) s) <= real df * real f * Rabs (real sh - s)).
  { unfold option_price. destruct pc; [apply put_near_s|apply call_near_s]; try assumption; lra. }
  assert (Q2 : Rabs (option_price pc N (real df) (real f) (real k) s - option_price pc N D (real f) (real k) s) <= d * D * (real f + real k)).
  { rewrite df_out, (df_out N pc D). rewrite <- Rmult_minus_distr_r. apply abs_mult_le; [exact ND|]. apply plain_bound; [exact HN|lra|lra]. }
  assert (BC : D * blacks_price N pc (real f) (real k) s = option_price pc N D (real f) (real k) s).
  { rewrite <- (L_BlackPrices.blacks_code N HN) by lra. destruct pc; reflexivity. }
  rewrite BC. set (X := real x) in *. set (Y1 := option_price pc N (real df) (real f) (real k) (real sh)) in *. set (Y2 := option_price pc N (real df) (real f) (real k) s) in *.
  set (Y3 := option_price pc N D (real f) (real k) s) in *. replace (X - Y3) with ((X - Y1) + (Y1 - Y2) + (Y2 - Y3)) by ring.
  eapply Rle_trans; [apply abs_sum; [apply abs_sum; [exact Nx|exact Q1]|exact Q2]|].
  set (t := real f + real k) in *. assert (t0 : 0 < t) by (unfold t; lra). assert (Dt : 0 < D * t) by (apply Rmult_lt_0_compat; lra).
  set (L := ln (real f / real k)) in *. set (c := (eps + 4 * uu) * Rabs L + 5 * uu).
  assert (c0 : 0 <= c) by (unfold c; pose proof (Rabs_pos L); assert (0 <= (eps + 4 * uu) * Rabs L) by (apply Rmult_le_pos; lra); lra).
  (* the arguments, at the true deviation *)
  assert (us : 0 <= uu * s) by (apply Rmult_le_pos; lra). assert (Is : 0 < / s) by now apply Rinv_0_lt_compat.
  assert (AE : argument_error eps L (real sh) <= 125 / 100 * (c / s) + 24 / 10 * (uu * s)).
  { unfold argument_error. fold c. assert (c / real sh <= 125 / 100 * (c / s)).
    { replace (125 / 100 * (c / s)) with (c * / (8 / 10 * s)) by (field; lra). apply Rmult_le_compat_l; [exact c0|]. apply Rinv_le_contravar; lra. }
    assert (uu * real sh <= uu * (12 / 10 * s)) by (apply Rmult_le_compat_l; lra). lra. }
  assert (cs : 0 <= c / s) by (apply Rmult_le_pos; lra). assert (a0 : 0 <= a) by (pose proof (Rabs_pos (real q - V)); lra). assert (as0 : 0 <= a / s) by (apply Rmult_le_pos; lra).
  assert (Dh : real df * t <= 101 / 100 * (D * t)) by (replace (101 / 100 * (D * t)) with (101 / 100 * D * t) by ring; apply Rmult_le_compat_r; lra).
  assert (dt0 : 0 <= real df * t) by (apply Rmult_le_pos; lra).
  assert (W1 : (eps + argument_error eps L (real sh) + 7 / 2 * uu) * (real df * t) <= (eps + (125 / 100 * (c / s) + 24 / 10 * (uu * s)) + 7 / 2 * uu) * (101 / 100 * (D * t))).
  { apply Rle_trans with ((eps + (125 / 100 * (c / s) + 24 / 10 * (uu * s)) + 7 / 2 * uu) * (real df * t)).
    - apply Rmult_le_compat_r; lra.
    - apply Rmult_le_compat_l; lra. }
  assert (W2 : real df * real f * Rabs (real sh - s) <= 101 / 100 * (D * t) * (a / s + 2 * uu * s)).
  { apply Rmult_le_compat; [apply Rmult_le_pos; lra|apply Rabs_pos| |exact Ns]. apply Rle_trans with (real df * t); [|exact Dh]. apply Rmult_le_compat_l; [lra|unfold t; lra]. }
  assert (W3 : 4 * tiny * (real df + 1) <= uu * (D * t)).
  { assert (O : 1 <= bpow radix2 340 * D).
    { apply Rle_trans with (bpow radix2 340 * bpow radix2 (-340)); [rewrite <- bpow_plus; cbn; lra|]. apply Rmult_le_compat_l; [apply bpow_ge_0|lra]. }
    assert (O1 : 2 <= bpow radix2 340) by (change 2 with (bpow radix2 1); apply bpow_le; lia).
    apply Rle_trans with (8 * tiny * (bpow radix2 340 * D)).
    { assert (4 * tiny * (real df + 1) <= 4 * tiny * (2 * (bpow radix2 340 * D))); [|lra]. apply Rmult_le_compat_l; [lra|]. nra. }
    assert (TT : 8 * tiny * bpow radix2 340 <= uu * bpow radix2 (-340)).
    { change 8 with (bpow radix2 3). unfold tiny, uu. rewrite <- !bpow_plus. apply bpow_le. lia. }
    replace (8 * tiny * (bpow radix2 340 * D)) with (8 * tiny * bpow radix2 340 * D) by ring. apply Rle_trans with (uu * bpow radix2 (-340) * D); [apply Rmult_le_compat_r; lra|].
    replace (uu * (D * t)) with (uu * t * D) by ring. apply Rmult_le_compat_r; [lra|]. apply Rmult_le_compat_l; [lra|]. unfold t. lra. }
  unfold pricing_error. change (bpow radix2 (-53)) with uu. fold L. fold c. set (z := D * t) in *.
  replace (2 * c / s) with (2 * (c / s)) by (field; lra). replace (2 * a / s) with (2 * (a / s)) by (field; lra).
  replace (d * D * t) with (d * z) by (unfold z; ring). set (cs' := c / s) in *. set (as' := a / s) in *.
  assert (0 <= eps * z) by (apply Rmult_le_pos; lra). assert (0 <= uu * z) by (apply Rmult_le_pos; lra). assert (0 <= cs' * z) by (apply Rmult_le_pos; lra).
  assert (0 <= as' * z) by (apply Rmult_le_pos; lra). assert (0 <= uu * s * z) by (apply Rmult_le_pos; lra). unfold d. lra.
Qed.

(** ** Options *)

Lemma leb_upto (a b : ddf F64) : in_day a -> in_day b -> upto (exact_time a) (exact_time b) -> ddf_leb a b = true.
Proof.
  intros [Fa _] [Fb _] H. apply upto_dates in H. unfold exact_time in H. cbn [ddf_date ddf_frac] in H. destruct H as [L Q]. unfold ddf_leb, ddf_cmp.
  destruct (Z.compare_spec (ddf_date a) (ddf_date b)) as [E|E|E]; [|reflexivity|lia]. specialize (Q E).
  destruct (nltb (ddf_frac a) (ddf_frac b)); [reflexivity|].
  destruct (nltb (ddf_frac b) (ddf_frac a)) eqn:Q'; [|reflexivity]. apply ltb_spec in Q'; [lra|assumption..].
Qed.

Lemma flat_from (TR : Trans F64) nan vol cal base from to k q :
  finite_weights cal -> proper (exact cal) -> (nesting cal <= 1000)%nat -> finite vol -> Rabs (real vol) <= 1000 -> in_day base -> in_day from -> in_day to ->
  upto (exact_time base) (exact_time from) -> upto (exact_time from) (exact_time to) -> (ddf_date to < ddf_date base + 2 ^ 40)%Z ->
  forward_variance nan (FlatVolSurface vol cal base) from to k = Ok q ->
  finite q /\ Rabs (real q - real vol ^ 2 * weighted_years (exact cal) (exact_time from) (exact_time to)) <= allowance cal base to vol.
Proof.
  intros FW P NS FV BV DB DF DT [BF|BF] FT L E.
  - assert (Q := E). unfold forward_variance, forward_variances in Q. cbn [vs_base vs_forward] in Q. rewrite (leb_exact from base DF DB BF) in Q.
    unfold variances in Q. cbn [volatilities] in Q. destruct (year_fraction cal base from) as [t| |] eqn:E1; try discriminate. destruct (year_fraction cal base to) as [t'| |] eqn:E2; try discriminate.
    clear Q. destruct (flat_forward_near nan vol cal base FW P NS FV BV DB from to k t t' DF DT BF FT L E1 E2) as [(x & X & Fx & _ & Nx)|[X _]]; rewrite X in E; [|discriminate].
    injection E as <-. split; assumption.
  - rewrite <- BF in FT |- *. unfold forward_variance, forward_variances in E. cbn [vs_base vs_forward] in E.
    rewrite (leb_upto from base DF DB) in E by (right; congruence).
    assert (V : variance nan (FlatVolSurface vol cal base) to k = Ok q) by exact E. apply upto_dates in FT. unfold exact_time in FT. cbn [ddf_date ddf_frac] in FT.
    apply (flat_variance_near nan vol cal base FW P NS FV BV DB to k q DT ltac:(lia) V).
Qed.

Lemma add_zero x : finite x -> finite (nadd x n0) /\ real (nadd x n0) = real x.
Proof.
  intros F. destruct zero_spec as [FZ RZ]. assert (G : rnd (real x) = real x) by (apply round_generic; [apply valid_rnd_N|now apply finite_format]).
  destruct (add_spec x n0 F FZ) as [Fa Ra]; [rewrite RZ, Rplus_0_r; unfold in_range; rewrite G; now apply finite_bound|].
  split; [exact Fa|]. rewrite Ra, RZ, Rplus_0_r. exact G.
Qed.

Lemma european_near N eps cdf (TR : Trans F64) nan nan' c v k d x F yc M vol cal base now st :
  normal_cdf N -> close_cdf eps N cdf -> close_ln eps TR -> accurate eps TR -> 0 <= eps <= / 1000 ->
  price nan cdf c (ISpotEuropean v k) d = Ok x -> dt_leb d (van_expiry v) = true ->
  price nan cdf c (van_underlying v) (van_expiry v) = Ok F ->
  finite F -> finite k -> bpow radix2 (-340) <= real F <= bpow radix2 340 -> bpow radix2 (-340) <= real k <= bpow radix2 340 ->
  ctx_yield_curve c (credit_id (van_underlying v)) (van_pay_date v) = Ok yc -> rates_within M yc -> bpow radix2 (-900) <= M <= bpow radix2 900 -> (bumps yc <= 1000)%nat ->
  apply_rule (van_settlement v) (dt_date d) = Ok st -> i32 st -> i32 (van_pay_date v) ->
  let years_away := Rabs (years (base_date yc) (van_pay_date v)) + Rabs (years (base_date yc) st) in M * years_away <= 200 ->
  ctx_vol_surface c (van_underlying v) (dt_date (van_expiry v)) (ctx_forward_curve c (van_underlying v) (dt_date (van_expiry v))) = Ok (FlatVolSurface vol cal base) ->
  finite_weights cal -> proper (exact cal) -> (nesting cal <= 1000)%nat -> finite vol -> Rabs (real vol) <= 1000 -> in_day base ->
  time_to_day_fraction (van_underlying v) d = Ok now -> in_day now -> in_day (van_expiry_time v) -> (0 <= ddf_date now)%Z ->
  upto (exact_time base) (exact_time now) -> upto (exact_time now) (exact_time (van_expiry_time v)) -> (ddf_date (van_expiry_time v) < ddf_date base + 2 ^ 40)%Z ->
  let V := real vol ^ 2 * weighted_years (exact cal) (exact_time now) (exact_time (van_expiry_time v)) in
  let a := allowance cal base (van_expiry_time v) vol in 10 * a <= V -> bpow radix2 (-180) <= V <= bpow radix2 180 ->
  finite x /\ exists D, df nan' (exact_curve yc) (van_pay_date v) st = Ok D /\ 0 < D /\
    Rabs (real x - D * blacks_price N (van_put_or_call v) (real F) (real k) (sqrt V)) <=
      pricing_error eps ((90 + 9 * INR (bumps yc)) * M * years_away) (real F / real k) (sqrt V) a * (D * (real F + real k)).
Proof.
  intros HN HC HL HE E0 EP BE EF FF Fk BF Bk EC W BM NB ES IS IP A MA EV FW P NS FV BV DB EN DN DX N0 UB UN LT V a AV VV.
  unfold price, first_price in EP. destruct (prices nan cdf c (ISpotEuropean v k) [d]) as [l| |] eqn:EL; try discriminate. cbn [bind] in EP.
  destruct l as [|x0 l]; try discriminate. assert (x0 = x) by congruence. subst x0. clear EP.
  destruct (L_PricingAny.spot_black nan cdf c v k [d] (x :: l) EL 0%nat d x eq_refl BE eq_refl) as (F' & yc' & vol' & disp & u & st' & r & now' & q & C1 & C2 & C3 & C4 & C5 & C6 & C7 & C8 & C9 & C10 & C11 & C12).
  assert (F' = F) by congruence. subst F'. assert (yc' = yc) by congruence. subst yc'. assert (vol' = FlatVolSurface vol cal base) by congruence. subst vol'.
  assert (st' = st) by congruence. subst st'. assert (now' = now) by congruence. subst now'. cbn [displacement] in C4. assert (disp = n0) by congruence. subst disp. clear C1 C2 C3 C4 C6 C8.
  assert (Z0 : in_day (mkDDF from_nil (n0 : F64))) by apply at_midnight.
  rewrite (leb_upto _ _ Z0 DN) in C9.
  2: { unfold exact_time, upto, before. cbn [ddf_date ddf_frac]. destruct zero_spec as [_ RZ]. change (real (n0 : F64)) with (real (n0 : F64)). rewrite RZ. unfold from_nil.
       destruct DN as [_ DN]. destruct (Z.eq_dec (ddf_date now) 0) as [E|E]; [|left; left; lia].
       destruct (Req_dec (real (ddf_frac now)) 0) as [G|G]; [right; f_equal; [lia|lra]|left; right; split; [lia|lra]]. }
  destruct (flat_from TR nan vol cal base now (van_expiry_time v) k q FW P NS FV BV DB DN DX UB UN LT C9) as [Fq Nq]. fold V a in Nq.
  destruct zero_spec as [FZ RZ]. assert (Pq : 0 <= real q).
  { destruct (Rle_lt_dec 0 (real q)) as [G|G]; [exact G|]. assert (nltb q n0 = true) by (apply ltb_spec; [assumption..|rewrite RZ; exact G]). congruence. }
  destruct (factor_near nan nan' eps TR yc M (van_pay_date v) st u r HE E0 W BM NB IP IS MA C5 C7) as (Fd & D & ED & BD & ND & DS). fold A in ND, DS.
  destruct (double_0_real n0 FZ RZ F FF) as [Ff Rf]. destruct (add_zero k Fk) as [Fk' Rk].
  assert (M0 : 0 <= M) by (apply (within_pos M yc W (proj2 BM))). assert (A0 : 0 <= A) by (unfold A; pose proof (Rabs_pos (years (base_date yc) (van_pay_date v))); pose proof (Rabs_pos (years (base_date yc) st)); lra).
  pose proof (pos_INR (bumps yc)) as I0. set (g := (90 + 9 * INR (bumps yc)) * M * A). assert (G0 : 0 <= g) by (unfold g; apply Rmult_le_pos; [apply Rmult_le_pos; lra|exact A0]).
  replace ((90 + 9 * INR (bumps yc)) * uu * M * A) with (g * uu) in ND, DS by (unfold g; ring).
  rewrite <- Rf in BF. rewrite <- Rk in Bk.
  destruct (together N eps cdf TR (van_put_or_call v) _ D g _ _ q V a HN HC HL E0 Fd Ff Fk' Fq BD ND G0 DS BF Bk Pq Nq AV VV) as [Fx Nx].
  assert (X : x = option_price (van_put_or_call v) cdf (nmul (nexp (nopp u)) (nexp r)) (nsub F n0) (nadd k n0) (nsqrt q)).
  { rewrite C12. unfold option_price. destruct (van_put_or_call v); reflexivity. }
  rewrite <- X in Fx, Nx. rewrite Rf, Rk in Nx. split; [exact Fx|]. exists D. split; [exact ED|]. split; [pose proof (bpow_gt_0 radix2 (-340)); lra|exact Nx].
Qed.
