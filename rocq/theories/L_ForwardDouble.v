(** Equity forwards on doubles. *)
From Coq Require Import ZArith List Reals Lra Lia Psatz.
From Coq.Floats Require Import SpecFloat.
From Flocq Require Import Core BinarySingleNaN.
From Verif Require Import Prelude Num L_Num M_Dates M_Search M_Calendar M_Curves M_Forward M_Instruments M_Vol S_Math S_Calendar S_Vol S_VolDouble S_Expectation S_BlackDouble S_Interp S_Data S_Double S_CurveDouble
  L_Double L_DoubleError L_InterpDouble L_BrentDouble L_CurveDouble L_VolDouble L_BlackDouble L_PriceDouble.
Import ListNotations.
Open Scope list_scope.
Open Scope R_scope.

#[local] Instance Hprec : FLX.Prec_gt_0 53 := eq_refl _.
#[local] Instance Hmax : Prec_lt_emax 53 1024 := eq_refl _.

(** A double within the fraction [g] * 2^-53 of [m] from a number no larger than [m]. *)
Definition close (g m : R) (a : F64) (x : R) : Prop := finite a /\ Rabs x <= m /\ Rabs (real a - x) <= g * uu * m.

Lemma close_size g m a x : close g m a x -> 0 <= g <= 10000 -> Rabs (real a) <= (1 + / 1000) * m.
Proof.
  intros (_ & B & N) G. pose proof uu_small as [U1 U2]. pose proof (Rabs_pos x) as X0. assert (m0 : 0 <= m) by lra.
  eapply Rle_trans; [apply (abs_near _ _ _ _ N B)|]. assert (g * uu * m <= / 1000 * m) by (apply Rmult_le_compat_r; nra). lra.
Qed.

Lemma close_sum (f : F64 -> F64 -> F64) (op : R -> R -> R) g m m' a b x y :
  (op = Rplus /\ f = nadd) \/ (op = Rminus /\ f = nsub) -> close g m a x -> close g m' b y -> 0 <= g <= 10000 -> m + m' <= 1000 ->
  close (g + 2) (m + m') (f a b) (op x y).
Proof.
  intros O A B G S. pose proof uu_small as [U1 U2]. pose proof (close_size _ _ _ _ A G) as Sa. pose proof (close_size _ _ _ _ B G) as Sb.
  destruct A as (Fa & Ba & Na), B as (Fb & Bb & Nb). pose proof (Rabs_pos x) as X0. pose proof (Rabs_pos y) as Y0.
  assert (m0 : 0 <= m) by lra. assert (m0' : 0 <= m') by lra.
  assert (N : Rabs (op (real a) (real b) - op x y) <= g * uu * (m + m')).
  { rewrite Rmult_plus_distr_l. destruct O as [[-> _]|[-> _]].
    - replace (real a + real b - (x + y)) with ((real a - x) + (real b - y)) by ring. now apply abs_sum.
    - replace (real a - real b - (x - y)) with ((real a - x) - (real b - y)) by ring. now apply abs_diff. }
  assert (Sz : Rabs (op (real a) (real b)) <= (1 + / 1000) * (m + m')).
  { rewrite Rmult_plus_distr_l. destruct O as [[-> _]|[-> _]]; [now apply abs_sum|now apply abs_diff]. }
  assert (IR : in_range (op (real a) (real b))). { apply (bound_in_range _ 10); [lia|]. change (bpow radix2 10) with 1024. lra. }
  assert (H : finite (f a b) /\ exists e, Rabs e <= uu /\ real (f a b) = op (real a) (real b) * (1 + e)).
  { destruct O as [[-> ->]|[-> ->]].
    - destruct (add_spec a b Fa Fb IR) as [F R]. split; [exact F|]. rewrite R. apply rnd_sum_error; now apply finite_format.
    - destruct (sub_spec a b Fa Fb IR) as [F R]. split; [exact F|]. rewrite R. apply rnd_diff_error; now apply finite_format. }
  destruct H as [F (e & He & R)]. split; [exact F|]. split.
  { destruct O as [[-> _]|[-> _]]; [now apply abs_sum|now apply abs_diff]. }
  rewrite R. replace (op (real a) (real b) * (1 + e) - op x y) with ((op (real a) (real b) - op x y) + e * op (real a) (real b)) by ring.
  assert (E := abs_mult_le _ _ _ _ He Sz). eapply Rle_trans; [apply Rabs_triang|]. assert (0 <= uu * (m + m')) by (apply Rmult_le_pos; lra). lra.
Qed.
Lemma close_add g m m' a b x y : close g m a x -> close g m' b y -> 0 <= g <= 10000 -> m + m' <= 1000 -> close (g + 2) (m + m') (nadd a b) (x + y).
Proof. apply close_sum. now left. Qed.
Lemma close_sub g m m' a b x y : close g m a x -> close g m' b y -> 0 <= g <= 10000 -> m + m' <= 1000 -> close (g + 2) (m + m') (nsub a b) (x - y).
Proof. apply close_sum. now right. Qed.
Lemma close_more g g' m a x : close g m a x -> g <= g' -> close g' m a x.
Proof.
  intros (F & B & N) L. split; [exact F|]. split; [exact B|]. eapply Rle_trans; [exact N|]. pose proof uu_small as [U1 U2]. pose proof (Rabs_pos x).
  apply Rmult_le_compat_r; [lra|]. apply Rmult_le_compat_r; lra.
Qed.

(** An exponential. *)
Lemma close_exp eps (TR : Trans F64) g m a x : accurate eps TR -> 0 <= eps <= / 1000 -> close g m a x -> 0 <= g <= 10000 -> m <= 200 ->
  finite (nexp a) /\ Rabs (real (nexp a) - exp x) <= (eps + 201 / 100 * (g * uu * m)) * exp x /\ g * uu * m <= / 100000.
Proof.
  intros HT E0 C G M. pose proof (close_size _ _ _ _ C G) as Sa. destruct C as (Fa & Ba & Na). pose proof uu_small as [U1 U2]. pose proof (Rabs_pos x) as X0.
  destruct (HT a Fa) as [F N]; [lra|]. split; [exact F|]. assert (gu : 0 <= g * uu <= / 100000000) by nra. assert (He : 0 <= g * uu * m <= / 100000) by nra.
  split; [|lra]. eapply Rle_trans; [apply (exp_near eps _ _ _ _ (proj1 E0) Na N)|]. apply Rmult_le_compat_r; [left; apply exp_pos|].
  pose proof (exp_upper (g * uu * m) ltac:(lra)). pose proof (exp_ineq1_le (g * uu * m)). nra.
Qed.

(** A product with a factor that is right up to a fraction, where nothing underflows. *)
Lemma scale_near (a b : F64) x y p p' : finite a -> finite b -> 0 < x -> 0 < y -> Rabs (real a - x) <= p * x -> Rabs (real b - y) <= p' * y -> 0 <= p <= / 100 -> 0 <= p' <= / 100 ->
  bpow radix2 (-1000) <= x * y <= bpow radix2 1000 -> finite (nmul a b) /\ Rabs (real (nmul a b) - x * y) <= (102 / 100 * (p + p') + 11 / 10 * uu) * (x * y).
Proof.
  intros Fa Fb X Y Na Nb P P' B. pose proof uu_small as [U1 U2]. pose proof (bpow_gt_0 radix2 (-1000)) as P0. set (z := x * y) in *. assert (z0 : 0 < z) by lra.
  assert (N : Rabs (real a * real b - z) <= (p + p' + p * p') * z).
  { replace (real a * real b - z) with ((real a - x) * y + (real b - y) * x + (real a - x) * (real b - y)) by (unfold z; ring).
    eapply Rle_trans; [apply Rabs_triang|]. eapply Rle_trans; [apply Rplus_le_compat_r, Rabs_triang|].
    assert (Z1 : Rabs ((real a - x) * y) <= p * x * y) by (apply abs_mult_le; [exact Na|rewrite Rabs_right; lra]).
    assert (Z2 : Rabs ((real b - y) * x) <= p' * y * x) by (apply abs_mult_le; [exact Nb|rewrite Rabs_right; lra]).
    assert (Z3 : Rabs ((real a - x) * (real b - y)) <= p * x * (p' * y)) by (apply abs_mult_le; assumption).
    replace (p * x * y) with (p * z) in Z1 by (unfold z; ring). replace (p' * y * x) with (p' * z) in Z2 by (unfold z; ring).
    replace (p * x * (p' * y)) with (p * p' * z) in Z3 by (unfold z; ring). lra. }
  assert (PP : 0 <= p + p' + p * p' <= 101 / 100 * (p + p')) by nra. set (g := p + p' + p * p') in *.
  assert (Sz : Rabs (real a * real b) <= 103 / 100 * z).
  { eapply Rle_trans; [apply (abs_near _ z _ z N); rewrite Rabs_right; lra|]. assert (g * z <= 3 / 100 * z) by (apply Rmult_le_compat_r; lra). lra. }
  destruct (mul_spec a b Fa Fb) as [F R].
  { apply (bound_in_range _ 1001); [lia|]. eapply Rle_trans; [exact Sz|]. change 1001%Z with (1 + 1000)%Z. rewrite bpow_plus. change (bpow radix2 1) with 2. lra. }
  split; [exact F|]. destruct (rnd_error (real a * real b)) as (e & h & He & Hh & Q).
  assert (TZ : tiny <= uu / 1000 * z).
  { apply Rle_trans with (uu / 1000 * bpow radix2 (-1000)); [|apply Rmult_le_compat_l; lra].
    apply Rle_trans with (bpow radix2 (-53 + -10 + -1000)); [unfold tiny; apply bpow_le; lia|]. rewrite !bpow_plus.
    apply Rmult_le_compat_r; [apply bpow_ge_0|]. fold uu. unfold Rdiv. apply Rmult_le_compat_l; [lra|]. change (bpow radix2 (-10)) with (/ 1024). lra. }
  assert (uz : 0 <= uu * z) by (apply Rmult_le_pos; lra).
  rewrite R, Q. replace (real a * real b * (1 + e) + h - z) with ((real a * real b - z) + e * (real a * real b) + h) by ring.
  eapply Rle_trans; [apply Rabs_triang|]. eapply Rle_trans; [apply Rplus_le_compat_r, Rabs_triang|].
  assert (Z : Rabs (e * (real a * real b)) <= uu * (103 / 100 * z)) by (apply abs_mult_le; assumption).
  assert (g * z <= 101 / 100 * (p + p') * z) by (apply Rmult_le_compat_r; lra). assert (0 <= (p + p') * z) by (apply Rmult_le_pos; lra). lra.
Qed.

Lemma rt_close nan nan' (TR : Trans F64) c M n d x : rates_within M c -> bpow radix2 (-900) <= M <= bpow radix2 900 -> (bumps c <= n)%nat -> (n <= 1000)%nat -> i32 d ->
  rt nan c d = Ok x -> exists y, rt nan' (exact_curve c) d = Ok y /\ close (20 + 2 * INR n) (M * Rabs (years (base_date c) d)) x y.
Proof.
  intros W BM NB NN D E. destruct (rt_near nan nan' TR c M d x W BM ltac:(lia) D E) as (F & y & Y & B & N). exists y. split; [exact Y|]. split; [exact F|]. split; [exact B|].
  eapply Rle_trans; [exact N|]. pose proof uu_small as [U1 U2]. pose proof (within_pos M c W (proj2 BM)). rewrite Rmult_assoc. apply le_INR in NB.
  apply Rmult_le_compat_r; [apply Rmult_le_pos; [lra|apply Rabs_pos]|]. apply Rmult_le_compat_r; lra.
Qed.

Section Equity.
  Variables (eps : R) (TR : Trans F64) (nan : F64) (nan' : R).
  Hypothesis HT : accurate eps TR.
  Hypothesis E0 : 0 <= eps <= / 1000.
  Variables (rate borrow : curve F64) (divs : div_stream F64) (spot : F64) (settlement : date_rule F64) (base hwm d : date) (M : R) (n : nat).
  Hypotheses (WR : rates_within M rate) (WB : rates_within M borrow) (WY : rates_within M (div_yield divs)).
  Hypothesis BM : bpow radix2 (-900) <= M <= bpow radix2 900.
  Hypotheses (NR : (bumps rate <= n)%nat) (NB : (bumps borrow <= n)%nat) (NY : (bumps (div_yield divs) <= n)%nat) (NN : (n <= 1000)%nat).
  Hypothesis ND : dividends divs = [].
  Hypotheses (FS : finite spot) (BS : bpow radix2 (-300) <= real spot <= bpow radix2 300).
  Variables (s p : date).
  Hypotheses (AS : apply_rule settlement base = Ok s) (AP : apply_rule settlement d = Ok p).
  Hypotheses (IB : i32 base) (IS : i32 s) (IP : i32 p).

  Let away (c : curve F64) (d : date) : R := Rabs (years (base_date c) d).
  Let A := away rate s + away borrow s + 2 * (away rate base + away borrow base) + (away rate p + away borrow p + away (div_yield divs) p).

  Lemma equity_near f F : M * A <= 200 ->
    equity_forward_new nan base spot settlement rate borrow divs hwm = Ok f -> forward_at nan f d = Ok F ->
    finite F /\ exists rs bs rp bp yp, rt nan' (exact_curve rate) s = Ok rs /\ rt nan' (exact_curve borrow) s = Ok bs /\
      rt nan' (exact_curve rate) p = Ok rp /\ rt nan' (exact_curve borrow) p = Ok bp /\ rt nan' (exact_curve (div_yield divs)) p = Ok yp /\
      let exact := real spot * exp (rp - bp + yp - (rs - bs)) in
      Rabs (real F - exact) <= (3 * eps + ((56 + 5 * INR n) * M * A + 4) * uu) * exact.
  Proof.
    intros MA EN EF. pose proof uu_small as [U1 U2]. pose proof (few n NN) as Fw. pose proof (within_pos M rate WR (proj2 BM)) as M0.
    unfold equity_forward_new in EN. apply bind_ok in EN. destruct EN as (l0 & L0 & EN). apply bind_ok in EN. destruct EN as (s' & S' & EN). assert (s' = s) by congruence. subst s'.
    apply bind_ok in EN. destruct EN as (sdf & SD & EN). unfold bootstrap_new in EN. rewrite ND in EN. cbn [rev bind] in EN. injection EN as <-.
    cbn [forward_at] in EF. unfold discounted_sum_from_base, sum_at in EF. cbn [boot_hwm boot_acc] in EF. destruct (hwm <? d)%Z; [discriminate|].
    change (binary_search_by [] (fun p0 => (acc_ex_date (T := F64) p0 ?= d)%Z)) with (Missing 0) in EF. cbn [Nat.eqb bind] in EF.
    apply bind_ok in EF. destruct EF as (p' & P' & EF). assert (p' = p) by congruence. subst p'.
    apply bind_ok in EF. destruct EF as (lp & LP & EF). apply bind_ok in EF. destruct EF as (y & Y & EF). assert (HF := f_equal (fun r => match r with Ok v => v | _ => F end) EF). cbn beta iota in HF. clear EF.
    unfold discount_with_borrow in SD. apply bind_ok in SD. destruct SD as (ls & LS & SD). injection SD as <-.
    assert (K : forall dd x, i32 dd -> log_discount_with_borrow nan rate borrow dd = Ok x -> exists r b, rt nan' (exact_curve rate) dd = Ok r /\ rt nan' (exact_curve borrow) dd = Ok b /\
      (M * (away borrow dd + away rate dd) <= 200 -> close (22 + 2 * INR n) (M * (away borrow dd + away rate dd)) x (b - r))).
    { intros dd x ID E. unfold log_discount_with_borrow in E. apply bind_ok in E. destruct E as (r & R & E). apply bind_ok in E. destruct E as (b & B & E). injection E as <-.
      destruct (rt_close nan nan' TR rate M n dd r WR BM NR NN ID R) as (yr & YR & CR). destruct (rt_close nan nan' TR borrow M n dd b WB BM NB NN ID B) as (yb & YB & CB).
      exists yr, yb. split; [exact YR|]. split; [exact YB|]. intros MM. rewrite Rmult_plus_distr_l in MM |- *. replace (22 + 2 * INR n) with (20 + 2 * INR n + 2) by ring.
      apply close_sub; [exact CB|exact CR|lra|]. eapply Rle_trans; [exact MM|]. lra. }
    assert (A0 : forall c d0, 0 <= away c d0) by (intros; apply Rabs_pos).
    pose proof (A0 rate s) as a1. pose proof (A0 borrow s) as a2. pose proof (A0 rate base) as a3. pose proof (A0 borrow base) as a4.
    pose proof (A0 rate p) as a5. pose proof (A0 borrow p) as a6. pose proof (A0 (div_yield divs) p) as a7.
    assert (Le : forall z, z <= A -> M * z <= 200) by (intros z Hz; eapply Rle_trans; [apply Rmult_le_compat_l; [exact M0|exact Hz]|exact MA]).
    destruct (K base l0 IB L0) as (r0 & b0 & _ & _ & C0). destruct (K s ls IS LS) as (rs & bs & RS & BSs & CS). destruct (K p lp IP LP) as (rp & bp & RP & BP & CP). clear K.
    destruct (rt_close nan nan' TR (div_yield divs) M n p y WY BM NY NN IP Y) as (yp & YP & CY).
    specialize (C0 (Le (away borrow base + away rate base) ltac:(unfold A; lra))). specialize (CS (Le (away borrow s + away rate s) ltac:(unfold A; lra))). specialize (CP (Le (away borrow p + away rate p) ltac:(unfold A; lra))).
    fold (away (div_yield divs) p) in CY. set (K := 22 + 2 * INR n) in *.
    set (m0 := M * (away borrow base + away rate base)) in *. set (ms := M * (away borrow s + away rate s)) in *. set (mp := M * (away borrow p + away rate p)) in *. set (my := M * away (div_yield divs) p) in *.
    assert (MM : M * A = ms + 2 * m0 + mp + my) by (unfold A, ms, m0, mp, my; ring). rewrite MM in MA.
    assert (m0p : 0 <= m0) by (apply Rmult_le_pos; lra). assert (msp : 0 <= ms) by (apply Rmult_le_pos; lra). assert (mpp : 0 <= mp) by (apply Rmult_le_pos; lra). assert (myp : 0 <= my) by (apply Rmult_le_pos; lra).
    assert (X1 : close (K + 2) (ms + m0) (nsub ls l0) (bs - rs - (b0 - r0))) by (apply close_sub; [exact CS|exact C0|unfold K; lra|lra]).
    assert (X2 : close (K + 4) (m0 + my + mp) (nsub (nadd l0 y) lp) (b0 - r0 + yp - (bp - rp))).
    { replace (K + 4) with (K + 2 + 2) by ring. apply close_sub; [apply close_add|apply (close_more K)|unfold K; lra|lra]; [exact C0|apply (close_more _ K _ _ _ CY); unfold K; lra|unfold K; lra|lra|exact CP|lra]. }
    destruct (close_exp eps TR _ _ _ _ HT E0 X1 ltac:(unfold K; lra) ltac:(lra)) as (F1 & N1 & S1). destruct (close_exp eps TR _ _ _ _ HT E0 X2 ltac:(unfold K; lra) ltac:(lra)) as (F2 & N2 & S2).
    set (x1 := bs - rs - (b0 - r0)) in *. set (x2 := b0 - r0 + yp - (bp - rp)) in *. set (h1 := (K + 2) * uu * (ms + m0)) in *. set (h2 := (K + 4) * uu * (m0 + my + mp)) in *.
    assert (h10 : 0 <= h1) by (unfold h1, K; repeat apply Rmult_le_pos; lra). assert (h20 : 0 <= h2) by (unfold h2, K; repeat apply Rmult_le_pos; lra).
    destruct (exp_200 x1) as [e1 e2]; [destruct X1 as (_ & Q & _); lra|]. destruct (exp_200 x2) as [e3 e4]; [destruct X2 as (_ & Q & _); lra|].
    pose proof (exp_pos x1) as p1. pose proof (exp_pos x2) as p2. pose proof (bpow_gt_0 radix2 (-300)) as P3.
    assert (Range : forall i j a b, bpow radix2 (-i) <= a <= bpow radix2 i -> bpow radix2 (-j) <= b <= bpow radix2 j -> bpow radix2 (-(i + j)) <= a * b <= bpow radix2 (i + j)).
    { intros i j a b HA HB. rewrite Z.opp_add_distr, !bpow_plus. pose proof (bpow_gt_0 radix2 (-i)). pose proof (bpow_gt_0 radix2 (-j)). split; apply Rmult_le_compat; lra. }
    assert (R1 := Range 300%Z 340%Z _ _ BS (conj e1 e2)). assert (R2 := Range 640%Z 340%Z _ _ R1 (conj e3 e4)). change (-(300 + 340))%Z with (-640)%Z in R1. change (300 + 340)%Z with 640%Z in R1. change (-(640 + 340))%Z with (-980)%Z in R2. change (640 + 340)%Z with 980%Z in R2.
    assert (W1 : bpow radix2 (-1000) <= real spot * exp x1 <= bpow radix2 1000).
    { assert (bpow radix2 (-1000) <= bpow radix2 (-640)) by (apply bpow_le; lia). assert (bpow radix2 640 <= bpow radix2 1000) by (apply bpow_le; lia). lra. }
    assert (W2 : bpow radix2 (-1000) <= real spot * exp x1 * exp x2 <= bpow radix2 1000).
    { assert (bpow radix2 (-1000) <= bpow radix2 (-980)) by (apply bpow_le; lia). assert (bpow radix2 980 <= bpow radix2 1000) by (apply bpow_le; lia). lra. }
    destruct (scale_near spot _ (real spot) (exp x1) 0 (eps + 201 / 100 * h1) FS F1 ltac:(lra) p1) as [F3 N3]; [rewrite Rminus_diag_eq by reflexivity; rewrite Rabs_R0; lra|exact N1|lra|lra|exact W1|].
    destruct zero_spec as [FZ RZ]. destruct (double_0_real n0 FZ RZ _ F3) as [F4 R4].
    set (q1 := 102 / 100 * (0 + (eps + 201 / 100 * h1)) + 11 / 10 * uu) in *.
    destruct (scale_near _ _ (real spot * exp x1) (exp x2) q1 (eps + 201 / 100 * h2) F4 F2 ltac:(apply Rmult_lt_0_compat; lra) p2) as [F5 N5]; [rewrite R4; exact N3|exact N2|unfold q1; lra|lra|exact W2|].
    assert (Hx : F = nmul (nsub (nmul spot (nexp (nsub ls l0))) n0) (nexp (nsub (nadd l0 y) lp))) by (symmetry; exact HF).
    rewrite Hx. split; [exact F5|]. exists rs, bs, rp, bp, yp. repeat (split; [assumption|]). cbv zeta.
    assert (EX : real spot * exp x1 * exp x2 = real spot * exp (rp - bp + yp - (rs - bs))) by (rewrite Rmult_assoc, <- exp_plus; do 2 f_equal; unfold x1, x2; ring).
    rewrite <- EX. eapply Rle_trans; [exact N5|]. apply Rmult_le_compat_r; [pose proof (bpow_gt_0 radix2 (-1000)); lra|]. unfold q1.
    assert (H12 : h1 + h2 <= (26 + 2 * INR n) * uu * (ms + 2 * m0 + mp + my)).
    { unfold h1, h2, K. assert (0 <= uu * (ms + m0)) by (apply Rmult_le_pos; lra). nra. }
    assert (0 <= uu * (ms + 2 * m0 + mp + my)) by (apply Rmult_le_pos; lra). assert (0 <= INR n * (uu * (ms + 2 * m0 + mp + my))) by (apply Rmult_le_pos; lra).
    replace ((26 + 2 * INR n) * uu * (ms + 2 * m0 + mp + my)) with (26 * (uu * (ms + 2 * m0 + mp + my)) + 2 * (INR n * (uu * (ms + 2 * m0 + mp + my)))) in H12 by ring.
    rewrite (Rmult_assoc (56 + 5 * INR n) M A), MM.
    replace (3 * eps + ((56 + 5 * INR n) * (ms + 2 * m0 + mp + my) + 4) * uu) with (3 * eps + 56 * (uu * (ms + 2 * m0 + mp + my)) + 5 * (INR n * (uu * (ms + 2 * m0 + mp + my))) + 4 * uu) by ring. lra.
  Qed.
End Equity.

(** ** From spot to the price of an option *)

Lemma black_near_f N pc D f1 f2 k s : normal_cdf N -> 0 < D -> 0 < f1 -> 0 < f2 -> 0 < k -> 0 < s ->
  Rabs (D * blacks_price N pc f1 k s - D * blacks_price N pc f2 k s) <= D * Rabs (f1 - f2).
Proof.
  intros HN HD H1 H2 Hk Hs.
  assert (BC : forall f, 0 < f -> D * blacks_price N pc f k s = option_price pc N D f k s) by (intros f Hf; rewrite <- (L_BlackPrices.blacks_code N HN) by lra; destruct pc; reflexivity).
  rewrite !BC by assumption. unfold option_price. destruct pc; [now apply put_near_f|now apply call_near_f].
Qed.

Lemma share_forward {T} {NT : Num T} {TR : Trans T} (nan : T) cdf c id credit cur s d f F : ctx_spot_date c <> dt_date d ->
  ctx_forward_curve c (IEquity id credit cur s) (dt_date d) = Ok f -> price nan cdf c (IEquity id credit cur s) d = Ok F -> forward_at nan f (dt_date d) = Ok F.
Proof.
  intros NE EF EP. unfold price, first_price in EP. cbn [prices last] in EP. destruct (dt_date d =? ctx_spot_date c)%Z eqn:Q; [apply Z.eqb_eq in Q; congruence|].
  rewrite EF in EP. cbn [bind mapM] in EP. destruct (forward_at nan f (dt_date d)) as [y| |]; cbn [bind] in EP; try discriminate. congruence.
Qed.

(** ** Functions of the library that are right up to rounding *)

Lemma ln_away x : finite x -> 0 < real x -> real x <> 1 -> bpow radix2 (-60) <= Rabs (ln (real x)).
Proof.
  intros F P' NE. assert (E3 : forall x, 1 + x <= exp x) by exact exp_ineq1_le. destruct one_spec as [F1 R1].
  assert (LT : bpow radix2 (-60) <= / 256). { change (/ 256) with (bpow radix2 (-8)). apply bpow_le. lia. }
  assert (Pos : 0 < bpow radix2 (-60)) by apply bpow_gt_0.
  destruct (Rle_lt_dec (real x) 1) as [L|L].
  - assert (H : real x < 1) by lra. pose proof (succ_le n1 x F1 F) as S1. rewrite R1 in S1. specialize (S1 ltac:(lra)).
    pose proof (ulp_large (real x) P') as UL.
    assert (SM : bpow radix2 53 * bpow radix2 (-60) <= / 2). { rewrite <- bpow_plus. change (/ 2) with (bpow radix2 (-1)). apply bpow_le. lia. }
    pose proof (E3 (ln (real x))) as X. rewrite exp_ln in X by exact P'.
    assert (B : real x <= 1 - bpow radix2 (-60)).
    { assert (0 < bpow radix2 53) by apply bpow_gt_0. set (u := ulp _ _ _) in *.
      destruct (Rle_lt_dec (/ 2) (real x)) as [M|M]; [|lra]. assert (bpow radix2 (-60) <= u); [|lra].
      apply Rmult_le_reg_l with (bpow radix2 53); [assumption|]. lra. }
    assert (ln (real x) <= - bpow radix2 (-60)) by lra. rewrite Rabs_left; lra.
  - pose proof (succ_le x n1 F F1) as S1. rewrite R1 in *. specialize (S1 ltac:(lra)).
    assert (UB : ulp radix2 (FLT_exp (-1074) 53) 1 = bpow radix2 (-52)) by (change 1 with (bpow radix2 0); rewrite ulp_bpow; reflexivity). rewrite UB in S1.
    assert (SM : bpow radix2 (-52) = 256 * bpow radix2 (-60)) by (change (-52)%Z with (8 + -60)%Z; rewrite bpow_plus; reflexivity).
    pose proof (E3 (- ln (real x))) as X. rewrite exp_Ropp, exp_ln in X by exact P'.
    assert (/ real x <= 1 - bpow radix2 (-60)).
    { apply Rmult_le_reg_r with (real x); [exact P'|]. rewrite Rinv_l by lra. nra. }
    rewrite Rabs_right; lra.
Qed.

Lemma rounded_ln_close : close_ln (2 * uu) rounded_ln.
Proof.
  intros x F P. assert (E : nln (Trans := rounded_ln) x = nearest_double (ln (real x))) by (destruct x as [s|[]| |s m e]; try reflexivity; cbn in P; lra).
  rewrite E. pose proof (ln_range x F P) as B. destruct (nearest_double_spec (ln (real x))) as [Fl Rl]; [apply (bound_in_range _ 1000); [lia|exact B]|].
  split; [exact Fl|]. rewrite Rl. destruct (Req_dec (real x) 1) as [->|NE]; [rewrite ln_1, rnd_0, Rminus_0_r, Rabs_R0; lra|].
  pose proof (ln_away x F P NE) as A. destruct (rnd_error (ln (real x))) as (e & h & He & Hh & ->). set (y := ln (real x)) in *.
  replace (y * (1 + e) + h - y) with (e * y + h) by ring. eapply Rle_trans; [apply Rabs_triang|]. rewrite Rabs_mult.
  assert (tiny <= uu * Rabs y).
  { apply Rle_trans with (uu * bpow radix2 (-60)); [unfold uu, tiny; rewrite <- bpow_plus; apply bpow_le; lia|]. apply Rmult_le_compat_l; [apply bpow_ge_0|exact A]. }
  assert (Rabs e * Rabs y <= uu * Rabs y) by (apply Rmult_le_compat_r; [apply Rabs_pos|exact He]). lra.
Qed.

Lemma rounded_cdf_close N : normal_cdf N -> close_cdf (2 * uu) N (fun x => nearest_double (N (real x))).
Proof.
  intros HN x F. pose proof (L_Normal.cdf_pos N HN (real x)) as P. pose proof (L_Normal.cdf_pos N HN (- real x)) as P'. rewrite (nc_symmetric N HN) in P'.
  pose proof uu_small as [U1 U2]. pose proof tiny_small as [T1 T2].
  destruct (nearest_double_spec (N (real x))) as [Fn Rn]; [apply (bound_in_range _ 1); [lia|]; change (bpow radix2 1) with 2; rewrite Rabs_right; lra|].
  split; [exact Fn|]. rewrite Rn. split; [apply rnd_unit; lra|]. destruct (rnd_error (N (real x))) as (e & h & He & Hh & ->). set (y := N (real x)) in *.
  replace (y * (1 + e) + h - y) with (e * y + h) by ring. eapply Rle_trans; [apply Rabs_triang|].
  assert (Rabs (e * y) <= uu * 1) by (apply abs_mult_le; [exact He|rewrite Rabs_right; lra]). lra.
Qed.

Lemma library_exists N : normal_cdf N -> close_ln (2 * uu) rounded_ln /\ accurate (2 * uu) rounded_ln /\ exists cdf, close_cdf (2 * uu) N cdf.
Proof. intros HN. split; [exact rounded_ln_close|]. split; [exact rounded_exp_accurate|]. eexists. exact (rounded_cdf_close N HN). Qed.

(** ** The whole way *)

Lemma from_spot N eps cdf (TR : Trans F64) nan nan' c v k d x F yc M vol cal base now st :
  normal_cdf N -> close_cdf eps N cdf -> close_ln eps TR -> accurate eps TR -> 0 <= eps <= / 1000 ->
  price nan cdf c (ISpotEuropean v k) d = Ok x -> dt_leb d (van_expiry v) = true ->
  price nan cdf c (van_underlying v) (van_expiry v) = Ok F ->
  finite F -> finite k -> bpow radix2 (-340) <= real F <= bpow radix2 340 -> bpow radix2 (-340) <= real k <= bpow radix2 340 ->
  ctx_yield_curve c (credit_id (van_underlying v)) (van_pay_date v) = Ok yc -> rates_within M yc -> bpow radix2 (-900) <= M <= bpow radix2 900 -> (bumps yc <= 1000)%nat ->
  apply_rule (van_settlement v) (dt_date d) = Ok st -> i32 st -> i32 (van_pay_date v) ->
  let years_away := Rabs (years (base_date yc) (van_pay_date v)) + Rabs (years (base_date yc) st) in M * years_away <= 200 ->
  ctx_vol_surface c (van_underlying v) (dt_date (van_expiry v)) (ctx_forward_curve c (van_underlying v) (dt_date (van_expiry v))) = Ok (FlatVolSurface vol cal base) ->
  finite_weights cal -> proper (exact cal) -> (nesting cal <= 1000)%nat -> finite vol -> Rabs (real vol) <= 1000 -> in_day base ->
  time_to_day_fraction (van_underlying v) d = Ok now -> in_day now -> in_day (van_expiry_time v) -> (0 <= ddf_date now)%Z ->
  upto (exact_time base) (exact_time now) -> upto (exact_time now) (exact_time (van_expiry_time v)) -> (ddf_date (van_expiry_time v) < ddf_date base + 2 ^ 40)%Z ->
  let V := real vol ^ 2 * weighted_years (exact cal) (exact_time now) (exact_time (van_expiry_time v)) in
  let a := allowance cal base (van_expiry_time v) vol in 10 * a <= V -> bpow radix2 (-180) <= V <= bpow radix2 180 ->
  forall forward g, 0 < forward -> Rabs (real F - forward) <= g * forward ->
  finite x /\ exists D, df nan' (exact_curve yc) (van_pay_date v) st = Ok D /\ 0 < D /\
    Rabs (real x - D * blacks_price N (van_put_or_call v) forward (real k) (sqrt V)) <=
      pricing_error eps ((90 + 9 * INR (bumps yc)) * M * years_away) (real F / real k) (sqrt V) a * (D * (real F + real k)) + g * (D * forward).
Proof.
  intros HN HC HL HE E0 EP BE EF FF Fk BF Bk EC W BM NB ES IS IP A MA EV FW P NS FV BV DB EN DN DX N0 UB UN LT V a AV VV fw g P0 NF.
  destruct (european_near N eps cdf TR nan nan' c v k d x F yc M vol cal base now st HN HC HL HE E0 EP BE EF FF Fk BF Bk EC W BM NB ES IS IP MA EV FW P NS FV BV DB EN DN DX N0 UB UN LT AV VV) as (Fx & D & ED & D0 & Nx).
  fold A V a in Nx. split; [exact Fx|]. exists D. split; [exact ED|]. split; [exact D0|].
  pose proof (bpow_gt_0 radix2 (-340)) as P3. pose proof (bpow_gt_0 radix2 (-180)) as P4.
  assert (Q := black_near_f N (van_put_or_call v) D (real F) fw (real k) (sqrt V) HN D0 ltac:(lra) P0 ltac:(lra) (sqrt_lt_R0 V ltac:(lra))).
  assert (D * Rabs (real F - fw) <= D * (g * fw)) by (apply Rmult_le_compat_l; lra).
  set (b1 := D * blacks_price N _ (real F) _ _) in *. set (b2 := D * blacks_price N _ fw _ _) in *. replace (real x - b2) with ((real x - b1) + (b1 - b2)) by ring.
  eapply Rle_trans; [apply abs_sum; [exact Nx|exact Q]|]. lra.
Qed.

Lemma few_years_error eps rates ratio vol w days : 0 <= eps <= bpow radix2 (-50) -> 0 <= rates <= 20000 -> Rabs (ln ratio) <= 20 ->
  / 100 <= vol <= 2 -> / 400 <= w <= 100 -> 0 <= days <= 12000 ->
  let a := 4 * uu * days * vol ^ 2 + bpow radix2 (-1060) in
  10 * a <= vol ^ 2 * w /\ bpow radix2 (-180) <= vol ^ 2 * w <= bpow radix2 180 /\
  pricing_error eps rates ratio (sqrt (vol ^ 2 * w)) a <= 6 / 10 * / 1000000000.
Proof.
  intros E Rt L Vo W Dy a. assert (U : 0 < uu <= / 9000000000000000) by (pose proof uu_small; lra).
  assert (E8 : bpow radix2 (-50) = 8 * uu) by (unfold uu; change (-50)%Z with (3 + -53)%Z; rewrite bpow_plus; reflexivity). rewrite E8 in E.
  assert (B60 : 0 < bpow radix2 (-1060) <= uu / 1000000000).
  { split; [apply bpow_gt_0|]. apply Rle_trans with (bpow radix2 (-53 + -40)); [apply bpow_le; lia|]. rewrite bpow_plus. fold uu. unfold Rdiv. apply Rmult_le_compat_l; [lra|].
    change (bpow radix2 (-40)) with (/ 1099511627776). lra. }
  assert (V2 : / 10000 <= vol ^ 2 <= 4) by nra.
  assert (VW : / 4000000 <= vol ^ 2 * w <= 400) by nra.
  assert (ud : 0 <= uu * days <= uu * 12000) by nra.
  assert (A : 0 <= a <= 49000 * uu * vol ^ 2).
  { unfold a. replace (4 * uu * days * vol ^ 2) with (4 * (uu * days * vol ^ 2)) by ring. set (q := vol ^ 2) in *.
    assert (0 <= uu * days * q <= uu * 12000 * q) by (split; [apply Rmult_le_pos; lra|apply Rmult_le_compat_r; lra]).
    assert (uu / 10000 <= uu * q) by (unfold Rdiv; apply Rmult_le_compat_l; lra). lra. }
  split; [|split].
  - assert (49000 * uu * vol ^ 2 <= / 1000000 * vol ^ 2) by (apply Rmult_le_compat_r; lra). nra.
  - assert (bpow radix2 (-180) <= bpow radix2 (-22)) by (apply bpow_le; lia). assert (bpow radix2 9 <= bpow radix2 180) by (apply bpow_le; lia).
    change (bpow radix2 (-22)) with (/ 4194304) in *. change (bpow radix2 9) with 512 in *. lra.
  - assert (SW : sqrt (vol ^ 2 * w) = vol * sqrt w). { rewrite sqrt_mult by lra. rewrite sqrt_pow2 by lra. reflexivity. }
    assert (Sr : / 20 <= sqrt w <= 10).
    { split; [replace (/ 20) with (sqrt (/ 20 * / 20)) by (apply sqrt_square; lra)|replace 10 with (sqrt (10 * 10)) by (apply sqrt_square; lra)]; apply sqrt_le_1; lra. }
    rewrite SW. set (r := sqrt w) in *. set (s := vol * r). assert (S : / 2000 <= s <= 20) by (unfold s; nra).
    assert (I : / s <= 2000) by (replace 2000 with (/ / 2000) by lra; apply Rinv_le_contravar; lra). assert (I0 : 0 < / s) by (apply Rinv_0_lt_compat; lra).
    unfold pricing_error. cbv zeta. fold uu.
    assert (T1 : 2 * ((eps + 4 * uu) * Rabs (ln ratio) + 5 * uu) / s <= 2 * ((12 * uu) * 20 + 5 * uu) * 2000).
    { unfold Rdiv. pose proof (Rabs_pos (ln ratio)). apply Rmult_le_compat; [nra|lra| |exact I]. assert ((eps + 4 * uu) * Rabs (ln ratio) <= 12 * uu * 20) by (apply Rmult_le_compat; lra). lra. }
    assert (T2 : 2 * a / s <= 98000 * uu * 40).
    { apply (Rmult_le_reg_r s); [lra|]. replace (2 * a / s * s) with (2 * a) by (field; lra). unfold s. replace (98000 * uu * 40 * (vol * r)) with (98000 * uu * vol * (40 * r)) by ring.
      assert (0 <= uu * vol) by nra. assert (uu * vol * vol <= uu * vol * (40 * r)) by (apply Rmult_le_compat_l; lra). replace (vol ^ 2) with (vol * vol) in A by ring. lra. }
    assert (T3 : (10 + rates) * uu <= 20010 * uu) by (apply Rmult_le_compat_r; lra).
    assert (T4 : 5 * uu * s <= 5 * uu * 20) by (apply Rmult_le_compat_l; lra). lra.
Qed.

Lemma log_ratio a b : 1 <= a <= 1000000 -> 1 <= b <= 1000000 -> Rabs (ln (a / b)) <= 20.
Proof.
  intros A B. assert (L : forall y, 1 <= y <= 1000000 -> 0 <= ln y <= 20).
  { intros y Y. split; [rewrite <- ln_1; apply ln_mono; lra|]. rewrite <- (ln_exp 20). apply ln_mono; [lra|].
    assert (E : forall n x, exp (INR n * x) = exp x ^ n).
    { induction n as [|n IH]; intros x; [rewrite Rmult_0_l, exp_0; reflexivity|]. rewrite S_INR, Rmult_plus_distr_r, Rmult_1_l, exp_plus, IH. cbn [pow]. ring. }
    replace 20 with (INR 40 * (/ 2)) by (rewrite INR_IZR_INZ; cbn; lra). rewrite E. pose proof (exp_ineq1_le (/ 2)) as X.
    assert (Q := pow_incr (3 / 2) (exp (/ 2)) 40 ltac:(lra)). assert (1000000 <= (3 / 2) ^ 40) by lra. lra. }
  unfold Rdiv. rewrite ln_mult, ln_Rinv by (try apply Rinv_0_lt_compat; lra). pose proof (L a A). pose proof (L b B). apply Rabs_le. lra.
Qed.

Lemma share_option_near N eps cdf (TR : Trans F64) nan nan' c v id credit cur rule k d x F f spot fbase hwm rate borrow divs yc vol cal base now st s p :
  normal_cdf N -> close_cdf eps N cdf -> close_ln eps TR -> accurate eps TR -> 0 <= eps <= bpow radix2 (-50) ->
  (* the option and its price *)
  van_underlying v = IEquity id credit cur rule -> price nan cdf c (ISpotEuropean v k) d = Ok x -> dt_leb d (van_expiry v) = true ->
  (* the forward of the share, made from a spot, a rate, a borrow cost and a dividend yield *)
  ctx_spot_date c <> dt_date (van_expiry v) -> ctx_forward_curve c (van_underlying v) (dt_date (van_expiry v)) = Ok f ->
  equity_forward_new nan fbase spot rule rate borrow divs hwm = Ok f -> dividends divs = [] ->
  apply_rule rule fbase = Ok s -> apply_rule rule (dt_date (van_expiry v)) = Ok p ->
  price nan cdf c (van_underlying v) (van_expiry v) = Ok F ->
  (* the discounting *)
  ctx_yield_curve c credit (van_pay_date v) = Ok yc -> apply_rule (van_settlement v) (dt_date d) = Ok st ->
  (* the volatility *)
  ctx_vol_surface c (van_underlying v) (dt_date (van_expiry v)) (Ok f) = Ok (FlatVolSurface vol cal base) -> time_to_day_fraction (van_underlying v) d = Ok now ->
  finite_weights cal -> proper (exact cal) -> in_day base -> in_day now -> in_day (van_expiry_time v) -> (0 <= ddf_date now)%Z ->
  upto (exact_time base) (exact_time now) -> upto (exact_time now) (exact_time (van_expiry_time v)) ->
  (* ordinary sizes *)
  finite spot -> 1 <= real spot <= 1000000 -> 1 <= real F <= 1000000 -> finite k -> 1 <= real k <= 1000000 ->
  Forall ordinary_curve [rate; borrow; div_yield divs; yc] ->
  Forall (fun cd => near_date (fst cd) (snd cd)) [(rate, fbase); (borrow, fbase); (rate, s); (borrow, s); (rate, p); (borrow, p); (div_yield divs, p); (yc, van_pay_date v); (yc, st)] ->
  finite vol -> / 100 <= real vol <= 2 -> (nesting cal <= 3)%nat -> (ddf_date (van_expiry_time v) - ddf_date base < 12000)%Z ->
  let w := weighted_years (exact cal) (exact_time now) (exact_time (van_expiry_time v)) in / 400 <= w <= 100 ->
  finite x /\ exists D rs bs rp bp yp, df nan' (exact_curve yc) (van_pay_date v) st = Ok D /\
    rt nan' (exact_curve rate) s = Ok rs /\ rt nan' (exact_curve borrow) s = Ok bs /\
    rt nan' (exact_curve rate) p = Ok rp /\ rt nan' (exact_curve borrow) p = Ok bp /\ rt nan' (exact_curve (div_yield divs)) p = Ok yp /\
    let forward := real spot * exp (rp - bp + yp - (rs - bs)) in
    Rabs (real x - D * blacks_price N (van_put_or_call v) forward (real k) (real vol * sqrt w)) <= / 1000000000 * (D * (forward + real k)).
Proof.
  intros HN HC HL HE E0 U EP BE NS EF EQ ND AS AP EF' EC ES EV EN FW P DB DN DX N0 UB UN FS BS BF Fk Bk CS DS FV BV NC LT w W.
  assert (Ug : 0 < uu <= / 9000000000000000) by (pose proof uu_small; lra).
  assert (E8 : bpow radix2 (-50) = 8 * uu) by (unfold uu; change (-50)%Z with (3 + -53)%Z; rewrite bpow_plus; reflexivity).
  assert (E1 : 0 <= eps <= / 1000) by (rewrite E8 in E0; lra).
  inversion_clear CS as [|? ? C1 CS1]. inversion_clear CS1 as [|? ? C2 CS2]. inversion_clear CS2 as [|? ? C3 CS3]. inversion_clear CS3 as [|? ? C4 _].
  repeat match goal with H : Forall (fun cd => near_date (fst cd) (snd cd)) (_ :: _) |- _ => let Q := fresh "Q" in inversion_clear H as [|? ? Q H']; rename H' into DS; cbn [fst snd] in Q end.
  destruct C1 as [W1 B1], C2 as [W2 B2], C3 as [W3 B3], C4 as [W4 B4].
  destruct Q as [I1 Y1], Q0 as [_ Y2], Q1 as [I3 Y3], Q2 as [_ Y4], Q3 as [I5 Y5], Q4 as [_ Y6], Q5 as [_ Y7], Q6 as [I8 Y8], Q7 as [I9 Y9].
  assert (BM : bpow radix2 (-900) <= / 2 <= bpow radix2 900) by (change (/ 2) with (bpow radix2 (-1)); split; apply bpow_le; lia).
  assert (B30 : bpow radix2 (-300) <= 1 /\ 1000000 <= bpow radix2 300) by (split; [change 1 with (bpow radix2 0)|apply Rle_trans with (bpow radix2 20); [change (bpow radix2 20) with 1048576; lra|]]; apply bpow_le; lia).
  assert (B34 : bpow radix2 (-340) <= 1 /\ 1000000 <= bpow radix2 340) by (split; [change 1 with (bpow radix2 0)|apply Rle_trans with (bpow radix2 20); [change (bpow radix2 20) with 1048576; lra|]]; apply bpow_le; lia).
  assert (EX : forward_at nan f (dt_date (van_expiry v)) = Ok F) by (rewrite U in EF, EF'; exact (share_forward nan cdf c id credit cur rule (van_expiry v) f F NS EF EF')).
  assert (N10 : INR 10 = 10) by (rewrite INR_IZR_INZ; reflexivity).
  destruct (equity_near eps TR nan nan' HE E1 rate borrow divs spot rule fbase hwm (dt_date (van_expiry v)) (/ 2) 10 W1 W2 W3 BM B1 B2 B3 ltac:(lia) ND FS ltac:(lra) s p AS AP I1 I3 I5 f F ltac:(lra) EQ EX)
    as (FF & rs & bs & rp & bp & yp & RS & BSs & RP & BP & YP & NF). cbv zeta in NF.
  set (fw := real spot * exp (rp - bp + yp - (rs - bs))) in *. set (A := _ + _ + _ + _) in NF. set (g := 3 * eps + _) in NF.
  assert (fw0 : 0 < fw) by (apply Rmult_lt_0_compat; [lra|apply exp_pos]).
  assert (A0 : 0 <= A <= 360) by (unfold A; repeat match goal with |- context [Rabs ?z] => let h := fresh in pose proof (Rabs_pos z) as h; set (Rabs z) in * end; lra).
  assert (g0 : 0 <= g <= / 100000000000).
  { unfold g. rewrite N10. rewrite E8 in E0. assert (0 <= ((56 + 5 * 10) * / 2 * A + 4) * uu <= 20000 * uu) by (split; [apply Rmult_le_pos; lra|apply Rmult_le_compat_r; lra]). lra. }
  assert (L4 : 0 <= INR (nesting cal) <= 3). { split; [apply pos_INR|]. replace 3 with (INR 3) by (rewrite INR_IZR_INZ; reflexivity). now apply le_INR. }
  assert (Lb : 0 <= INR (bumps yc) <= 10). { split; [apply pos_INR|]. rewrite <- N10. now apply le_INR. }
  assert (Dp : (ddf_date base <= ddf_date (van_expiry_time v))%Z).
  { apply upto_dates in UB. apply upto_dates in UN. unfold exact_time in UB, UN. cbn [ddf_date] in UB, UN. lia. }
  set (days := IZR (ddf_date (van_expiry_time v) - ddf_date base + 1)).
  assert (Hd : 0 <= days <= 12000) by (unfold days; split; apply IZR_le; lia).
  set (ya := Rabs (years (base_date yc) (van_pay_date v)) + Rabs (years (base_date yc) st)).
  assert (Y0 : 0 <= ya <= 80) by (unfold ya; pose proof (Rabs_pos (years (base_date yc) (van_pay_date v))); pose proof (Rabs_pos (years (base_date yc) st)); lra).
  set (rates := (90 + 9 * INR (bumps yc)) * / 2 * ya).
  assert (Hr : 0 <= rates <= 20000) by (unfold rates; split; [apply Rmult_le_pos; lra|nra]).
  destruct (few_years_error eps rates (real F / real k) (real vol) w days E0 Hr (log_ratio _ _ BF Bk) BV W Hd) as (K1 & K2 & K3).
  set (a := 4 * uu * days * real vol ^ 2 + bpow radix2 (-1060)) in *.
  assert (V0 : 0 <= real vol ^ 2) by (apply pow_le; lra).
  assert (aa : allowance cal base (van_expiry_time v) vol <= a).
  { unfold allowance, a. fold uu days. apply Rplus_le_compat_r. apply Rmult_le_compat_r; [exact V0|]. apply Rmult_le_compat_r; [lra|]. apply Rmult_le_compat_r; lra. }
  rewrite U in EF', EV, EN. cbn [credit_id] in *.
  destruct (from_spot N eps cdf TR nan nan' c v k d x F yc (/ 2) vol cal base now st HN HC HL HE E1 EP BE) with (forward := fw) (g := g) as (Fx & D & ED & D0 & Nx);
    try assumption; try (rewrite U; assumption); try (rewrite U; cbn [credit_id]; assumption); try lra; try lia.
  { rewrite U. rewrite U in EF. rewrite EF. exact EV. }
  { apply Rabs_le. lra. }
  { fold w. lra. }
  split; [exact Fx|]. exists D, rs, bs, rp, bp, yp. repeat (split; [assumption|]). cbv zeta. fold fw.
  fold w ya rates in Nx. assert (SW : sqrt (real vol ^ 2 * w) = real vol * sqrt w). { rewrite sqrt_mult by lra. rewrite sqrt_pow2 by lra. reflexivity. }
  assert (Sp : 0 < sqrt (real vol ^ 2 * w)) by (apply sqrt_lt_R0; pose proof (bpow_gt_0 radix2 (-180)); lra).
  assert (PE : pricing_error eps rates (real F / real k) (sqrt (real vol ^ 2 * w)) (allowance cal base (van_expiry_time v) vol) <= 6 / 10 * / 1000000000).
  { eapply Rle_trans; [|exact K3]. unfold pricing_error. cbv zeta. apply Rplus_le_compat_l. unfold Rdiv. apply Rmult_le_compat_r; [left; now apply Rinv_0_lt_compat|lra]. }
  rewrite SW in *. eapply Rle_trans; [exact Nx|]. clear K3. set (pe := pricing_error _ _ _ _ _) in *.
  assert (FB : real F <= (1 + g) * fw). { apply Rabs_le_inv in NF. lra. }
  assert (DF : 0 <= D * fw) by (apply Rmult_le_pos; lra). assert (DK : 0 <= D * real k) by (apply Rmult_le_pos; lra).
  assert (X1 : D * (real F + real k) <= 2 * (D * fw) + D * real k - (1 - g) * (D * fw)). { replace (2 * (D * fw) + D * real k - (1 - g) * (D * fw)) with (D * ((1 + g) * fw + real k)) by ring. apply Rmult_le_compat_l; lra. }
  assert (X2 : pe * (D * (real F + real k)) <= 6 / 10 * / 1000000000 * (D * (real F + real k))) by (apply Rmult_le_compat_r; [apply Rmult_le_pos; lra|exact PE]).
  assert (X3 : g * (D * fw) <= / 100000000000 * (D * fw)) by (apply Rmult_le_compat_r; lra). lra.
Qed.
