(** Dividends and the forwards of shares that pay them, on doubles. *)
From Coq Require Import ZArith List Bool Reals Lra Lia Psatz.
From Coq.Floats Require Import SpecFloat.
From Flocq Require Import Core BinarySingleNaN.
From Verif Require Import Prelude Num L_Num M_Dates M_Search M_Calendar M_Interp M_Curves M_Forward S_Data S_Double S_CurveDouble S_DividendDouble
  L_Double L_DoubleError L_InterpDouble L_BrentDouble L_CurveDouble L_VolDouble L_BlackDouble L_PriceDouble L_ForwardDouble.
Import ListNotations.
Open Scope list_scope.
Open Scope R_scope.

Lemma abs_none x : Rabs x <= 0 -> x = 0.
Proof. intros H. apply Rabs_le_inv in H. lra. Qed.

(** ** Errors that multiply *)
Section Nearly.
  Variables (theta : R) (top : nat).
  Let rho := 1 + theta.
  Hypothesis T0 : 2 * uu <= theta.
  Hypothesis T1 : theta <= / 5.
  Hypothesis TOP : rho ^ top <= 2.

  Definition nearly (k : nat) (m : R) (a : F64) (x : R) : Prop := finite a /\ Rabs x <= m /\ Rabs (real a - x) <= (rho ^ k - 1) * m.

  Lemma rho_ge k : 1 <= rho ^ k.
  Proof. apply pow_R1_Rle. unfold rho. pose proof uu_small. lra. Qed.
  Lemma rho_le k j : (k <= j)%nat -> rho ^ k <= rho ^ j.
  Proof. apply Rle_pow. unfold rho. pose proof uu_small. lra. Qed.
  Lemma rho_top k : (k <= top)%nat -> rho ^ k <= 2.
  Proof. intros K. eapply Rle_trans; [apply rho_le, K|exact TOP]. Qed.

  Lemma nearly_size k m a x : nearly k m a x -> Rabs (real a) <= rho ^ k * m /\ 0 <= m.
  Proof.
    intros (F & B & N). pose proof (Rabs_pos x). split; [|lra]. replace (real a) with (x + (real a - x)) by ring.
    eapply Rle_trans; [apply Rabs_triang|]. lra.
  Qed.
  Lemma nearly_more k m k' m' a x : nearly k m a x -> (k <= k')%nat -> m <= m' -> nearly k' m' a x.
  Proof.
    intros NA K M. destruct (nearly_size _ _ _ _ NA) as [_ M0]. destruct NA as (F & B & N). split; [exact F|]. split; [lra|].
    eapply Rle_trans; [exact N|]. pose proof (rho_le _ _ K). pose proof (rho_ge k). apply Rmult_le_compat; lra.
  Qed.
  Lemma nearly_exact a : finite a -> nearly 0 (Rabs (real a)) a (real a).
  Proof. intros F. split; [exact F|]. split; [lra|]. rewrite Rminus_eq_0, Rabs_R0. cbn. lra. Qed.

  Lemma nearly_mul k m a x j q b y : nearly k m a x -> nearly j q b y -> (k + j <= top)%nat -> m * q = 0 \/ bpow radix2 (-1000) <= m * q <= bpow radix2 1000 ->
    nearly (k + j + 1) (m * q) (nmul a b) (x * y).
  Proof.
    intros A B T G. destruct (nearly_size _ _ _ _ A) as [Sa M0]. destruct (nearly_size _ _ _ _ B) as [Sb Q0]. destruct A as (Fa & Ba & Na), B as (Fb & Bb & Nb).
    pose proof uu_small as [U1 U2]. pose proof tiny_small as [V1 V2]. pose proof (rho_ge k) as RK. pose proof (rho_ge j) as RJ. pose proof (rho_top _ T) as RT. rewrite pow_add in RT.
    set (rk := rho ^ k) in *. set (rj := rho ^ j) in *. assert (MQ : 0 <= m * q) by (now apply Rmult_le_pos).
    assert (SP : Rabs (real a * real b) <= rk * rj * (m * q)).
    { replace (rk * rj * (m * q)) with (rk * m * (rj * q)) by ring. now apply abs_mult_le. }
    assert (D : Rabs (real a * real b - x * y) <= (rk * rj - 1) * (m * q)).
    { replace (real a * real b - x * y) with ((real a - x) * real b + x * (real b - y)) by ring. eapply Rle_trans; [apply Rabs_triang|].
      replace ((rk * rj - 1) * (m * q)) with ((rk - 1) * m * (rj * q) + m * ((rj - 1) * q)) by ring. apply Rplus_le_compat; now apply abs_mult_le. }
    assert (B' : Rabs (x * y) <= m * q) by (now apply abs_mult_le).
    assert (E : rho ^ (k + j + 1) = rk * rj * (1 + theta)) by (rewrite !pow_add, pow_1; reflexivity).
    destruct (mul_spec a b Fa Fb) as [F R].
    { apply (bound_in_range _ 1001); [lia|]. eapply Rle_trans; [exact SP|]. change 1001%Z with (1 + 1000)%Z. rewrite bpow_plus. change (bpow radix2 1) with 2.
      assert (m * q <= bpow radix2 1000) by (destruct G as [->|G]; [apply bpow_ge_0|lra]). apply Rmult_le_compat; nra. }
    split; [exact F|]. split; [exact B'|]. rewrite E, R. set (P := m * q) in *. set (r := rk * rj) in *. assert (R1 : 1 <= r) by (unfold r; nra). destruct G as [Z|G].
    - rewrite Z in *. assert (Z1 : real a * real b = 0) by (rewrite Rmult_0_r in SP; now apply abs_none).
      assert (Z2 : x * y = 0) by (now apply abs_none). rewrite Z1, Z2, rnd_0, Rminus_0_r, Rabs_R0. lra.
    - destruct (rnd_error (real a * real b)) as (e & h & He & Hh & Q). rewrite Q.
      assert (TZ : tiny <= uu / 1000 * P).
      { apply Rle_trans with (uu / 1000 * bpow radix2 (-1000)); [|apply Rmult_le_compat_l; lra].
        apply Rle_trans with (bpow radix2 (-53 + -10 + -1000)); [unfold tiny; apply bpow_le; lia|]. rewrite !bpow_plus.
        apply Rmult_le_compat_r; [apply bpow_ge_0|]. fold uu. unfold Rdiv. apply Rmult_le_compat_l; [lra|]. change (bpow radix2 (-10)) with (/ 1024). lra. }
      replace (real a * real b * (1 + e) + h - x * y) with ((real a * real b - x * y) + e * (real a * real b) + h) by ring.
      eapply Rle_trans; [apply Rabs_triang|]. eapply Rle_trans; [apply Rplus_le_compat_r, Rabs_triang|].
      assert (Z : Rabs (e * (real a * real b)) <= uu * (r * P)) by (now apply abs_mult_le).
      assert (RP : P <= r * P) by nra. assert (2 * uu * (r * P) <= theta * (r * P)) by (apply Rmult_le_compat_r; [nra|exact T0]).
      assert (uu * P <= uu * (r * P)) by (apply Rmult_le_compat_l; lra). replace ((r * (1 + theta) - 1) * P) with ((r - 1) * P + theta * (r * P)) by ring. lra.
  Qed.

  Lemma nearly_sum (f : F64 -> F64 -> F64) (op : R -> R -> R) k m a x q b y : (op = Rplus /\ f = nadd) \/ (op = Rminus /\ f = nsub) ->
    nearly k m a x -> nearly k q b y -> (k <= top)%nat -> m + q <= bpow radix2 1000 -> nearly (k + 1) (m + q) (f a b) (op x y).
  Proof.
    intros O A B T G. destruct (nearly_size _ _ _ _ A) as [Sa M0]. destruct (nearly_size _ _ _ _ B) as [Sb Q0]. destruct A as (Fa & Ba & Na), B as (Fb & Bb & Nb).
    pose proof uu_small as [U1 U2]. pose proof (rho_ge k) as RK. pose proof (rho_top _ T) as RT. set (r := rho ^ k) in *.
    assert (N : Rabs (op (real a) (real b) - op x y) <= (r - 1) * (m + q)).
    { rewrite Rmult_plus_distr_l. destruct O as [[-> _]|[-> _]].
      - replace (real a + real b - (x + y)) with ((real a - x) + (real b - y)) by ring. now apply abs_sum.
      - replace (real a - real b - (x - y)) with ((real a - x) - (real b - y)) by ring. now apply abs_diff. }
    assert (Sz : Rabs (op (real a) (real b)) <= r * (m + q)).
    { rewrite Rmult_plus_distr_l. destruct O as [[-> _]|[-> _]]; [now apply abs_sum|now apply abs_diff]. }
    assert (IR : in_range (op (real a) (real b))).
    { apply (bound_in_range _ 1001); [lia|]. eapply Rle_trans; [exact Sz|]. change 1001%Z with (1 + 1000)%Z. rewrite bpow_plus. change (bpow radix2 1) with 2. apply Rmult_le_compat; lra. }
    assert (H : finite (f a b) /\ exists e, Rabs e <= uu /\ real (f a b) = op (real a) (real b) * (1 + e)).
    { destruct O as [[-> ->]|[-> ->]].
      - destruct (add_spec a b Fa Fb IR) as [F R]. split; [exact F|]. rewrite R. apply rnd_sum_error; now apply finite_format.
      - destruct (sub_spec a b Fa Fb IR) as [F R]. split; [exact F|]. rewrite R. apply rnd_diff_error; now apply finite_format. }
    destruct H as [F (e & He & R)]. split; [exact F|]. split.
    { destruct O as [[-> _]|[-> _]]; [now apply abs_sum|now apply abs_diff]. }
    rewrite R, pow_add, pow_1. fold r. replace (op (real a) (real b) * (1 + e) - op x y) with ((op (real a) (real b) - op x y) + e * op (real a) (real b)) by ring.
    assert (E := abs_mult_le _ _ _ _ He Sz). eapply Rle_trans; [apply Rabs_triang|]. assert (P : 0 <= r * (m + q)) by (apply Rmult_le_pos; lra).
    assert (uu * (r * (m + q)) <= theta * (r * (m + q))) by (apply Rmult_le_compat_r; lra). unfold rho. lra.
  Qed.
  Lemma nearly_add k m a x q b y : nearly k m a x -> nearly k q b y -> (k <= top)%nat -> m + q <= bpow radix2 1000 -> nearly (k + 1) (m + q) (nadd a b) (x + y).
  Proof. apply (nearly_sum nadd Rplus). now left. Qed.
  Lemma nearly_sub k m a x q b y : nearly k m a x -> nearly k q b y -> (k <= top)%nat -> m + q <= bpow radix2 1000 -> nearly (k + 1) (m + q) (nsub a b) (x - y).
  Proof. apply (nearly_sum nsub Rminus). now right. Qed.

  Lemma nearly_inv a x : nearly 1 x a x -> bpow radix2 (-500) <= x <= bpow radix2 500 -> nearly 3 (/ x) (ndiv n1 a) (1 / x).
  Proof.
    intros (F & _ & N) B. pose proof uu_small as [U1 U2]. pose proof tiny_small as [V1 V2]. pose proof (bpow_gt_0 radix2 (-500)) as P0. assert (X0 : 0 < x) by lra. assert (IX : 0 < / x) by (now apply Rinv_0_lt_compat).
    rewrite pow_1 in N. unfold rho in N. apply Rabs_le_inv in N. assert (TX : theta * x <= / 5 * x) by (apply Rmult_le_compat_r; lra).
    assert (A0 : 4 / 5 * x <= real a) by lra. set (e := (real a - x) / x).
    assert (AE : real a = x * (1 + e)) by (unfold e; field; lra). assert (E0 : - theta <= e <= theta).
    { unfold e. split; apply (Rmult_le_reg_r x); try lra; replace ((real a - x) / x * x) with (real a - x) by (field; lra); lra. }
    destruct one_spec as [F1 R1]. assert (TH : 0 < 1 - theta) by lra.
    assert (IE : 0 < / (1 + e) <= (1 + theta) ^ 2).
    { assert (0 < 1 + e) by lra. split; [now apply Rinv_0_lt_compat|]. apply (Rmult_le_reg_l (1 + e)); [lra|]. rewrite Rinv_r by lra.
      apply Rle_trans with ((1 - theta) * (1 + theta) ^ 2); [cbn; nra|apply Rmult_le_compat_r; [nra|lra]]. }
    assert (IE2 : - ((1 + theta) ^ 2 - 1) <= / (1 + e) - 1 <= (1 + theta) ^ 2 - 1).
    { split; [|lra]. assert (/ (1 + theta) <= / (1 + e)) by (apply Rinv_le_contravar; lra). assert (1 - theta <= / (1 + theta)) by (apply (Rmult_le_reg_l (1 + theta)); [lra|]; rewrite Rinv_r by lra; nra). nra. }
    assert (QX : real n1 / real a = / x * / (1 + e)) by (rewrite R1, AE; field; lra).
    assert (P2 : (1 + theta) ^ 2 <= 2) by nra.
    assert (IB : bpow radix2 (-500) <= / x <= bpow radix2 500).
    { change (bpow radix2 (-500)) with (/ bpow radix2 500). split; [apply Rinv_le_contravar; lra|].
      rewrite <- (Rinv_inv (bpow radix2 500)). apply Rinv_le_contravar; [apply Rinv_0_lt_compat, bpow_gt_0|]. change (/ bpow radix2 500) with (bpow radix2 (-500)). lra. }
    assert (SZ : 0 <= / x * / (1 + e) <= / x * (1 + theta) ^ 2) by (split; [apply Rmult_le_pos; lra|apply Rmult_le_compat_l; lra]).
    destruct (div_spec n1 a F1 F) as [FD RD]; [lra|rewrite QX; apply (bound_in_range _ 501); [lia|]; rewrite Rabs_right by lra; change 501%Z with (1 + 500)%Z; rewrite bpow_plus; change (bpow radix2 1) with 2; nra|].
    rewrite QX in RD. split; [exact FD|]. replace (1 / x) with (/ x) by (field; lra). split; [rewrite Rabs_right; lra|].
    destruct (rnd_error (/ x * / (1 + e))) as (g & h & Hg & Hh & Q). rewrite RD, Q.
    assert (TZ : tiny <= uu / 1000 * / x).
    { apply Rle_trans with (uu / 1000 * bpow radix2 (-500)); [|apply Rmult_le_compat_l; lra].
      apply Rle_trans with (bpow radix2 (-53 + -10 + -500)); [unfold tiny; apply bpow_le; lia|]. rewrite !bpow_plus.
      apply Rmult_le_compat_r; [apply bpow_ge_0|]. fold uu. unfold Rdiv. apply Rmult_le_compat_l; [lra|]. change (bpow radix2 (-10)) with (/ 1024). lra. }
    replace (/ x * / (1 + e) * (1 + g) + h - / x) with (/ x * (/ (1 + e) - 1) + g * (/ x * / (1 + e)) + h) by ring.
    eapply Rle_trans; [apply Rabs_triang|]. eapply Rle_trans; [apply Rplus_le_compat_r, Rabs_triang|].
    assert (Z1 : Rabs (/ x * (/ (1 + e) - 1)) <= / x * ((1 + theta) ^ 2 - 1)) by (apply abs_mult_le; [rewrite Rabs_right; lra|apply Rabs_le; lra]).
    assert (Z2 : Rabs (g * (/ x * / (1 + e))) <= uu * (/ x * (1 + theta) ^ 2)) by (apply abs_mult_le; [exact Hg|rewrite Rabs_right; lra]).
    unfold rho. replace (((1 + theta) ^ 3 - 1) * / x) with (/ x * ((1 + theta) ^ 2 - 1) + theta * (/ x * (1 + theta) ^ 2)) by ring.
    assert (P1 : 1 <= (1 + theta) ^ 2) by nra. assert (/ x <= / x * (1 + theta) ^ 2) by nra.
    assert (2 * uu * (/ x * (1 + theta) ^ 2) <= theta * (/ x * (1 + theta) ^ 2)) by (apply Rmult_le_compat_r; [nra|exact T0]). nra.
  Qed.
End Nearly.

(** ** The loop over the dividends, on doubles and exactly *)
Section Loop.
  Variables (theta : R) (top : nat).
  Hypothesis T0 : 2 * uu <= theta.
  Hypothesis T1 : theta <= / 5.
  Hypothesis TOP : (1 + theta) ^ top <= 2.
  Variables (TR : Trans F64) (nan : F64) (nan' : R) (rate borrow : curve F64) (rate' borrow' : curve R) (q : F64) (q' : R).
  Variables (X : date -> R) (dates : list date).
  Hypothesis X0 : forall dd, 0 <= X dd.
  Hypothesis HD : forall dd x, In dd dates -> discount_with_borrow nan rate borrow q dd = Ok x ->
    discount_with_borrow nan' rate' borrow' q' dd = Ok (X dd) /\ nearly theta 1 (X dd) x (X dd) /\ bpow radix2 (-100) <= X dd <= bpow radix2 100.
  Variables (spot : F64) (S : R).
  Hypothesis NS : nearly theta 2 S spot S.
  Hypothesis S0 : bpow radix2 (-200) <= S.

  Definition same_acc k H (a : accumulation F64) (a' : accumulation R) : Prop := acc_ex_date a' = acc_ex_date a /\ nearly theta k H (acc_discounted a) (acc_discounted a').
  Record related (k : nat) (H : R) (s : boot_state F64) (s' : boot_state R) : Prop := {
    re_prev : bs_prev s' = bs_prev s;
    re_disc : nearly theta k H (bs_disc s) (bs_disc s');
    re_prev_disc : nearly theta k H (bs_prev_disc s) (bs_prev_disc s');
    re_acc : Forall2 (same_acc k H) (bs_acc s) (bs_acc s')
  }.

  Definition next_gross H (d : dividend F64) : R :=
    H + Rabs (real (cash d)) * X (pay_date d) + Rabs (real (relative d)) * ((S + H) / X (ex_date d)) * X (pay_date d).

  Lemma inv_nonneg x : 0 <= x -> 0 <= / x.
  Proof. intros [H|<-]; [left; now apply Rinv_0_lt_compat|rewrite Rinv_0; lra]. Qed.
  Lemma S_pos : 0 < S.
  Proof. pose proof (bpow_gt_0 radix2 (-200)). lra. Qed.
  Lemma next_ge H d : 0 <= H -> H <= next_gross H d.
  Proof.
    intros H0. pose proof S_pos. unfold next_gross, Rdiv. assert (0 <= Rabs (real (cash d)) * X (pay_date d)) by (apply Rmult_le_pos; [apply Rabs_pos|apply X0]).
    assert (0 <= Rabs (real (relative d)) * ((S + H) * / X (ex_date d)) * X (pay_date d)); [|lra].
    apply Rmult_le_pos; [|apply X0]. apply Rmult_le_pos; [apply Rabs_pos|]. apply Rmult_le_pos; [lra|apply inv_nonneg, X0].
  Qed.

  Lemma prod_range (i j a b i' j' : R) : 0 < i -> 0 < i' -> i <= a <= j -> i' <= b <= j' -> i * i' <= a * b <= j * j'.
  Proof. intros. split; apply Rmult_le_compat; lra. Qed.

  Lemma add_near k H s s' d s2 : (2 <= k)%nat -> (k + 9 <= top)%nat -> related k H s s' -> ordinary_dividend d -> In (pay_date d) dates -> In (ex_date d) dates ->
    S + next_gross H d <= bpow radix2 300 -> boot_add nan rate borrow q spot s d = Ok s2 ->
    exists s2', boot_add nan' rate' borrow' q' S s' (exact_dividend d) = Ok s2' /\ related (k + 9) (next_gross H d) s2 s2'.
  Proof.
    intros K T [RP RD RV RA] [[FC OC] [FR OR]] IP IE B E. pose proof S_pos as SP.
    assert (T00 : 0 <= theta) by (pose proof uu_small; lra).
    destruct (nearly_size theta _ _ _ _ RD) as [_ H0]. pose proof (next_ge H d H0) as GE.
    unfold boot_add in *. apply bind_ok in E. destruct E as (x & Ex & E). destruct (HD _ _ IP Ex) as (Ex' & Nx & Bx). cbn [exact_dividend cash relative ex_date pay_date] in *. rewrite Ex'. cbn [bind].
    assert (EQ : neqb (real (relative d)) n0 = neqb (relative d) n0).
    { destruct (L_InterpDouble.zero_spec) as [FZ RZ]. destruct (neqb (relative d) n0) eqn:Q.
      - apply eqb_spec in Q; [|assumption..]. apply Reqb_iff. rewrite Q. exact RZ.
      - apply Reqb_false. intros Z. assert (neqb (relative d) n0 = true) by (apply eqb_spec; [assumption..|]; rewrite Z; symmetry; exact RZ). congruence. }
    assert (B300 : bpow radix2 300 <= bpow radix2 1000) by (apply bpow_le; lia).
    assert (C0 : 0 <= Rabs (real (cash d)) * X (pay_date d)) by (apply Rmult_le_pos; [apply Rabs_pos|apply X0]).
    assert (R0 : 0 <= Rabs (real (relative d)) * ((S + H) / X (ex_date d)) * X (pay_date d)).
    { unfold Rdiv. apply Rmult_le_pos; [|apply X0]. apply Rmult_le_pos; [apply Rabs_pos|]. apply Rmult_le_pos; [lra|apply inv_nonneg, X0]. }
    assert (RNG : forall i z, (0 <= i <= 1000)%Z -> bpow radix2 (-i) <= z <= bpow radix2 i -> bpow radix2 (-1000) <= z <= bpow radix2 1000).
    { intros i z I Z. assert (bpow radix2 (-1000) <= bpow radix2 (-i)) by (apply bpow_le; lia). assert (bpow radix2 i <= bpow radix2 1000) by (apply bpow_le; lia). lra. }
    assert (PR : forall i j a b, bpow radix2 (-i) <= a <= bpow radix2 i -> bpow radix2 (-j) <= b <= bpow radix2 j -> bpow radix2 (-(i + j)) <= a * b <= bpow radix2 (i + j)).
    { intros i j a b HA HB. rewrite Z.opp_add_distr, !bpow_plus. pose proof (bpow_gt_0 radix2 (-i)). pose proof (bpow_gt_0 radix2 (-j)). split; apply Rmult_le_compat; lra. }
    assert (N1 : nearly theta 2 (Rabs (real (cash d)) * X (pay_date d)) (nmul (cash d) x) (real (cash d) * X (pay_date d))).
    { apply (nearly_mul theta top T0 TOP 0 _ _ _ 1); [now apply nearly_exact|exact Nx|lia|]. destruct OC as [Z|OC]; [left; rewrite Z, Rabs_R0; ring|right].
      apply (RNG (300 + 100)%Z); [lia|]. now apply PR. }
    assert (N2 : nearly theta (k + 1) (H + Rabs (real (cash d)) * X (pay_date d)) (nadd (bs_disc s) (nmul (cash d) x)) (bs_disc s' + real (cash d) * X (pay_date d))).
    { apply (nearly_add theta top T0 TOP); [exact RD| |lia|unfold next_gross in B; lra]. apply (nearly_more theta T0 2 _ k _ _ _ N1 K). lra. }
    assert (ACC : Forall2 (same_acc (k + 9) (next_gross H d)) (bs_acc s) (bs_acc s')).
    { clear - RA GE T0. induction RA as [|a a' l l' [D N] _ IH]; constructor; [|exact IH]. split; [exact D|]. apply (nearly_more theta T0 k H); [exact N|lia|exact GE]. }
    assert (PV : nearly theta (k + 9) (next_gross H d) (bs_prev_disc s) (bs_prev_disc s')) by (apply (nearly_more theta T0 k H); [exact RV|lia|exact GE]).
    rewrite EQ. destruct (neqb (relative d) n0) eqn:Q; cbn [negb] in *.
    - injection E as <-. eexists. split; [reflexivity|]. constructor; cbn [bs_prev bs_disc bs_prev_disc bs_acc]; [exact RP| |exact PV|exact ACC].
      rnum. apply (nearly_more theta T0 (k + 1) _ _ _ _ _ N2); [lia|]. unfold next_gross. lra.
    - apply bind_ok in E. destruct E as (g & Eg & E). destruct (HD _ _ IE Eg) as (Eg' & Ng & Bg). rewrite Eg'. cbn [bind]. injection E as <-. eexists. split; [reflexivity|].
      constructor; cbn [bs_prev bs_disc bs_prev_disc bs_acc]; [exact RP| |exact PV|exact ACC]. rnum.
      destruct OR as [Z|OR]; [exfalso; assert (neqb (relative d) n0 = true) by (apply eqb_spec; [assumption|apply L_InterpDouble.zero_spec|]; rewrite Z; symmetry; apply L_InterpDouble.zero_spec); change (nofZ 0%Z) with (n0 (T := F64)) in *; congruence|].
      assert (SH : bpow radix2 (-300) <= S + H <= bpow radix2 300) by (assert (bpow radix2 (-300) <= bpow radix2 (-200)) by (apply bpow_le; lia); lra).
      assert (IX : bpow radix2 (-100) <= / X (ex_date d) <= bpow radix2 100).
      { pose proof (bpow_gt_0 radix2 (-100)). change (bpow radix2 (-100)) with (/ bpow radix2 100) at 1. split; [apply Rinv_le_contravar; lra|].
        rewrite <- (Rinv_inv (bpow radix2 100)). apply Rinv_le_contravar; [apply Rinv_0_lt_compat, bpow_gt_0|]. change (/ bpow radix2 100) with (bpow radix2 (-100)). lra. }
      assert (N3 : nearly theta (k + 1) (S + H) (nsub spot (bs_prev_disc s)) (S - bs_prev_disc s')).
      { apply (nearly_sub theta top T0 TOP); [|exact RV|lia|lra]. apply (nearly_more theta T0 2 S); [exact NS|exact K|lra]. }
      assert (N4 : nearly theta 3 (/ X (ex_date d)) (ndiv n1 g) (1 / X (ex_date d))).
      { apply (nearly_inv theta T0 T1 g _ Ng). assert (bpow radix2 (-500) <= bpow radix2 (-100)) by (apply bpow_le; lia). assert (bpow radix2 100 <= bpow radix2 500) by (apply bpow_le; lia). lra. }
      assert (R1 := PR 300%Z 100%Z _ _ SH IX). assert (R2 := PR 100%Z (300 + 100)%Z _ _ OR R1). assert (R3 := PR (100 + (300 + 100))%Z 100%Z _ _ R2 Bx).
      assert (N5 : nearly theta (k + 1 + 3 + 1) ((S + H) * / X (ex_date d)) (nmul (nsub spot (bs_prev_disc s)) (ndiv n1 g)) ((S - bs_prev_disc s') * (1 / X (ex_date d)))).
      { apply (nearly_mul theta top T0 TOP); [exact N3|exact N4|lia|right; apply (RNG (300 + 100)%Z); [lia|exact R1]]. }
      assert (N6 : nearly theta (0 + (k + 1 + 3 + 1) + 1) (Rabs (real (relative d)) * ((S + H) * / X (ex_date d))) (nmul (relative d) (nmul (nsub spot (bs_prev_disc s)) (ndiv n1 g))) (real (relative d) * ((S - bs_prev_disc s') * (1 / X (ex_date d))))).
      { apply (nearly_mul theta top T0 TOP); [now apply nearly_exact|exact N5|lia|right; apply (RNG (100 + (300 + 100))%Z); [lia|exact R2]]. }
      assert (N7 : nearly theta (0 + (k + 1 + 3 + 1) + 1 + 1 + 1) (Rabs (real (relative d)) * ((S + H) * / X (ex_date d)) * X (pay_date d)) (nmul (nmul (relative d) (nmul (nsub spot (bs_prev_disc s)) (ndiv n1 g))) x) (real (relative d) * ((S - bs_prev_disc s') * (1 / X (ex_date d))) * X (pay_date d))).
      { apply (nearly_mul theta top T0 TOP); [exact N6|exact Nx|lia|right; apply (RNG (100 + (300 + 100) + 100)%Z); [lia|exact R3]]. }
      replace (k + 9)%nat with (k + 8 + 1)%nat by lia. unfold next_gross, Rdiv. apply (nearly_add theta top T0 TOP).
      + apply (nearly_more theta T0 (k + 1) _ _ _ _ _ N2); [lia|lra].
      + unfold Rdiv in N7. apply (nearly_more theta T0 _ _ _ _ _ _ N7); [lia|lra].
      + lia.
      + unfold next_gross, Rdiv in B. lra.
  Qed.

  Lemma acc_more k H k' H' l l' : Forall2 (same_acc k H) l l' -> (k <= k')%nat -> H <= H' -> Forall2 (same_acc k' H') l l'.
  Proof.
    intros F K L. induction F as [|a a' l l' [D N] _ IH]; constructor; [|exact IH]. split; [exact D|]. now apply (nearly_more theta T0 k H).
  Qed.
  Lemma related_more k H k' H' s s' : related k H s s' -> (k <= k')%nat -> H <= H' -> related k' H' s s'.
  Proof.
    intros [P D V A] K L. constructor; [exact P| | |]; [now apply (nearly_more theta T0 k H)|now apply (nearly_more theta T0 k H)|now apply (acc_more k H)].
  Qed.
  Lemma closed_near k H s s' : related k H s s' -> same_acc k H (close_acc nan s) (close_acc nan' s').
  Proof. intros [P D V A]. split; [exact P|exact D]. Qed.

  Lemma gross_ge base upto divs : forall H, 0 <= H -> H <= gross_dividends X base upto S H divs.
  Proof.
    induction divs as [|d rest IH]; intros H H0; cbn [gross_dividends]; [lra|]. destruct (ex_date d <? base)%Z; [now apply IH|].
    destruct (upto <? ex_date d)%Z; [lra|]. pose proof (next_ge H d H0) as G. fold (next_gross H d). eapply Rle_trans; [exact G|]. apply IH. lra.
  Qed.

  Lemma loop_near base upto divs : forall k H s s' s2, (2 <= k)%nat -> (k + 9 * List.length divs <= top)%nat -> related k H s s' -> Forall ordinary_dividend divs ->
    (forall d, In d divs -> In (pay_date d) dates /\ In (ex_date d) dates) -> S + gross_dividends X base upto S H divs <= bpow radix2 300 ->
    boot_loop nan rate borrow q spot base upto divs s = Ok s2 ->
    exists s2', boot_loop nan' rate' borrow' q' S base upto (map exact_dividend divs) s' = Ok s2' /\
      related (k + 9 * List.length divs) (gross_dividends X base upto S H divs) s2 s2'.
  Proof.
    induction divs as [|d rest IH]; intros k H s s' s2 K T R O I B E; cbn [boot_loop map gross_dividends List.length] in *.
    - injection E as <-. exists s'. split; [reflexivity|]. apply (related_more k H); [exact R|lia|lra].
    - change (ex_date (exact_dividend d)) with (ex_date d). inversion O as [|? ? Od Or]; subst. destruct (I d (or_introl eq_refl)) as [Ip Ie].
      assert (Ir : forall d, In d rest -> In (pay_date d) dates /\ In (ex_date d) dates) by (intros; apply I; now right).
      destruct (nearly_size theta _ _ _ _ (re_disc _ _ _ _ R)) as [_ H0].
      destruct (ex_date d <? base)%Z.
      + destruct (IH k H s s' s2 K ltac:(lia) R Or Ir B E) as (s2' & E' & R'). exists s2'. split; [exact E'|]. apply (related_more _ _ _ _ _ _ R'); [lia|lra].
      + rewrite (re_prev _ _ _ _ R). destruct (ex_date d <? bs_prev s)%Z; [discriminate|].
        destruct (upto <? ex_date d)%Z; [injection E as <-; exists s'; split; [reflexivity|]; apply (related_more k H); [exact R|lia|lra]|].
        fold (next_gross H d) in *. apply bind_ok in E. destruct E as (s3 & E3 & E).
        set (s1 := if (bs_prev s <? ex_date d)%Z then _ else _) in E3. pose proof (next_ge H d H0) as G.
        assert (GG := gross_ge base upto rest (next_gross H d) ltac:(lra)).
        match goal with |- context [boot_add nan' rate' borrow' q' S ?z (exact_dividend d)] => set (s1' := z) end.
        assert (R1 : related k H s1 s1').
        { unfold s1, s1'. destruct (bs_prev s <? ex_date d)%Z; [|exact R]. pose proof (closed_near _ _ _ _ R). destruct R as [P D V A].
          constructor; cbn [bs_prev bs_disc bs_prev_disc bs_acc]; [reflexivity|exact D|exact D|]. apply Forall2_app; [exact A|]. constructor; [assumption|constructor]. }
        destruct (add_near k H s1 s1' d s3 K ltac:(lia) R1 Od Ip Ie ltac:(lra) E3) as (s3' & E3' & R3). rewrite E3'. cbn [bind].
        destruct (IH (k + 9)%nat (next_gross H d) s3 s3' s2 ltac:(lia) ltac:(lia) R3 Or Ir B E) as (s2' & E' & R'). exists s2'. split; [exact E'|].
        apply (related_more _ _ _ _ _ _ R'); [lia|lra].
  Qed.

  Lemma fill_keeps_any {T} {NT : Num T} (la : list (accumulation T)) : exists f, fill_remaining la = map f la /\
    forall a, acc_ex_date (f a) = acc_ex_date a /\ acc_discounted (f a) = acc_discounted a.
  Proof.
    unfold fill_remaining. destruct (rev la) as [|final rest].
    - exists (fun a => a). split; [symmetry; apply map_id|auto].
    - eexists. split; [reflexivity|]. intros a. cbn [acc_ex_date acc_discounted]. auto.
  Qed.
  Lemma fill_near k H l l' : Forall2 (same_acc k H) l l' -> Forall2 (same_acc k H) (fill_remaining l) (fill_remaining l').
  Proof.
    intros F. destruct (fill_keeps_any l) as (f & -> & Hf). destruct (fill_keeps_any l') as (g & -> & Hg).
    induction F as [|a a' l l' [D N] _ IH]; cbn [map]; constructor; [|exact IH]. destruct (Hf a) as [F1 F2], (Hg a') as [G1 G2]. split; [now rewrite F1, G1|now rewrite F2, G2].
  Qed.
End Loop.

(** ** The search for the sum at a date *)
Lemma two_loop {A B} (f : A -> comparison) (g : B -> comparison) la lb : (forall i, option_map f (nth_error la i) = option_map g (nth_error lb i)) ->
  forall fuel size b, bs_loop la f fuel size b = bs_loop lb g fuel size b.
Proof.
  intros H. induction fuel as [|k IH]; intros size b; [reflexivity|]. cbn [bs_loop]. destruct (Nat.leb size 1); [reflexivity|].
  cbv zeta. specialize (H (b + Nat.div2 size)%nat). destruct (nth_error la _), (nth_error lb _); cbn [option_map] in H; try discriminate; [|apply IH].
  injection H as ->. apply IH.
Qed.
Lemma two_search {A B} (f : A -> comparison) (g : B -> comparison) la lb : List.length la = List.length lb ->
  (forall i, option_map f (nth_error la i) = option_map g (nth_error lb i)) -> binary_search_by la f = binary_search_by lb g.
Proof.
  intros L H. unfold binary_search_by. cbv zeta. rewrite L, (two_loop f g la lb H). specialize (H (bs_loop lb g (List.length lb) (List.length lb) 0)).
  destruct (nth_error la _), (nth_error lb _); cbn [option_map] in H; try discriminate; [|reflexivity]. now injection H as ->.
Qed.

Lemma acc_nth theta k H l l' : Forall2 (same_acc theta k H) l l' -> forall i,
  match nth_error l i, nth_error l' i with Some a, Some a' => same_acc theta k H a a' | None, None => True | _, _ => False end.
Proof. intros F. induction F as [|a a' l l' N _ IH]; intros [|i]; cbn [nth_error]; auto. apply IH. Qed.

Lemma zero_nearly theta j m : 2 * uu <= theta -> 0 <= m -> nearly theta j m n0 0.
Proof.
  intros T0 H0. destruct L_InterpDouble.zero_spec as [FZ RZ]. apply (nearly_more theta T0 0 0); [|lia|exact H0]. pose proof (nearly_exact theta n0 FZ) as Q. rewrite RZ, Rabs_R0 in Q. exact Q.
Qed.
Lemma sum_near theta k H (b : bootstrap F64) (b' : bootstrap R) d x : 2 * uu <= theta -> 0 <= H -> boot_hwm b' = boot_hwm b -> Forall2 (same_acc theta k H) (boot_acc b) (boot_acc b') ->
  discounted_sum_from_base b d = Ok x -> exists x', discounted_sum_from_base b' d = Ok x' /\ nearly theta k H x x'.
Proof.
  intros T0 H0 HW F E. unfold discounted_sum_from_base, sum_at in *. rewrite HW. destruct (boot_hwm b <? d)%Z; [discriminate|].
  pose proof (acc_nth _ _ _ _ _ F) as N.
  rewrite <- (two_search (fun p => (acc_ex_date p ?= d)%Z) (fun p => (acc_ex_date p ?= d)%Z) (boot_acc b) (boot_acc b')).
  2: { clear - F. induction F; cbn; congruence. }
  2: { intros i. specialize (N i). destruct (nth_error (boot_acc b) i), (nth_error (boot_acc b') i); cbn [option_map]; try contradiction; [|reflexivity]. destruct N as [D _]. now rewrite D. }
  assert (AT : forall i (r : res F64), (let* a := at_ (boot_acc b) i in Ok (acc_discounted a)) = Ok x -> exists x', (let* a := at_ (boot_acc b') i in Ok (acc_discounted a)) = Ok x' /\ nearly theta k H x x').
  { intros i _ Q. unfold at_ in *. specialize (N i). destruct (nth_error (boot_acc b) i), (nth_error (boot_acc b') i); cbn [bind] in *; try contradiction; try discriminate.
    injection Q as <-. destruct N as [_ N]. eexists. split; [reflexivity|exact N]. }
  destruct (binary_search_by (boot_acc b) _) as [i|i]; [now apply (AT i (Ok x))|]. destruct (Nat.eqb i 0); [|now apply (AT (i - 1)%nat (Ok x))].
  injection E as <-. eexists. split; [reflexivity|]. rnum. now apply zero_nearly.
Qed.

Lemma exp_40 v : Rabs v <= 40 -> bpow radix2 (-100) <= exp v <= bpow radix2 100.
Proof.
  assert (U : forall v, Rabs v <= 40 -> exp v <= bpow radix2 100).
  { intros w H. destruct (exp_200 (w + (w + (w + (w + w))))) as [_ U]; [apply Rabs_le_inv in H; apply Rabs_le; lra|]. rewrite !exp_plus in U.
    destruct (Rle_lt_dec (exp w) (bpow radix2 100)) as [L|L]; [exact L|exfalso]. pose proof (bpow_gt_0 radix2 100) as P.
    assert (B : bpow radix2 500 <= exp w * (exp w * (exp w * (exp w * exp w)))).
    { change 500%Z with (100 + (100 + (100 + (100 + 100))))%Z. rewrite !(bpow_plus radix2 100). set (z := bpow radix2 100) in *. 
      apply Rmult_le_compat; [lra| |lra|]. { repeat (apply Rmult_le_pos; [lra|]). lra. }
      apply Rmult_le_compat; [lra| |lra|]. { repeat (apply Rmult_le_pos; [lra|]). lra. }
      apply Rmult_le_compat; [lra| |lra|]. { repeat (apply Rmult_le_pos; [lra|]). lra. }
      apply Rmult_le_compat; lra. }
    assert (bpow radix2 340 < bpow radix2 500) by (apply bpow_lt; lia). lra. }
  intros H. split; [|now apply U]. specialize (U (- v)). rewrite Rabs_Ropp in U. specialize (U H). rewrite exp_Ropp in U.
  change (-100)%Z with (- (100))%Z. rewrite bpow_opp. rewrite <- (Rinv_inv (exp v)).
  apply Rinv_le_contravar; [apply Rinv_0_lt_compat, exp_pos|exact U].
Qed.

Lemma close_wider g m m' a x : close g m a x -> 0 <= g -> m <= m' -> close g m' a x.
Proof.
  intros (F & B & N) G L. split; [exact F|]. split; [lra|]. eapply Rle_trans; [exact N|]. pose proof uu_small as [U1 U2]. apply Rmult_le_compat_l; [apply Rmult_le_pos; lra|exact L].
Qed.
Lemma exact_base c : base_date (exact_curve c) = base_date c.
Proof. induction c; cbn; auto. Qed.
Lemma exact_is_zero c : is_zero (exact_curve c) = is_zero c.
Proof. destruct c; reflexivity. Qed.

(** ** The forward of a share that pays dividends *)
Section Share.
  Variables (eps : R) (TR : Trans F64) (nan : F64) (nan' : R).
  Hypothesis HT : accurate eps TR.
  Hypothesis E0 : 0 <= eps <= / 1000.
  Variables (rate borrow : curve F64) (divs : div_stream F64) (spot : F64) (settlement : date_rule F64) (base hwm d : date) (M : R) (n : nat).
  Hypotheses (WR : rates_within M rate) (WB : rates_within M borrow) (WY : rates_within M (div_yield divs)).
  Hypothesis BM : bpow radix2 (-900) <= M <= bpow radix2 900.
  Hypotheses (NR : (bumps rate <= n)%nat) (NB : (bumps borrow <= n)%nat) (NY : (bumps (div_yield divs) <= n)%nat) (NN : (n <= 1000)%nat).
  Hypothesis OD : Forall ordinary_dividend (dividends divs).
  Hypotheses (FS : finite spot) (BS : bpow radix2 (-100) <= real spot <= bpow radix2 100).
  Variables (s p : date).
  Hypotheses (AS : apply_rule settlement base = Ok s) (AP : apply_rule settlement d = Ok p).
  Let away (c : curve F64) (d : date) : R := Rabs (years (base_date c) d).
  Variable Y : R.
  Hypothesis HI : forall dd, In dd ([base; s; p] ++ dividend_dates (dividends divs)) -> i32 dd /\ away rate dd + away borrow dd <= Y.
  Hypothesis HY : away (div_yield divs) p <= Y.
  Hypothesis MY : M * Y <= 20.
  Let theta := eps + ((160 + 13 * INR n) * (M * Y) + 2) * uu.
  Let k := (9 * List.length (dividends divs) + 5)%nat.
  Hypothesis TOP : (1 + theta) ^ k <= 2.
  Variable settlement' : date_rule R.
  Hypotheses (AS' : apply_rule settlement' base = Ok s) (AP' : apply_rule settlement' d = Ok p).
  Let X := factor nan' (exact_curve rate) (exact_curve borrow) base.
  Let S0 := real spot * X s.
  Let H := gross_dividends X base (reach divs hwm) S0 0 (dividends divs).

  Lemma Y_pos : 0 <= Y.
  Proof. eapply Rle_trans; [|exact HY]. apply Rabs_pos. Qed.
  Lemma MY_pos : 0 <= M * Y.
  Proof. apply Rmult_le_pos; [|exact Y_pos]. exact (within_pos M rate WR (proj2 BM)). Qed.
  Lemma theta_ge : 2 * uu <= theta.
  Proof. unfold theta. pose proof uu_small as [U1 _]. pose proof MY_pos as P. pose proof (few n NN). assert (0 <= (160 + 13 * INR n) * (M * Y)) by (apply Rmult_le_pos; lra). nra. Qed.
  Lemma theta_le : theta <= / 5.
  Proof.
    unfold theta. pose proof uu_small as [U1 U2]. pose proof MY_pos as P. pose proof (few n NN).
    assert ((160 + 13 * INR n) * (M * Y) <= 13160 * 20) by (apply Rmult_le_compat; lra). nra.
  Qed.

  Lemma log_close dd x : In dd ([base; s; p] ++ dividend_dates (dividends divs)) -> log_discount_with_borrow nan rate borrow dd = Ok x ->
    exists y, log_discount_with_borrow nan' (exact_curve rate) (exact_curve borrow) dd = Ok y /\ close (22 + 2 * INR n) (M * Y) x y.
  Proof.
    intros I E. destruct (HI dd I) as [ID A]. pose proof (few n NN) as Fw. pose proof (within_pos M rate WR (proj2 BM)) as M0.
    unfold log_discount_with_borrow in *. apply bind_ok in E. destruct E as (r & R & E). apply bind_ok in E. destruct E as (b & B & E). injection E as <-.
    destruct (rt_close nan nan' TR rate M n dd r WR BM NR NN ID R) as (yr & YR & CR). destruct (rt_close nan nan' TR borrow M n dd b WB BM NB NN ID B) as (yb & YB & CB).
    rewrite YR. cbn [bind]. rewrite YB. cbn [bind]. eexists. split; [reflexivity|]. rnum. replace (22 + 2 * INR n) with (20 + 2 * INR n + 2) by ring.
    assert (L : M * (away borrow dd + away rate dd) <= M * Y) by (apply Rmult_le_compat_l; lra). rewrite Rmult_plus_distr_l in L.
    apply (close_wider _ (M * away borrow dd + M * away rate dd)); [|lra|exact L]. apply close_sub; [exact CB|exact CR|lra|]. lra.
  Qed.

  Lemma X_nonneg dd : 0 <= X dd.
  Proof.
    unfold X, factor. destruct (log_discount_with_borrow nan' (exact_curve rate) (exact_curve borrow) base) as [q| |]; cbn [bind]; try lra.
    unfold discount_with_borrow. destruct (log_discount_with_borrow nan' (exact_curve rate) (exact_curve borrow) dd) as [l| |]; cbn [bind]; try lra. left. apply exp_pos.
  Qed.

  Lemma exp_nearly g m a x : close g m a x -> 0 <= g <= 10000 -> m <= 200 -> eps + 201 / 100 * (g * uu * m) <= theta -> nearly theta 1 (exp x) (nexp a) (exp x).
  Proof.
    intros C G L T. destruct (close_exp eps TR _ _ _ _ HT E0 C G L) as (F & N & _). pose proof (exp_pos x). split; [exact F|]. split; [rewrite Rabs_right; lra|].
    eapply Rle_trans; [exact N|]. apply Rmult_le_compat_r; lra.
  Qed.

  Lemma discount_close q q' : log_discount_with_borrow nan rate borrow base = Ok q -> log_discount_with_borrow nan' (exact_curve rate) (exact_curve borrow) base = Ok q' ->
    forall dd x, In dd ([base; s; p] ++ dividend_dates (dividends divs)) -> discount_with_borrow nan rate borrow q dd = Ok x ->
    discount_with_borrow nan' (exact_curve rate) (exact_curve borrow) q' dd = Ok (X dd) /\ nearly theta 1 (X dd) x (X dd) /\ bpow radix2 (-100) <= X dd <= bpow radix2 100.
  Proof.
    intros Q Q' dd x I E. pose proof (few n NN) as Fw. pose proof MY_pos as P. pose proof uu_small as [U1 U2].
    destruct (log_close base q (or_introl eq_refl) Q) as (q2 & E2 & C0). assert (q2 = q') by congruence. subst q2.
    unfold discount_with_borrow in *. apply bind_ok in E. destruct E as (l & L & E). injection E as <-. destruct (log_close dd l I L) as (l' & L' & C).
    assert (EX : X dd = exp (l' - q')).
    { unfold X, factor. rewrite Q'. cbn [bind]. unfold discount_with_borrow. rewrite L'. reflexivity. }
    rewrite L'. cbn [bind]. rewrite EX. split; [reflexivity|].
    assert (CC : close (22 + 2 * INR n + 2) (M * Y + M * Y) (nsub l q) (l' - q')) by (apply close_sub; [exact C|exact C0|lra|lra]).
    split; [|apply exp_40; destruct CC as (_ & B & _); lra].
    apply (exp_nearly _ _ _ _ CC); [lra|lra|]. unfold theta.
    assert (0 <= M * Y * uu) by (apply Rmult_le_pos; lra). assert (0 <= INR n * (M * Y * uu)) by (apply Rmult_le_pos; lra). 
    replace (201 / 100 * ((22 + 2 * INR n + 2) * uu * (M * Y + M * Y))) with (201 / 100 * (48 * (M * Y * uu) + 4 * (INR n * (M * Y * uu)))) by ring.
    replace (((160 + 13 * INR n) * (M * Y) + 2) * uu) with (160 * (M * Y * uu) + 13 * (INR n * (M * Y * uu)) + 2 * uu) by ring. lra.
  Qed.

  Lemma dates_in dv : In dv (dividends divs) -> In (pay_date dv) ([base; s; p] ++ dividend_dates (dividends divs)) /\ In (ex_date dv) ([base; s; p] ++ dividend_dates (dividends divs)).
  Proof. intros I. split; apply in_or_app; right; apply in_flat_map; exists dv; (split; [exact I|]); cbn; auto. Qed.

  Lemma boot_near ref b : nearly theta 2 S0 ref S0 -> bpow radix2 (-200) <= S0 -> S0 + H <= bpow radix2 300 ->
    bootstrap_new nan divs rate borrow ref base hwm = Ok b ->
    exists b', bootstrap_new nan' (exact_stream divs) (exact_curve rate) (exact_curve borrow) S0 base hwm = Ok b' /\ boot_hwm b' = boot_hwm b /\
      Forall2 (same_acc theta (2 + 9 * List.length (dividends divs)) H) (boot_acc b) (boot_acc b') /\ 0 <= H.
  Proof.
    intros NS LS B E. assert (HH : 0 <= H) by (apply (gross_ge X X_nonneg S0 LS); lra). unfold bootstrap_new in *. cbn [exact_stream dividends div_yield last_cash_ex_date].
    rewrite <- map_rev, exact_is_zero, exact_base. assert (RE : rev (dividends divs) = [] -> dividends divs = []) by (intros R; rewrite <- (rev_involutive (dividends divs)), R; reflexivity).
    assert (RE' : reach divs hwm = match rev (dividends divs) with [] => hwm | _ => Z.max hwm (last_cash_ex_date divs) end).
    { unfold reach. destruct (dividends divs) as [|d0 l]; [reflexivity|]. cbn [rev]. destruct (rev l); reflexivity. }
    destruct (rev (dividends divs)) as [|final rest]; cbn [map].
    - injection E as <-. eexists. split; [reflexivity|]. split; [reflexivity|]. split; [constructor|exact HH].
    - change (ex_date (exact_dividend final)) with (ex_date final). destruct (_ && _); [discriminate|].
      apply bind_ok in E. destruct E as (q & Q & E). destruct (log_close base q (or_introl eq_refl) Q) as (q' & Q' & _). rewrite Q'. cbn [bind].
      apply bind_ok in E. destruct E as (st & L & E). injection E as <-. cbn [boot_acc boot_hwm].
      assert (R0 : related theta 2 0 (mkBS base n0 n0 n0 n0 []) (mkBS base n0 n0 n0 n0 [])).
      { constructor; cbn [bs_prev bs_disc bs_prev_disc bs_acc]; [reflexivity| | |constructor]; rnum; (apply zero_nearly; [exact theta_ge|lra]). }
      rewrite <- RE' in L |- *.
      destruct (loop_near theta k theta_ge theta_le TOP TR nan nan' rate borrow (exact_curve rate) (exact_curve borrow) q q' X ([base; s; p] ++ dividend_dates (dividends divs)) X_nonneg
        (discount_close q q' Q Q') ref S0 NS LS base (reach divs hwm) (dividends divs) 2 0 _ _ st (le_n 2) ltac:(unfold k; lia) R0 OD dates_in B L) as (st' & L' & R').
      rewrite L'. cbn [bind]. fold H in R'. eexists. split; [reflexivity|]. cbn [boot_acc boot_hwm]. split; [reflexivity|]. split; [|exact HH].
      rewrite (re_prev _ _ _ _ _ R'). apply fill_near. pose proof (closed_near theta nan nan' _ _ _ _ R') as CN. destruct (base <? bs_prev st)%Z; [|exact (re_acc _ _ _ _ _ R')].
      apply Forall2_app; [exact (re_acc _ _ _ _ _ R')|]. constructor; [exact CN|constructor].
  Qed.

  Lemma share_near f F : equity_forward_new nan base spot settlement rate borrow divs hwm = Ok f -> forward_at nan f d = Ok F -> S0 + H <= bpow radix2 300 ->
    exists f' F' yp, equity_forward_new nan' base (real spot) settlement' (exact_curve rate) (exact_curve borrow) (exact_stream divs) hwm = Ok f' /\
      forward_at nan' f' d = Ok F' /\ rt nan' (exact_curve (div_yield divs)) p = Ok yp /\ 0 < X p /\
      finite F /\ Rabs (real F - F') <= ((1 + theta) ^ k - 1) * ((S0 + H) / X p * exp yp).
  Proof.
    intros EN EF B. pose proof uu_small as [U1 U2]. pose proof (few n NN) as Fw. pose proof (within_pos M rate WR (proj2 BM)) as M0. pose proof MY_pos as P.
    assert (I0 : In base ([base; s; p] ++ dividend_dates (dividends divs))) by (cbn; auto). assert (I1 : In s ([base; s; p] ++ dividend_dates (dividends divs))) by (cbn; auto).
    assert (I2 : In p ([base; s; p] ++ dividend_dates (dividends divs))) by (cbn; auto).
    unfold equity_forward_new in *. apply bind_ok in EN. destruct EN as (l0 & L0 & EN). destruct (log_close base l0 I0 L0) as (l0' & L0' & C0). rewrite L0'. cbn [bind].
    apply bind_ok in EN. destruct EN as (s' & S' & EN). assert (s' = s) by congruence. subst s'. rewrite AS'. cbn [bind].
    apply bind_ok in EN. destruct EN as (sdf & SD & EN). destruct (discount_close l0 l0' L0 L0' s sdf I1 SD) as (SD' & NX & BX). rewrite SD'. cbn [bind]. cbv zeta in EN |- *.
    assert (PR : forall i j a b, bpow radix2 (-i) <= a <= bpow radix2 i -> bpow radix2 (-j) <= b <= bpow radix2 j -> bpow radix2 (-(i + j)) <= a * b <= bpow radix2 (i + j)).
    { intros i j a b HA HB. rewrite Z.opp_add_distr, !bpow_plus. pose proof (bpow_gt_0 radix2 (-i)). pose proof (bpow_gt_0 radix2 (-j)). split; apply Rmult_le_compat; lra. }
    assert (RS := PR 100%Z 100%Z _ _ BS BX). change (-(100 + 100))%Z with (-200)%Z in RS. change (100 + 100)%Z with 200%Z in RS. fold S0 in RS.
    assert (NS : nearly theta 2 S0 (nmul spot sdf) S0).
    { apply (nearly_mul theta k theta_ge TOP 0 (real spot) _ _ 1); [|exact NX|unfold k; lia|].
      - pose proof (nearly_exact theta spot FS) as Q. pose proof (bpow_gt_0 radix2 (-100)). rewrite Rabs_right in Q by lra. exact Q.
      - right. fold S0. assert (bpow radix2 (-1000) <= bpow radix2 (-200)) by (apply bpow_le; lia). assert (bpow radix2 200 <= bpow radix2 1000) by (apply bpow_le; lia). lra. }
    apply bind_ok in EN. destruct EN as (b & EB & EN). destruct (boot_near _ b NS (proj1 RS) B EB) as (b' & EB' & HW & FA & HH).
    change (nmul (real spot) (X s)) with S0. rewrite EB'. cbn [bind]. injection EN as <-.
    cbn [forward_at] in EF. apply bind_ok in EF. destruct EF as (dv & DV & EF). destruct (sum_near theta _ _ b b' d dv theta_ge HH HW FA DV) as (dv' & DV' & ND).
    apply bind_ok in EF. destruct EF as (p' & P' & EF). assert (p' = p) by congruence. subst p'.
    apply bind_ok in EF. destruct EF as (lp & LP & EF). destruct (log_close p lp I2 LP) as (lp' & LP' & CP).
    apply bind_ok in EF. destruct EF as (y & YY & EF). destruct (HI p I2) as [IP _].
    destruct (rt_close nan nan' TR (div_yield divs) M n p y WY BM NY NN IP YY) as (yp & YP & CY).
    assert (MYp : M * away (div_yield divs) p <= M * Y) by (apply Rmult_le_compat_l; [exact M0|exact HY]).
    apply (close_wider _ _ (M * Y)) in CY; [|lra|exact MYp].
    eexists _, _, yp. split; [reflexivity|]. split.
    { cbn [forward_at exact_stream div_yield]. rewrite DV'. cbn [bind]. rewrite AP'. cbn [bind]. rewrite LP'. cbn [bind]. rewrite YP. reflexivity. }
    split; [exact YP|].
    assert (EX : X p = exp (lp' - l0')).
    { unfold X, factor. rewrite L0'. cbn [bind]. unfold discount_with_borrow. rewrite LP'. reflexivity. }
    split; [rewrite EX; apply exp_pos|].
    set (K := 22 + 2 * INR n) in *.
    assert (X2 : close (K + 4) (M * Y + M * Y + M * Y) (nsub (nadd l0 y) lp) (l0' + yp - lp')).
    { replace (K + 4) with (K + 2 + 2) by ring. apply close_sub; [apply close_add|apply (close_more K)|unfold K; lra|lra]; [exact C0|apply (close_more _ K _ _ _ CY); unfold K; lra|unfold K; lra|lra|exact CP|lra]. }
    assert (NG : nearly theta 1 (exp (l0' + yp - lp')) (nexp (nsub (nadd l0 y) lp)) (exp (l0' + yp - lp'))).
    { apply (exp_nearly _ _ _ _ X2); [unfold K; lra|lra|]. unfold theta, K.
      assert (0 <= M * Y * uu) by (apply Rmult_le_pos; lra). assert (0 <= INR n * (M * Y * uu)) by (apply Rmult_le_pos; lra).
      replace (201 / 100 * ((22 + 2 * INR n + 4) * uu * (M * Y + M * Y + M * Y))) with (201 / 100 * (78 * (M * Y * uu) + 6 * (INR n * (M * Y * uu)))) by ring.
      replace (((160 + 13 * INR n) * (M * Y) + 2) * uu) with (160 * (M * Y * uu) + 13 * (INR n * (M * Y * uu)) + 2 * uu) by ring. lra. }
    assert (GX : (S0 + H) / X p * exp yp = (S0 + H) * exp (l0' + yp - lp')).
    { rewrite EX. unfold Rdiv. rewrite <- exp_Ropp, Rmult_assoc, <- exp_plus. do 2 f_equal. ring. }
    destruct (exp_200 (l0' + yp - lp')) as [e1 e2]; [destruct X2 as (_ & Q & _); lra|].
    assert (N3 : nearly theta (2 + 9 * List.length (dividends divs) + 1) (S0 + H) (nsub (nmul spot sdf) dv) (S0 - dv')).
    { apply (nearly_sub theta k theta_ge TOP); [|exact ND|unfold k; lia|]; [apply (nearly_more theta theta_ge 2 S0); [exact NS|lia|lra]|].
      assert (bpow radix2 300 <= bpow radix2 1000) by (apply bpow_le; lia). lra. }
    assert (SH : bpow radix2 (-(300)) <= S0 + H <= bpow radix2 300) by (assert (bpow radix2 (-300) <= bpow radix2 (-200)) by (apply bpow_le; lia); cbn [Z.opp]; lra).
    assert (RG := PR 300%Z 340%Z _ _ SH (conj e1 e2)).
    assert (N4 := nearly_mul theta k theta_ge TOP _ _ _ _ _ _ _ _ N3 NG ltac:(unfold k; lia)).
    destruct N4 as (FF & _ & NF).
    { right. assert (bpow radix2 (-1000) <= bpow radix2 (-(300 + 340))) by (apply bpow_le; lia). assert (bpow radix2 (300 + 340) <= bpow radix2 1000) by (apply bpow_le; lia). lra. }
    assert (HF := f_equal (fun r => match r with Ok v => v | _ => F end) EF). cbn beta iota in HF.
    rewrite <- HF. split; [exact FF|]. rewrite GX. replace k with (2 + 9 * List.length (dividends divs) + 1 + 1 + 1)%nat by (unfold k; lia). exact NF.
  Qed.
End Share.
