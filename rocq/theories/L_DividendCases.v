(** A share that pays a sum of money and then a part of its value, on doubles. *)
From Coq Require Import ZArith List String Bool Reals Lra Lia Psatz.
From Coq.Floats Require Import SpecFloat.
From Flocq Require Import Core BinarySingleNaN.
From Verif Require Import Prelude Num L_Num M_Dates M_Search M_Calendar M_Interp M_Curves M_Forward S_Data S_Double S_CurveDouble S_DividendDouble
  L_Double L_DoubleError L_InterpDouble L_BrentDouble L_CurveDouble L_VolDouble L_BlackDouble L_PriceDouble L_ForwardDouble L_PriceDoubleCases L_DividendDouble.
Import ListNotations.
Open Scope list_scope.
Open Scope R_scope.

Lemma pow_exp t k : 0 <= t -> (1 + t) ^ k <= exp (INR k * t).
Proof.
  intros T. induction k as [|k IH]; [cbn; rewrite Rmult_0_l, exp_0; lra|]. rewrite S_INR, Rmult_plus_distr_r, Rmult_1_l, exp_plus, Rmult_comm. cbn [pow]. rewrite (Rmult_comm (1 + t)), (Rmult_comm (exp t)).
  apply Rmult_le_compat; [apply pow_le; lra|lra|exact IH|]. apply exp_ineq1_le.
Qed.

(** A few dividends, at ordinary rates, cost little. *)
Lemma few_dividends eps n rates count : 0 <= eps <= bpow radix2 (-50) -> (n <= 10)%nat -> 0 <= rates <= 2 -> (count <= 40)%nat ->
  let theta := eps + ((160 + 13 * INR n) * rates + 2) * bpow radix2 (-53) in
  (1 + theta) ^ (9 * count + 5) <= 2 /\ (1 + theta) ^ (9 * count + 5) - 1 <= 5 / 100000000000.
Proof.
  intros E N R C theta. fold uu in theta. assert (E8 : bpow radix2 (-50) = 8 * uu) by (unfold uu; change (-50)%Z with (3 + -53)%Z; rewrite bpow_plus; reflexivity).
  assert (Ug : 0 < uu <= / 9000000000000000) by (pose proof uu_small; lra). apply le_INR in N. replace (INR 10) with 10 in N by (cbn; ring). pose proof (pos_INR n) as N0.
  assert (A : 0 <= (160 + 13 * INR n) * rates <= 290 * 2) by (split; [apply Rmult_le_pos; lra|apply Rmult_le_compat; lra]).
  assert (B : 0 <= theta <= 590 * uu) by (unfold theta; nra). assert (K : INR (9 * count + 5) <= 365) by (replace 365 with (INR 365) by (rewrite INR_IZR_INZ; reflexivity); apply le_INR; lia).
  pose proof (pos_INR (9 * count + 5)) as K0. assert (P : 0 <= INR (9 * count + 5) * theta <= 365 * (590 * uu)) by (split; [apply Rmult_le_pos; lra|apply Rmult_le_compat; lra]).
  pose proof (pow_exp theta (9 * count + 5) (proj1 B)) as Q. pose proof (exp_upper (INR (9 * count + 5) * theta) ltac:(lra)) as U. lra.
Qed.

Definition two_dividends : div_stream F64 :=
  stream_new [mkDiv (nofZ 4) n0 365%Z 365%Z; mkDiv n0 (nlit 1 16) 730%Z 730%Z] (ZeroRateCurve 730%Z).

Lemma sixteenth_later nan' : rt nan' (exact_curve sixteenth) 730%Z = Ok (/ 8).
Proof.
  assert (E : real (nlit 1 16) = / 16) by (vm_compute; lra).
  change (exact_curve sixteenth) with (RateCurveAct365 0%Z (mkLinear Flat Flat [(0%Z, real (nlit 1 16)); (365%Z, real (nlit 1 16))])). rewrite E.
  unfold rt. cbn [r_and_t]. change (730 - 0)%Z with 730%Z. change (730 =? 0)%Z with false. cbv iota beta zeta. match goal with |- context [linear_at ?a ?b ?c] => change (linear_at a b c) with (Ok (/ 16)) end. cbn [bind]. rnum. f_equal. field.
Qed.

Section Case.
  Variable nan' : R.
  Notation rate' := (exact_curve sixteenth).
  Notation borrow' := (exact_curve (ZeroRateCurve 0%Z : curve F64)).

  Lemma zero_rt b d : rt nan' (exact_curve (ZeroRateCurve b)) d = Ok 0.
  Proof. unfold rt. cbn [exact_curve r_and_t bind]. rnum. f_equal. ring. Qed.
  Lemma logs : log_discount_with_borrow nan' rate' borrow' 0%Z = Ok 0 /\ log_discount_with_borrow nan' rate' borrow' 365%Z = Ok (- / 16) /\ log_discount_with_borrow nan' rate' borrow' 730%Z = Ok (- / 8).
  Proof.
    destruct (sixteenth_rt nan') as [T0 T1]. pose proof (sixteenth_later nan') as T2. unfold log_discount_with_borrow. rewrite T0, T1, T2. cbn [bind]. rewrite !zero_rt. cbn [bind]. rnum. repeat split; f_equal; ring.
  Qed.
  Lemma factors : factor nan' rate' borrow' 0%Z 0%Z = 1 /\ factor nan' rate' borrow' 0%Z 365%Z = exp (- / 16) /\ factor nan' rate' borrow' 0%Z 730%Z = exp (- / 8).
  Proof.
    destruct logs as (L0 & L1 & L2). unfold factor, discount_with_borrow. rewrite L0. cbn [bind]. rewrite ?L0, ?L1, ?L2. cbn [bind]. rnum. rewrite !Rminus_0_r, exp_0. auto.
  Qed.

  Lemma exact_run : exists f', equity_forward_new nan' 0%Z 100 NullRule rate' borrow' (exact_stream two_dividends) 1000%Z = Ok f' /\
    forward_at nan' f' 730%Z = Ok (15 / 16 * (100 * exp (/ 8) - 4 * exp (/ 16))).
  Proof.
    destruct logs as (L0 & L1 & L2). unfold equity_forward_new, bootstrap_new, discount_with_borrow. rewrite ?L0. cbn [bind apply_rule]. rewrite ?L0. cbn [bind].
    assert (ES : exact_stream two_dividends = mkStream [mkDiv 4 0 365%Z 365%Z; mkDiv 0 (/ 16) 730%Z 730%Z] (ZeroRateCurve 730%Z) 365%Z).
    { unfold exact_stream, two_dividends, stream_new. cbn [dividends div_yield last_cash_ex_date map exact_curve]. unfold exact_dividend. cbn [cash relative ex_date pay_date].
      assert (R4 : real (nofZ 4) = 4) by (vm_compute; lra). assert (R0 : real n0 = 0) by (vm_compute; lra). assert (R16 : real (nlit 1 16) = / 16) by (vm_compute; lra). rewrite R4, R0, R16. f_equal. }
    rewrite ES. cbn [dividends rev app is_zero div_yield negb andb last_cash_ex_date]. unfold boot_loop.
    cbn [ex_date bs_prev Z.ltb Z.compare Z.max Pos.compare Pos.compare_cont]. unfold boot_add, discount_with_borrow. cbn [pay_date ex_date cash relative bs_und bs_disc bs_cash bs_prev_disc bs_acc bs_prev]. rewrite L1, L2. cbn [bind].
    rnum.
    assert (Q1 : Reqb 0 0 = true) by now apply Reqb_iff. assert (Q2 : Reqb (/ 16) 0 = false) by (apply Reqb_false; lra). rewrite Q1, Q2. cbn [negb bind].
    cbn [pay_date ex_date cash relative bs_und bs_disc bs_cash bs_prev_disc bs_acc bs_prev Z.ltb Z.compare Pos.compare Pos.compare_cont].
    eexists. split; [reflexivity|]. cbn [forward_at apply_rule bind].
    match goal with |- context [discounted_sum_from_base ?b ?d] => assert (DS : discounted_sum_from_base b d = Ok (4 * exp (- / 16 - 0) + / 16 * (100 * exp (0 - 0) - 4 * exp (- / 16 - 0)) * (1 / exp (- / 8 - 0)) * exp (- / 8 - 0))) end.
    { unfold discounted_sum_from_base, sum_at. cbn -[Rmult Rplus Rminus exp Rdiv]. f_equal. rnum. ring. }
    rewrite DS. cbn [bind]. rewrite L2. cbn [bind]. change (ZeroRateCurve 730%Z) with (exact_curve (ZeroRateCurve 730%Z)). rewrite zero_rt. cbn [bind]. rnum. f_equal.
    rewrite !Rminus_0_r, exp_0. replace (0 + 0 - - / 8) with (/ 8) by ring. rewrite (exp_Ropp (/ 8)). replace (/ 8) with (/ 16 + / 16) by field. rewrite exp_plus, exp_Ropp. pose proof (exp_pos (/ 16)). field. lra.
  Qed.
End Case.

(** Whatever the arithmetic, the forward of such a share can be had. *)
Lemma two_run {T} {NT : Num T} {TR : Trans T} (nan : T) rate borrow spot c r l0 l1 l2 : log_discount_with_borrow nan rate borrow 0%Z = Ok l0 ->
  log_discount_with_borrow nan rate borrow 365%Z = Ok l1 -> log_discount_with_borrow nan rate borrow 730%Z = Ok l2 -> neqb n0 n0 = true -> neqb r n0 = false ->
  exists f F, equity_forward_new nan 0%Z spot NullRule rate borrow (mkStream [mkDiv c n0 365%Z 365%Z; mkDiv n0 r 730%Z 730%Z] (ZeroRateCurve 730%Z) 365%Z) 1000%Z = Ok f /\ forward_at nan f 730%Z = Ok F.
Proof.
  intros L0 L1 L2 Q1 Q2. unfold equity_forward_new, bootstrap_new, discount_with_borrow. rewrite ?L0. cbn [bind apply_rule]. rewrite ?L0. cbn [bind].
  cbn [dividends rev app is_zero div_yield negb andb last_cash_ex_date]. unfold boot_loop.
  cbn [ex_date bs_prev Z.ltb Z.compare Z.max Pos.compare Pos.compare_cont]. unfold boot_add, discount_with_borrow. cbn [pay_date ex_date cash relative bs_und bs_disc bs_cash bs_prev_disc bs_acc bs_prev]. rewrite L1, L2. cbn [bind].
  rewrite Q1, Q2. cbn [negb bind].
  cbn [pay_date ex_date cash relative bs_und bs_disc bs_cash bs_prev_disc bs_acc bs_prev Z.ltb Z.compare Pos.compare Pos.compare_cont].
  match goal with |- exists f F, ?e = Ok f /\ ?g => enough (G : exists f, e = Ok f /\ exists F, forward_at nan f 730%Z = Ok F) by (destruct G as (f & G1 & F & G2); exists f, F; now split) end.
  eexists. split; [reflexivity|]. cbn [forward_at apply_rule bind].
  match goal with |- context [discounted_sum_from_base ?b ?d] => assert (DS : exists x, discounted_sum_from_base b d = Ok x) by (eexists; reflexivity) end.
  destruct DS as [x DS]. rewrite DS. cbn [bind]. rewrite L2. cbn [bind]. unfold rt. cbn [r_and_t bind]. eexists. reflexivity.
Qed.

Lemma two_dividends_near eps (TR : Trans F64) nan : accurate eps TR -> 0 <= eps <= bpow radix2 (-50) ->
  exists f F, equity_forward_new nan 0%Z (nofZ 100) NullRule sixteenth (ZeroRateCurve 0%Z) two_dividends 1000%Z = Ok f /\ forward_at nan f 730%Z = Ok F /\
    finite F /\ Rabs (real F - 15 / 16 * (100 * exp (/ 8) - 4 * exp (/ 16))) <= / 1000000.
Proof.
  intros HE E0. assert (E8 : bpow radix2 (-50) = 8 * uu) by (unfold uu; change (-50)%Z with (3 + -53)%Z; rewrite bpow_plus; reflexivity).
  assert (Ug : 0 < uu <= / 9000000000000000) by (pose proof uu_small; lra). assert (E1 : 0 <= eps <= / 1000) by (rewrite E8 in E0; lra).
  assert (ES : two_dividends = mkStream [mkDiv (nofZ 4) n0 365%Z 365%Z; mkDiv n0 (nlit 1 16) 730%Z 730%Z] (ZeroRateCurve 730%Z) 365%Z) by reflexivity.
  destruct (two_run (T := F64) nan sixteenth (ZeroRateCurve 0%Z) (nofZ 100) (nofZ 4) (nlit 1 16) n0 (nopp (nlit 1 16)) (nopp (nlit 1 8))) as (f & F & EQ & EF); [vm_compute; reflexivity..|].
  rewrite <- ES in EQ. exists f, F. split; [exact EQ|]. split; [exact EF|].
  destruct sixteenth_ordinary as [[O1 O2] [O3 O4]].
  assert (S100 : finite (nofZ 100 : F64) /\ real (nofZ 100) = 100) by (split; [split; reflexivity|vm_compute; lra]). destruct S100 as [FS RS].
  assert (R4 : real (nofZ 4) = 4) by (vm_compute; lra). assert (R0 : real n0 = 0) by (vm_compute; lra). assert (R16 : real (nlit 1 16) = / 16) by (vm_compute; lra).
  destruct (factors 0) as (X0 & X1 & X2). set (X := factor 0 _ _ 0%Z) in *.
  assert (T : (1 + (eps + ((160 + 13 * INR 0) * (/ 2 * 4) + 2) * uu)) ^ (9 * List.length (dividends two_dividends) + 5) <= 2 /\ (1 + (eps + ((160 + 13 * INR 0) * (/ 2 * 4) + 2) * uu)) ^ (9 * List.length (dividends two_dividends) + 5) - 1 <= 5 / 100000000000).
  { apply few_dividends; [exact E0|lia|lra|cbn; lia]. }
  destruct T as [T1 T2].
  assert (OD : Forall ordinary_dividend (dividends two_dividends)).
  { assert (P1 : bpow radix2 (-(300)) <= 4 <= bpow radix2 300) by (change 4 with (bpow radix2 2); split; apply bpow_le; lia).
    assert (P2 : bpow radix2 (-(100)) <= / 16 <= bpow radix2 100) by (change (/ 16) with (bpow radix2 (-4)); split; apply bpow_le; lia).
    assert (Z : forall k, ordinary_amount k n0) by (intros k; split; [split; reflexivity|now left]).
    rewrite ES. cbn [dividends]. apply Forall_cons; [|apply Forall_cons; [|constructor]]; (split; cbn [cash relative]; [|]); try apply Z; (split; [split; reflexivity|right]); rewrite ?R4, ?R16, Rabs_right; lra. }
  assert (HI : forall dd, In dd ([0; 0; 730] ++ dividend_dates (dividends two_dividends))%Z -> i32 dd /\ Rabs (years (base_date sixteenth) dd) + Rabs (years (base_date (ZeroRateCurve 0%Z : curve F64)) dd) <= 4).
  { assert (G : forall z, (0 <= z <= 730)%Z -> i32 z /\ Rabs (years 0%Z z) + Rabs (years 0%Z z) <= 4).
    { intros z Hz. split; [unfold i32; lia|]. unfold years. rewrite Z.sub_0_r. destruct Hz as [H1 H2]. apply IZR_le in H1, H2. rewrite Rabs_right; lra. }
    intros dd I. apply G. cbn in I. intuition lia. }
  assert (BM : bpow radix2 (-900) <= / 2 <= bpow radix2 900) by (change (/ 2) with (bpow radix2 (-1)); split; apply bpow_le; lia).

  assert (HH : real (nofZ 100) * X 0%Z + gross_dividends X 0%Z (reach two_dividends 1000%Z) (real (nofZ 100) * X 0%Z) 0 (dividends two_dividends) <= 300).
  { rewrite ES. unfold reach. cbn [dividends last_cash_ex_date gross_dividends ex_date pay_date cash relative]. change (Z.max 1000 365) with 1000%Z. cbn [Z.ltb Z.compare Pos.compare Pos.compare_cont].
    rewrite RS, X0, X1, X2, R4, R0, R16, Rabs_R0, (Rabs_right 4), (Rabs_right (/ 16)) by lra.
    pose proof (exp_pos (- / 16)). pose proof (exp_pos (- / 8)). assert (exp (- / 16) < 1) by (rewrite <- exp_0; apply exp_increasing; lra).
    replace (/ 16 * ((100 * 1 + (0 + 4 * exp (- / 16) + 0 * ((100 * 1 + 0) / exp (- / 16)) * exp (- / 16))) / exp (- / 8)) * exp (- / 8)) with (/ 16 * (100 + 4 * exp (- / 16))) by (field; lra). lra. }
  assert (B300 : 300 <= bpow radix2 300) by (apply Rle_trans with (bpow radix2 9); [change (bpow radix2 9) with 512; lra|apply bpow_le; lia]).
  destruct (share_near eps TR nan 0 HE E1 sixteenth (ZeroRateCurve 0%Z) two_dividends (nofZ 100) NullRule 0%Z 1000%Z 730%Z (/ 2) 0 O1 O3 ltac:(cbn; lra) BM (le_n 0) (le_n 0) (le_n 0) ltac:(lia)
    OD FS ltac:(rewrite RS; split; [apply Rle_trans with (bpow radix2 0); [apply bpow_le; lia|cbn; lra]|apply Rle_trans with (bpow radix2 7); [change (bpow radix2 7) with 128; lra|apply bpow_le; lia]])
    0%Z 730%Z eq_refl eq_refl 4 HI ltac:(unfold years; change (730 - base_date (div_yield two_dividends))%Z with 0%Z; unfold Rdiv; rewrite Rmult_0_l, Rabs_R0; lra)
    ltac:(lra) T1 NullRule eq_refl eq_refl f F EQ EF (Rle_trans _ _ _ HH B300)) as (f' & F' & yp & EN' & EF' & YP & _ & FF & NF).
  split; [exact FF|]. rewrite RS in EN'. destruct (exact_run 0) as (f2 & E2 & V2). assert (f2 = f') by congruence. subst f2. assert (F' = 15 / 16 * (100 * exp (/ 8) - 4 * exp (/ 16))) by congruence. subst F'.
  eapply Rle_trans; [exact NF|]. fold X. rewrite X2. cbn [two_dividends stream_new div_yield] in YP. rewrite zero_rt in YP. injection YP as <-. rewrite exp_0, Rmult_1_r.
  set (G := _ + gross_dividends _ _ _ _ _ _) in *. 
  assert (G / exp (- / 8) <= 600).
  { unfold Rdiv. rewrite exp_Ropp, Rinv_inv. pose proof (exp_upper (/ 8) ltac:(lra)). pose proof (exp_pos (/ 8)). apply Rle_trans with (300 * 2); [|lra].
    destruct (Rle_lt_dec 0 G); [apply Rmult_le_compat; lra|]. nra. }
  assert (G0 : 0 <= (1 + (eps + ((160 + 13 * INR 0) * (/ 2 * 4) + 2) * uu)) ^ (9 * List.length (dividends two_dividends) + 5) - 1).
  { match goal with |- 0 <= ?a ^ ?k - 1 => assert (1 <= a ^ k) by (apply pow_R1_Rle; cbn [INR]; lra) end. lra. }
  set (W := _ - 1) in *. assert (W * (G / exp (- / 8)) <= W * 600) by (apply Rmult_le_compat_l; lra). lra.
Qed.
