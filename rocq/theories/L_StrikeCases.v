(** A surface quoted with arbitrage between strikes and between expiries, and worked prices without. *)
From Coq Require Import ZArith List String Bool Lia Reals Lra.
From Verif Require Import Prelude Num M_Dates M_Search M_Calendar M_Interp M_Curves M_Forward M_Vol M_Black76 M_Instruments
  S_Math S_Vol S_Instruments S_Strikes L_Num L_Search L_Interp L_Spline L_Vol L_VolTime L_VolPillars L_VolCases L_Normal L_Gauss L_Black76 L_PriceDouble L_Expectation L_InstrumentCases L_Strikes.
Import ListNotations.
Open Scope list_scope.
Open Scope R_scope.

(** Twenty percent at the money, and [w] at 110 for one year. *)
Definition steep_points (w : R) : list (R * R) := [(100, / 5); (110, w)].
Definition steep (w : R) : smile R := CubicSplineSmile (mkSpline Natural Natural (steep_points w) [0; (0 - 0 * 0) / (0 * 0 + 1)]).
Definition steep_term (w : R) : list (ddf R * smile R) := [(year_end 1, steep w); (year_end 2, steep (/ 5))].

Lemma steep_smile w : cubic_smile_new (steep_points w) = Ok (steep w).
Proof. unfold cubic_smile_new, spline_new. cbn. destruct (Rltb_spec (1 / 1000000000000) (110 - 100)); [reflexivity|lra]. Qed.

Lemma steep_at nan w i p : nth_error (steep_points w) i = Some p -> smile_at nan (steep w) (fst p) = Ok (snd p).
Proof.
  intros E. cbn [smile_at steep]. unfold spline_at. cbn [sp_points steep_points].
  rewrite (L_Interp.search_found _ lawful_R _ (fst p) i p); [ | | exact E | reflexivity].
  - destruct i as [|[|i]]; [injection E as <-; reflexivity|injection E as <-; reflexivity|destruct i; discriminate E].
  - intros x y (j & Px & Py). destruct j as [|j]; [|cbn in Py; destruct j; discriminate]. cbn in Px, Py. inversion Px; inversion Py; subst. cbn. lra.
Qed.

Lemma steep_pillars nan w :
  pillar nan EveryDay (year_end 0) level (year_end 1, steep w) 100 (/ 5) 1 /\ pillar nan EveryDay (year_end 0) level (year_end 2, steep (/ 5)) 100 (/ 5) 2.
Proof.
  assert (S : forall w, smile_at nan (steep w) 100 = Ok (/ 5)) by (intros x; exact (steep_at nan x 0 (100, / 5) eq_refl)).
  split; split; cbn [fst snd]; try apply level_at; try apply S; rewrite every_years by (cbn; lia); f_equal; cbn; lra.
Qed.

Lemma steep_ordered w : ordered_pillars (steep_term w).
Proof. cbn [steep_term ordered_pillars]. split; [|split; [intros q []|exact Logic.I]]. intros q [<-|[]]. apply year_before. lia. Qed.

Lemma steep_new nan w : exists s, vbp_new nan (steep_term w) EveryDay (year_end 0) level level NoCashDivs = Ok s.
Proof.
  apply new_iff. split; [discriminate|]. exists [1 * (/ 5) ^ 2; 2 * (/ 5) ^ 2]. destruct (steep_pillars nan w) as (P & Q). split.
  - constructor; [exists 100, (/ 5), 1; auto|]. constructor; [exists 100, (/ 5), 2; auto|constructor].
  - cbn [rising]. split; [lra|]. split; [lra|exact Logic.I].
Qed.

Section Arbitrage.
  Variable N : R -> R.
  Hypothesis HN : normal_cdf N.

  Lemma at_the_money_call f s : 0 < f -> 0 < s -> call_price N 1 f f s = f * (2 * N (s / 2) - 1).
  Proof.
    intros F S. unfold call_price. cbn. replace (f / f) with 1 by (field; lra). rewrite ln_1. replace (0 / s + 1 / 2 * s) with (s / 2) by (field; lra).
    replace (s / 2 - s) with (- (s / 2)) by lra. rewrite (nc_symmetric N HN). ring.
  Qed.

  Lemma dearer : exists w, 2 <= w /\ call_price N 1 100 100 (/ 5) < call_price N 1 100 110 w.
  Proof.
    destruct (nc_tail N HN (/ 4) ltac:(lra)) as (M & T). set (w := 2 * Rmax 1 (- M)). exists w.
    assert (W : 2 <= w /\ - (w / 2) <= M) by (unfold w; pose proof (Rmax_l 1 (- M)); pose proof (Rmax_r 1 (- M)); lra).
    split; [lra|]. specialize (T (- (w / 2)) ltac:(lra)). rewrite (nc_symmetric N HN) in T. apply Rabs_def2 in T.
    destruct (call_decreasing_in_k N HN 1 100 100 110 w ltac:(lra) ltac:(lra) ltac:(lra) ltac:(lra)) as [_ B].
    rewrite at_the_money_call in * by lra. pose proof (cdf_lipschitz N HN (/ 5 / 2) 0) as P. rewrite (cdf_half N HN) in P.
    replace (/ 5 / 2 - 0) with (/ 10) in P by lra. rewrite (Rabs_right (/ 10)) in P by lra. pose proof (Rle_abs (N (/ 5 / 2) - / 2)). lra.
  Qed.

  (** The surface is accepted; the higher strike is dearer, and so is the earlier expiry. *)
  Lemma arbitrage nan : exists w sm sm' s, cubic_smile_new [(100, / 5); (110, w)] = Ok sm /\ cubic_smile_new [(100, / 5); (110, / 5)] = Ok sm' /\
    vbp_new nan [(year_end 1, sm); (year_end 2, sm')] EveryDay (year_end 0) level level NoCashDivs = Ok s /\
    let c := market (ZeroRateCurve 0%Z) 100 (DriftlessForward 100) (VolByProbability s) in let call d := option_on stock d Call CashSettled in
    exists x y z, price nan N c (ISpotEuropean (call 365%Z) 100) (mkDT 0%Z Open_) = Ok x /\
      price nan N c (ISpotEuropean (call 365%Z) 110) (mkDT 0%Z Open_) = Ok y /\
      price nan N c (ISpotEuropean (call 730%Z) 110) (mkDT 0%Z Open_) = Ok z /\ x < y /\ z < y.
  Proof.
    destruct dearer as (w & W & X). exists w, (steep w), (steep (/ 5)). destruct (steep_new nan w) as (s & E). exists s. split; [apply steep_smile|]. split; [apply steep_smile|]. split; [exact E|]. cbn zeta.
    destruct (vbp_new_fields _ _ _ _ _ _ _ _ E) as (B & _ & DA). destruct (steep_pillars nan w) as (P & Q).
    assert (DI : forall d, displacement nan (VolByProbability s) d = Ok 0) by (intros d; cbn [displacement]; now rewrite DA).
    assert (V1 : variance nan (VolByProbability s) (mkDDF 365%Z 0) 100 = Ok (1 * (/ 5) ^ 2)).
    { apply variance_real. refine (at_pillar nan EveryDay (year_end 0) level _ level NoCashDivs s E (steep_ordered w) (year_end 1, steep w) 100 (/ 5) 1 100 (/ 5) _ P _); [now left|].
      exact (steep_at nan w 0 (100, / 5) eq_refl). }
    assert (V2 : variance nan (VolByProbability s) (mkDDF 365%Z 0) 110 = Ok (1 * w ^ 2)).
    { apply variance_real. refine (at_pillar nan EveryDay (year_end 0) level _ level NoCashDivs s E (steep_ordered w) (year_end 1, steep w) 100 (/ 5) 1 110 w _ P _); [now left|].
      exact (steep_at nan w 1 (110, w) eq_refl). }
    assert (V3 : variance nan (VolByProbability s) (mkDDF 730%Z 0) 110 = Ok (2 * (/ 5) ^ 2)).
    { apply variance_real. refine (at_pillar nan EveryDay (year_end 0) level _ level NoCashDivs s E (steep_ordered w) (year_end 2, steep (/ 5)) 100 (/ 5) 2 110 (/ 5) _ Q _); [right; now left|].
      exact (steep_at nan (/ 5) 1 (110, / 5) eq_refl). }
    assert (S1 : sqrt (1 * (/ 5) ^ 2) = / 5) by (rewrite Rmult_1_l; apply sqrt_pow2; lra).
    assert (S2 : sqrt (1 * w ^ 2) = w) by (rewrite Rmult_1_l; apply sqrt_pow2; lra).
    do 3 eexists. split; [|split; [|split]].
    - apply market_price with (1 := B) (2 := V1) (disp := 0); [lra|lia|apply DI|lra].
    - apply market_price with (1 := B) (2 := V2) (disp := 0); [pose proof (pow2_ge_0 w); lra|lia|apply DI|lra].
    - apply market_price with (1 := B) (2 := V3) (disp := 0); [lra|lia|apply DI|lra].
    - cbn beta iota. rewrite S1, S2. replace (100 - 0) with 100 by lra. replace (100 + 0) with 100 by lra. replace (110 + 0) with 110 by lra. split; [exact X|].
      apply (call_increasing_in_s N HN); try lra. split; [apply sqrt_lt_R0; lra|]. rewrite <- (sqrt_pow2 w) by lra. apply sqrt_lt_1; nra.
  Qed.
End Arbitrage.

(** A flat surface: the same option at 90, 100 and 110, and one that expires later. *)
Lemma flat_strikes nan N : normal_cdf N -> forall pc, let c := market (ZeroRateCurve 0%Z) 100 (DriftlessForward 100) (FlatVolSurface (/ 5) EveryDay (year_end 0)) in
  let opt d k := ISpotEuropean (option_on stock d pc CashSettled) k in
  exists x1 x x2 z, price nan N c (opt 365%Z 90) (mkDT 0%Z Open_) = Ok x1 /\ price nan N c (opt 365%Z 100) (mkDT 0%Z Open_) = Ok x /\
    price nan N c (opt 365%Z 110) (mkDT 0%Z Open_) = Ok x2 /\ price nan N c (opt 730%Z 100) (mkDT 0%Z Open_) = Ok z /\ 2 * x < x1 + x2 /\ x < z.
Proof.
  intros HN pc c opt.
  assert (V : forall n k, (0 <= n)%Z -> variance nan (FlatVolSurface (/ 5) EveryDay (year_end 0)) (mkDDF (365 * n)%Z 0) k = Ok (IZR n * (/ 5) ^ 2)).
  { intros n k P. apply variance_real. unfold volatility_is. cbn [volatilities map]. rewrite every_years by (cbn [year_end ddf_date]; lia). cbn [bind year_end ddf_date ddf_frac].
    f_equal. f_equal. rewrite Z.mul_0_r, Z.sub_0_r, mult_IZR. lra. }
  assert (PR : forall d k x, (0 < d)%Z -> variance nan (FlatVolSurface (/ 5) EveryDay (year_end 0)) (mkDDF d 0) k = Ok x -> 0 <= x -> exists y, price nan N c (opt d k) (mkDT 0%Z Open_) = Ok y).
  { intros d k x L Vx X. eexists. apply market_price with (2 := Vx) (disp := 0); [reflexivity|exact X|exact L|reflexivity|lra]. }
  destruct (PR 365%Z 90 _ ltac:(lia) (V 1%Z 90 ltac:(lia)) ltac:(lra)) as (x1 & X1). destruct (PR 365%Z 100 _ ltac:(lia) (V 1%Z 100 ltac:(lia)) ltac:(lra)) as (x & X).
  destruct (PR 365%Z 110 _ ltac:(lia) (V 1%Z 110 ltac:(lia)) ltac:(lra)) as (x2 & X2). destruct (PR 730%Z 100 _ ltac:(lia) (V 2%Z 100 ltac:(lia)) ltac:(lra)) as (z & Zp).
  exists x1, x, x2, z. split; [exact X1|]. split; [exact X|]. split; [exact X2|]. split; [exact Zp|].
  assert (PT : forall d, (0 < d)%Z -> option_parts nan N c (option_on stock d pc CashSettled) (FlatVolSurface (/ 5) EveryDay (year_end 0)) (mkDT 0%Z Open_) 1 100 0 (mkDDF 0%Z 0)).
  { intros d L. exists (ZeroRateCurve 0%Z), 0, 0%Z, 0, (mkDDF 0%Z 0). cbn zeta. split; [reflexivity|]. split.
    { unfold price, first_price. cbn [prices stock option_on van_underlying van_expiry c market ctx_spot_date dt_date]. destruct (Z.eqb_spec d 0); [lia|]. reflexivity. }
    split; [reflexivity|]. split; [reflexivity|]. split; [apply zero_rt|]. split; [reflexivity|]. split; [apply zero_rt|]. split; [rewrite Ropp_0, exp_0; lra|].
    split; [apply stock_time|]. symmetry. apply (f_equal (fun b : bool => if b then mkDDF 0%Z 0 else mkDDF from_nil 0) (y := true)). apply leb_same. }
  assert (FV : forall n k, (0 <= n)%Z -> forward_variance nan (FlatVolSurface (/ 5) EveryDay (year_end 0)) (mkDDF 0%Z 0) (mkDDF (365 * n)%Z 0) k = Ok (IZR n * (/ 5) ^ 2)).
  { intros n k P. rewrite forward_variance_started; [now apply V|]. right. reflexivity. }
  split.
  - destruct (option_strikes N HN nan c (option_on stock 365%Z pc CashSettled) _ 90 100 110 (mkDT 0%Z Open_) x1 x x2 eq_refl eq_refl
      (flat_no_smile nan _ _ _) ltac:(lra) X1 X X2) as (D & F & disp & st & q & P & Q & _ & H).
    destruct (parts_fun N nan c _ _ _ _ _ _ _ _ _ _ _ _ P (PT 365%Z ltac:(lia))) as (_ & -> & -> & -> & ->).
    pose proof (FV 1%Z 100 ltac:(lia)) as Q'. assert (q = IZR 1 * (/ 5) ^ 2) by (change (van_expiry_time (option_on stock 365%Z pc CashSettled)) with (mkDDF (365 * 1)%Z (0 : R)) in Q; congruence).
    destruct (H ltac:(lra) ltac:(lra) ltac:(lra)) as [_ CV]. lra.
  - destruct (option_expiries N HN nan c (option_on stock 365%Z pc CashSettled) (option_on stock 730%Z pc CashSettled) 100 (mkDT 0%Z Open_) x z eq_refl eq_refl eq_refl X Zp)
      as (vol & vol' & D & D' & F & F' & disp & disp' & st & st' & q & q' & P & P' & Q & Q' & H).
    destruct (parts_fun N nan c _ _ _ _ _ _ _ _ _ _ _ _ P (PT 365%Z ltac:(lia))) as (-> & -> & -> & -> & ->).
    destruct (parts_fun N nan c _ _ _ _ _ _ _ _ _ _ _ _ P' (PT 730%Z ltac:(lia))) as (-> & -> & -> & -> & ->).
    pose proof (FV 1%Z 100 ltac:(lia)) as G. pose proof (FV 2%Z 100 ltac:(lia)) as G'.
    change (van_expiry_time (option_on stock 365%Z pc CashSettled)) with (mkDDF (365 * 1)%Z (0 : R)) in Q. change (van_expiry_time (option_on stock 730%Z pc CashSettled)) with (mkDDF (365 * 2)%Z (0 : R)) in Q'.
    assert (q = IZR 1 * (/ 5) ^ 2) by congruence. assert (q' = IZR 2 * (/ 5) ^ 2) by congruence.
    apply H; lra.
Qed.
