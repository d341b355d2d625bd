(** A worked time bump of one call. *)
From Coq Require Import ZArith List String Bool Lia Reals Lra.
From Verif Require Import Prelude Num L_Num M_Dates M_Calendar M_Search M_Curves M_Forward M_Vol M_Black76 M_Instruments M_Deps M_Risk M_Reports
  S_Math S_Data S_Vol S_Instruments S_Deps S_Risk S_Reports S_Greeks L_Fixings L_Vol L_VolTime L_VolCases L_Normal L_Black76 L_Deps L_Risk L_Prefetch L_PrefetchTop L_InstrumentCases L_DepsPricing
  L_RiskCases L_ForwardTop L_Reports L_SelfPricer L_SelfReports L_ReportCases L_SolverCases L_BlackGreeks L_Greeks L_GreeksCases L_Vega L_VegaCases L_Theta.
Import ListNotations.
Open Scope list_scope.
Open Scope R_scope.

Definition day_five (dyn : spot_dynamics) : bump_time := mkBumpTime (mkBumpSpotDate 5%Z dyn) 5%Z.
Definition spot_five (dyn : spot_dynamics) (s : R) : R := match dyn with StickySpot => s | StickyForward => s * exp (5 * (5 / 365)) end.
Definition market_five (x : R) : market_data R :=
  mkMarket 5%Z [("BP"%string, x)] [("BP-CR"%string, rate); ("OPT-CR"%string, zero)] [("BP"%string, zero)] [("BP"%string, stream_new [] zero)] [("BP"%string, flat_vol)].
Definition carried_five (x : R) : forward R :=
  EquityForward NullRule rate zero zero (mkBoot 5%Z 15%Z []) (x * exp (0 - 5 * (5 / 365) - (0 - 5 * (5 / 365)))) (0 - 5 * (5 / 365)).
Definition later_vol : vol_surface R := ConstantExpiry flat_vol (5 / 365) (mkDDF 5%Z 0).
Definition later_call (x : R) : self_pricer R :=
  mkSelfPricer [(1, call_100)] (mkPrefetch (market_five x) (deps_of call_only) [("BP"%string, carried_five x)] [("BP"%string, later_vol)]).

Lemma five_years : year_fraction (vs_calendar flat_vol) (vs_base flat_vol) (mkDDF 5%Z 0) = Ok (5 / 365).
Proof. unfold flat_vol. cbn [vs_calendar vs_base]. rewrite every_years by (cbn; lia). f_equal. cbn [ddf_date ddf_frac]. replace (IZR (5 - 0)) with 5 by reflexivity. field. Qed.

Lemma five_curve nan x : md_forward_curve nan (market_five x) stock 15%Z = Ok (carried_five x).
Proof.
  change (equity_forward_new nan 5%Z x NullRule rate zero (stream_new [] zero) 15%Z = Ok (carried_five x)).
  unfold equity_forward_new, log_discount_with_borrow, discount_with_borrow. cbn [apply_rule bind].
  unfold log_discount_with_borrow. rewrite rate_rt. unfold zero. rewrite zero_rt. cbn [bind]. reflexivity.
Qed.
Lemma five_vol nan x : md_vol_surface nan (market_five x) stock 15%Z (Ok (carried_five x)) = Ok later_vol.
Proof.
  unfold md_vol_surface. change (find_data _ _ _) with (@Ok (vol_surface R) flat_vol). cbn [bind market_five md_spot_date vol_time_dynamics_of stock].
  unfold time_modify. change (5 =? ddf_date (vs_base flat_vol))%Z with false. cbv iota.
  rnum. rewrite ddf_new_zero. cbn [bind]. rewrite five_years. cbn [bind]. unfold approx_eq. rnum.
  destruct (Rltb_spec (Rabs (5 / 365 - 0)) (1 / 1000000000000)) as [L|_]; [|reflexivity]. rewrite Rminus_0_r, Rabs_right in L by lra. lra.
Qed.
Lemma five_spots nan s dyn : md_bump_spot_date nan (flat_market s) (mkBumpSpotDate 5%Z dyn) (deps_of call_only) = Ok (market_five (spot_five dyn s)).
Proof.
  unfold md_bump_spot_date. cbn [bsd_dynamics bsd_date]. destruct dyn; [reflexivity|]. unfold sticky_forward_spots. cbn [flat_market md_spots mapM fst].
  change (instrument_by_id "BP" (deps_of call_only)) with (Some stock). cbv iota.
  change (md_forward_curve nan _ stock 5%Z) with (equity_forward_new nan 0%Z s NullRule rate zero (stream_new [] zero) 5%Z).
  rewrite carried_new by apply start_zero. cbn [bind].
  rewrite (carried_at nan s rate 5%Z 5%Z (5 * (5 / 365)) (Z.le_refl _) (rate_rt nan 5%Z)). reflexivity.
Qed.

Lemma moves_on nan s dyn : self_bump_time nan (day_five dyn) (one_call nan s) = (Ok tt, later_call (spot_five dyn s)).
Proof.
  unfold self_bump_time, apply_time_bump. cbn [one_call sp_context sp_instruments bind].
  rewrite nothing_passed.
  2: { intros i u0 f _ I. revert I. change (pf_deps (cache nan s call_only rate)) with (deps_of call_only). unfold in_window. cbn [prefetch_context ctx_spot_date cache pf_data md_spot_date day_five bt_spot_date_bump bsd_date].
    destruct (one_fixing nan (fun x => x) 1 (option_on stock 15%Z Call CashSettled) 100 "BP" "BP-CR" usd NullRule eq_refl 0%Z (deps_of call_only) eq_refl) as (FX & _).
    intros I. apply FX in I. subst f. cbn. lia. }
  cbn [day_five bt_spot_date_bump].
  assert (B : prefetch_bump nan (BSpotDate (mkBumpSpotDate 5%Z dyn)) (cache nan s call_only rate) None =
    (Ok true, mkPrefetch (market_five (spot_five dyn s)) (deps_of call_only) [("BP"%string, carried_five (spot_five dyn s))] [("BP"%string, later_vol)], None)).
  { unfold prefetch_bump, prefetch_bump_saved. cbn [bsd_date]. change (5 =? md_spot_date (pf_data (cache nan s call_only rate)))%Z with false. cbv iota.
    change (pf_data (cache nan s call_only rate)) with (flat_market s). change (pf_deps (cache nan s call_only rate)) with (deps_of call_only).
    rewrite five_spots. unfold refetch_all, walk_dependencies. cbn [pf_data pf_deps].
    change (col_forward_curves (deps_of call_only)) with [("BP"%string, (stock, 15%Z))]. cbn [walk_loop].
    rewrite five_curve. change (vol_surface_hwm stock (deps_of call_only)) with (Some 15%Z). cbv iota beta. rewrite five_vol. reflexivity. }
  rewrite B. reflexivity.
Qed.

Lemma later_price nan cdf x : 0 <= x -> exists y, self_price nan cdf (later_call x) = Ok y.
Proof.
  intros P. eexists. apply self_price_sum. cbn [sp_instruments later_call]. constructor; [|constructor]. unfold priced_at.
  apply (option_price nan cdf (prefetch_context nan (sp_context (later_call x))) (option_on stock 15%Z Call CashSettled)) with
    (F := x * exp (5 * (15 / 365) - 5 * (5 / 365))) (disp := 0) (tm := mkDDF 5%Z 0) (vol := later_vol) (yc := rate) (st := 5%Z) (u := growth) (r := 5 * (5 / 365)) (x := Rmax (15 / 365 - 5 / 365) 0 * (/ 5) ^ 2); try reflexivity.
  - unfold first_price. cbn [later_call sp_context prices stock option_on van_underlying van_expiry prefetch_context ctx_spot_date ctx_forward_curve dt_date pf_data md_spot_date pf_forwards instrument_id market_five].
    change ((15 =? 5)%Z) with false. unfold find_data. cbn [get String.eqb Ascii.eqb Bool.eqb bind mapM]. cbn [dt_date].
    assert (FA : forward_at nan (carried_five x) 15%Z = Ok (x * exp (5 * (15 / 365) - 5 * (5 / 365)))).
    { unfold carried_five, forward_at, discounted_sum_from_base, sum_at. cbn [boot_hwm boot_acc]. change (15 <? 15)%Z with false. cbv iota.
      change (binary_search_by (@nil (accumulation R)) (fun p => (acc_ex_date p ?= 15)%Z)) with (Missing 0). cbn [Nat.eqb bind apply_rule].
      unfold log_discount_with_borrow. rewrite rate_rt. unfold zero. rewrite zero_rt. cbn [bind]. rnum. f_equal.
      replace (0 - 5 * (5 / 365) - (0 - 5 * (5 / 365))) with 0 by ring. rewrite exp_0. change (@nexp R RTrans) with exp. rewrite Rminus_0_r, Rmult_1_r. do 2 f_equal. ring. }
    rewrite FA. reflexivity.
  - rewrite Rminus_0_r. apply Rmult_le_pos; [exact P|left; apply exp_pos].
  - apply stock_time.
  - right. reflexivity.
  - exact (variance_real nan _ _ _ _ _ (constant_expiry nan _ _ _ _ _ _ _ (flat_vol_is nan 100))).
  - apply Rmult_le_pos; [apply Rmax_r|apply pow2_ge_0].
Qed.

Lemma one_call_theta nan N s dyn : normal_cdf N -> 0 < s -> exists sp value price theta,
  self_pricer_new nan [(1, call_100)] (flat_market s) = Ok sp /\ self_price nan N sp = Ok value /\
  generate nan (self_ops nan N) (TimeBumpedGenerator (day_five dyn) []) sp saved_prefetch_new value = (Ok (TimeBumpedReport price theta []), sp, saved_prefetch_new) /\
  (dyn = StickyForward -> theta < (exp (5 * (5 / 365)) - 1) * value).
Proof.
  intros HN S. destruct (later_price nan N (spot_five dyn s)) as (y & P).
  { unfold spot_five. pose proof (exp_pos (5 * (5 / 365))). destruct dyn; [lra|]. apply Rmult_le_pos; lra. }
  assert (G : forall u, generate nan (self_ops nan N) (TimeBumpedGenerator (day_five dyn) []) (one_call nan s) saved_prefetch_new u =
    (Ok (TimeBumpedReport y (y - u) []), one_call nan s, saved_prefetch_new)).
  { intros u. cbn [generate op_bump_time op_price self_ops]. rewrite moves_on, P. reflexivity. }
  exists (one_call nan s). do 3 eexists. split; [apply one_call_new|]. split; [apply one_call_price; lra|]. split; [apply G|]. intros ->.
  pose proof (option_decay nan N 1 (option_on stock 15%Z Call CashSettled) 100 "BP" "BP-CR" usd NullRule eq_refl HN (flat_market s) (one_call nan s) (day_five StickyForward) [] s flat_vol
    (/ 5) (15 / 365) (5 / 365) _ _ _ _ _ ltac:(cbn; lia) ltac:(cbn; lia) (one_call_new nan s) eq_refl eq_refl eq_refl (Rle_refl 0) (flat_vol_is nan 100) ltac:(lra) five_years ltac:(lra)
    (one_call_price nan N s (Rlt_le _ _ S)) (G _) Rlt_0_1) as (price & theta & subs & D & D' & disp & sd & sd' & x & F & F' & E & O & O' & X & FF & FF' & Q).
  assert (price = y /\ theta = y - call_price N (exp (- growth) * exp 0) (s * exp growth - 0) (100 + 0) (sqrt var15)) as (-> & ->).
  { assert (I : forall a b a' b' : R, TimeBumpedReport a b [] = TimeBumpedReport a' b' subs -> a' = a /\ b' = b) by (intros a b a' b' I; now injection I as -> ->).
    exact (I _ _ _ _ E). }
  destruct (flat_inputs _ _ _ _ _ O) as (-> & -> & ->).
  assert (D' = exp (- growth) * exp (5 * (5 / 365))) as ->.
  { destruct O' as (yc & vol & pay & st & r & now & q & B1 & B2 & B3 & B4 & -> & _). injection B1 as <-. injection B3 as <-.
    change (rt nan rate 15%Z = Ok pay) in B2. change (rt nan rate 5%Z = Ok r) in B4. rewrite rate_rt in B2, B4. unfold growth. f_equal; f_equal; [f_equal|]; congruence. }
  cbn [day_five bt_spot_date_bump bsd_dynamics] in X. change (van_underlying (option_on stock 15%Z Call CashSettled)) with stock in *.
  assert (F' = F) as ->.
  { rewrite (forward_grown nan (flat_market s) stock 5%Z 15%Z s x F F' (stream_new [] zero) 0 eq_refl eq_refl); [rewrite exp_0; ring| |exact X|exact FF|exact FF'].
    exists 5%Z. split; [reflexivity|]. apply zero_rt. }
  apply flat_forward in FF. subst F. assert (EG := exp_pos growth).
  destruct (Q eq_refl ltac:(apply Rmult_lt_0_compat; lra) ltac:(lra)) as (Q1 & _).
  replace (exp (- growth) * exp (5 * (5 / 365)) / exp (- growth)) with (exp (5 * (5 / 365))) in Q1 by (field; pose proof (exp_pos (- growth)); lra). exact Q1.
Qed.

(** A dividend yield is counted twice. *)
Definition yield_market (s : R) : market_data R :=
  mkMarket 0%Z [("BP"%string, s)] [("BP-CR"%string, rate); ("OPT-CR"%string, zero)] [("BP"%string, zero)] [("BP"%string, stream_new [] rate)] [("BP"%string, flat_vol)].
Lemma yield_forward nan s d0 d x : (d0 <= d)%Z -> exists F, forward_if nan (on_date (yield_market s) d0) stock d x F.
Proof.
  intros L. eexists. do 4 eexists. split; [reflexivity|]. split; [reflexivity|]. split; [reflexivity|]. cbn [settlement stock on_date md_spot_date]. split.
  - unfold equity_forward_new, log_discount_with_borrow, discount_with_borrow, bootstrap_new. cbn [apply_rule bind stream_new dividends rev].
    unfold log_discount_with_borrow. rewrite rate_rt. unfold zero. rewrite zero_rt. cbn [bind]. reflexivity.
  - cbn [forward_at]. unfold discounted_sum_from_base, sum_at. cbn [boot_hwm boot_acc]. rewrite Z.ltb_irrefl.
    change (binary_search_by (@nil (accumulation R)) (fun p => (acc_ex_date p ?= d)%Z)) with (Missing 0). cbn [Nat.eqb bind apply_rule].
    unfold log_discount_with_borrow. rewrite !rate_rt. unfold zero. rewrite zero_rt. cbn [bind]. reflexivity.
Qed.
Lemma yield_twice nan s : 0 < s -> exists md u x F F', md_spot_date md = 0%Z /\ forward_if nan md u 5%Z s x /\ forward_if nan md u 15%Z s F /\
  forward_if nan (on_date md 5%Z) u 15%Z x F' /\ F < F'.
Proof.
  intros S. destruct (yield_forward nan s 0%Z 5%Z s ltac:(lia)) as (x & X). destruct (yield_forward nan s 0%Z 15%Z s ltac:(lia)) as (F & FF).
  destruct (yield_forward nan s 5%Z 15%Z x ltac:(lia)) as (F' & FF'). exists (on_date (yield_market s) 0%Z), stock, x, F, F'. split; [reflexivity|].
  split; [exact X|]. split; [exact FF|]. split; [exact FF'|].
  rewrite (forward_grown nan (on_date (yield_market s) 0%Z) stock 5%Z 15%Z s x F F' (stream_new [] rate) (5 * (5 / 365)) eq_refl eq_refl
    (ex_intro _ 5%Z (conj eq_refl (rate_rt nan 5%Z))) X FF FF').
  destruct (forward_no_divs nan (on_date (yield_market s) 0%Z) stock (stream_new [] rate) 15%Z s F rate zero eq_refl eq_refl eq_refl eq_refl FF) as (_ & _ & q0 & q1 & y & _ & _ & _ & _ & _ & ->).
  assert (0 < s * exp (q0 - q1 + y)) by (apply Rmult_lt_0_compat; [lra|apply exp_pos]).
  assert (1 < exp (5 * (5 / 365))) by (rewrite <- exp_0 at 1; apply exp_increasing; lra). nra.
Qed.

(** A cash dividend before day five and a relative one after. *)
Definition div_stream_five : div_stream R := mkStream [mkDiv 2 0 3%Z 4%Z; mkDiv 0 (1 / 10) 10%Z 11%Z] zero 3%Z.
Definition div_market (s : R) : market_data R :=
  mkMarket 0%Z [("BP"%string, s)] [("BP-CR"%string, rate); ("OPT-CR"%string, zero)] [("BP"%string, zero)] [("BP"%string, div_stream_five)] [("BP"%string, flat_vol)].
Lemma rate_log nan d : log_discount_with_borrow nan rate zero d = Ok (0 - 5 * (IZR d / 365)).
Proof. unfold log_discount_with_borrow. rewrite rate_rt. unfold zero. rewrite zero_rt. reflexivity. Qed.
Lemma rate_discounts nan b d : discounts nan rate zero b d (exp (0 - 5 * (IZR d / 365) - (0 - 5 * (IZR b / 365)))).
Proof. eexists. split; [apply rate_log|]. unfold discount_with_borrow. rewrite rate_log. reflexivity. Qed.
Lemma div_forward nan s d0 d x : (d0 <= d)%Z -> d0 <> 3%Z -> d0 <> 10%Z -> exists F, forward_if nan (on_date (div_market s) d0) stock d x F.
Proof.
  intros L N3 N10. set (disc := fun e => exp (0 - 5 * (IZR e / 365) - (0 - 5 * (IZR d0 / 365)))).
  assert (O : ex_ordered (dividends div_stream_five)) by (cbn; intuition (subst; cbn; lia)).
  destruct (valued_exists (x * disc d0) disc d0 (dividends div_stream_five) O) as (l & M & V).
  assert (P : priced_dividends nan div_stream_five rate zero (x * disc d0) d0 disc l).
  { split; auto; [|now left]. exists (0 - 5 * (IZR d0 / 365)). split; [apply rate_log|]. intros dv _ _.
    unfold discount_with_borrow. rewrite !rate_log. split; reflexivity. }
  destruct (forward_exists nan d0 x NullRule rate zero div_stream_five d d0 (disc d0) disc l eq_refl (rate_discounts nan d0 d0) P) as (f & Hf).
  eexists. exists rate, zero, div_stream_five, f. split; [reflexivity|]. split; [reflexivity|]. split; [reflexivity|]. split; [exact Hf|].
  apply (forward_value nan d0 x NullRule rate zero div_stream_five d d0 (disc d0) disc l eq_refl (rate_discounts nan d0 d0) P f Hf d d (disc d) 0).
  - intros dv [<-|[<-|[]]]; cbn; congruence.
  - unfold reach. cbn [dividends div_stream_five]. lia.
  - reflexivity.
  - apply rate_discounts.
  - unfold div_stream_five, zero. cbn [div_yield]. apply zero_rt.
Qed.
Lemma divs_kept nan s : exists x F, forward_if nan (div_market s) stock 5%Z s x /\ forward_if nan (div_market s) stock 15%Z s F /\
  forward_if nan (on_date (div_market s) 5%Z) stock 15%Z x F.
Proof.
  destruct (div_forward nan s 0%Z 5%Z s ltac:(lia) ltac:(lia) ltac:(lia)) as (x & X). destruct (div_forward nan s 0%Z 15%Z s ltac:(lia) ltac:(lia) ltac:(lia)) as (F & FF).
  destruct (div_forward nan s 5%Z 15%Z x ltac:(lia) ltac:(lia) ltac:(lia)) as (F' & FF'). exists x, F. split; [exact X|]. split; [exact FF|].
  rewrite <- (forward_kept nan (div_market s) stock 5%Z 15%Z s x F F' rate zero div_stream_five); auto.
  - cbn; intuition (subst; cbn; lia).
  - now left.
  - intros dv [<-|[<-|[]]]; cbn; congruence.
  - intros dv [<-|[<-|[]]]; cbn; congruence.
  - intros dv _. rewrite !rate_log. eauto.
  - cbn. lia.
  - exists 5%Z. split; [reflexivity|]. unfold div_stream_five, zero. cbn [div_yield]. apply zero_rt.
Qed.
