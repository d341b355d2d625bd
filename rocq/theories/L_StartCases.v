(** A worked delta and time bump of a call whose strike is yet to be set. *)
From Coq Require Import ZArith List String Bool Lia Reals Lra.
From Verif Require Import Prelude Num L_Num M_Dates M_Calendar M_Search M_Curves M_Forward M_Vol M_Black76 M_Instruments M_Deps M_Risk M_Reports
  S_Math S_Data S_Vol S_Instruments S_Deps S_Risk S_Reports S_Greeks S_Starting L_Fixings L_Vol L_VolTime L_VolCases L_Black76 L_Deps L_Risk L_Prefetch L_PrefetchTop L_InstrumentCases L_DepsPricing
  L_RiskCases L_ForwardTop L_Reports L_SelfPricer L_SelfReports L_ReportCases L_SolverCases L_BlackGreeks L_Theta L_ThetaCases L_Strikes L_PricingAny L_StartGreeks L_StartTheta L_StartDouble.
Import ListNotations.
Open Scope list_scope.
Open Scope R_scope.

(** A call struck at the spot of day ten. *)
Definition start_call : instrument R := IForwardEuropean (option_on stock 15%Z Call CashSettled) 1 (mkDT 10%Z Open_) (mkDDF 10%Z 0).
Definition start_only : list (request R) := [WantSpot start_call].
Definition one_start_call (nan s : R) : self_pricer R := mkSelfPricer [(1, start_call)] (cache nan s start_only rate).

Lemma one_start_call_new nan s : self_pricer_new nan [(1, start_call)] (flat_market s) = Ok (one_start_call nan s).
Proof.
  unfold self_pricer_new.
  change (portfolio_dependencies [(1, start_call)] (md_spot_date (flat_market s))) with (@Ok (collector R) (deps_of start_only)).
  cbn [bind]. change (flat_market s) with (pf_data (cache nan s start_only rate)). rewrite (cached nan s rate start_only (start_zero nan)); reflexivity.
Qed.

Lemma flat_at nan k d : (0 <= d)%Z -> volatility_is nan flat_vol (mkDDF d 0) k (/ 5) (IZR d / 365).
Proof.
  intros L. unfold volatility_is, flat_vol. cbn [volatilities map]. rewrite every_years by (cbn; lia). cbn [bind].
  do 2 f_equal. cbn [ddf_date ddf_frac]. rewrite Z.sub_0_r. field.
Qed.

Lemma start_variance nan k : forward_variance nan flat_vol (mkDDF 10%Z 0) (mkDDF 15%Z 0) k = Ok (15 / 365 * (/ 5) ^ 2 - 10 / 365 * (/ 5) ^ 2).
Proof.
  apply forward_variance_none_ok; [reflexivity|left; cbn; lia| | |].
  - exact (variance_real nan _ _ _ _ _ (flat_at nan k 10%Z ltac:(lia))).
  - exact (variance_real nan _ _ _ _ _ (flat_at nan k 15%Z ltac:(lia))).
  - lra.
Qed.

Definition start_q : R := 15 / 365 * (/ 5) ^ 2 - 10 / 365 * (/ 5) ^ 2.

Lemma start_call_price nan N s : 0 <= s -> exists y, self_price nan N (one_start_call nan s) = Ok y.
Proof.
  intros S. eexists. apply self_price_sum. cbn [sp_instruments one_start_call]. constructor; [|constructor]. unfold priced_at.
  apply (start_price_any nan N (prefetch_context nan (cache nan s start_only rate)) (option_on stock 15%Z Call CashSettled) 1 (mkDT 10%Z Open_) (mkDDF 10%Z 0)) with
    (F0 := s * exp (5 * (10 / 365))) (F := s * exp growth) (disp := 0) (now := mkDDF 0%Z 0) (vol := flat_vol) (yc := rate) (st := 0%Z) (u := growth) (r := 0)
    (q := start_q); try reflexivity.
  - cbn [prices stock option_on van_underlying van_expiry prefetch_context ctx_spot_date ctx_forward_curve dt_date cache pf_data md_spot_date pf_forwards instrument_id last].
    unfold find_data. cbn [get String.eqb Ascii.eqb Bool.eqb bind mapM dt_date].
    rewrite (carried_at nan s rate 15%Z 10%Z (5 * (10 / 365)) ltac:(lia) (rate_rt nan 10%Z)).
    rewrite (carried_at nan s rate 15%Z 15%Z growth (Z.le_refl _) (rate_rt nan 15%Z)). reflexivity.
  - apply start_zero.
  - apply stock_time.
  - change (ddf_leb (mkDDF 10%Z 0) (mkDDF 0%Z 0)) with false. apply start_variance.
  - rnum. rewrite Rminus_0_r. pose proof (exp_pos growth). assert (0 <= s * exp growth) by (apply Rmult_le_pos; lra). destruct (Rltb_spec (s * exp growth) 0); [lra|reflexivity].
  - rnum. destruct (Rltb_spec start_q 0) as [L|_]; [unfold start_q in L; lra|reflexivity].
Qed.

Lemma start_call_bumped nan s f save : save = None \/ save = Some saved_prefetch_new -> exists save',
  self_bump nan (BSpot "BP" f) (one_start_call nan s) save = (Ok true, one_start_call nan (apply_spot f s), save').
Proof.
  intros [-> | ->]; unfold self_bump, one_start_call; cbn [sp_context sp_instruments].
  - rewrite (spot_bumped_unsaved nan s start_only f eq_refl eq_refl). eauto.
  - unfold saved_prefetch_new. rewrite (spot_bumped nan s start_only f [] [] saved_data_new eq_refl eq_refl). eauto.
Qed.

Lemma start_call_report nan cdf s h u : 0 < s -> 0 < h < 1 -> exists r p' sv',
  generate nan (self_ops nan cdf) (DeltaGammaGenerator h) (one_start_call nan s) saved_prefetch_new u = (Ok r, p', sv').
Proof.
  intros S H. cbn [generate op_dependencies self_ops].
  change (keys (col_instruments (pf_deps (sp_context (one_start_call nan s))))) with ["BP"%string]. cbn [delta_loop].
  change (ctx_spot (op_context (self_ops nan cdf) (one_start_call nan s)) "BP") with (@Ok R s). cbv iota beta.
  unfold up_and_down, bumped_price. cbn [op_bump op_price self_ops].
  destruct (start_call_bumped nan s (RelativeSpot h) (Some saved_prefetch_new) (or_intror eq_refl)) as (s1 & B1).
  set (x1 := apply_spot (RelativeSpot h) s) in *. rnum.
  match goal with |- context [BSpot "BP" (RelativeSpot ?d)] => match d with context [_ / _] =>
    destruct (start_call_bumped nan x1 (RelativeSpot d) None (or_introl eq_refl)) as (s2 & B2) end end.
  rewrite B1.
  assert (X1 : 0 <= x1) by (unfold x1; cbn [apply_spot]; rnum; apply Rmult_le_pos; lra).
  destruct (start_call_price nan cdf x1 X1) as (y1 & ->). rewrite B2.
  match type of B2 with _ = (_, one_start_call nan ?x, _) => assert (X2 : 0 <= x) end.
  { unfold x1. cbn [apply_spot]. rnum. replace (s * (1 + h) * (1 + ((1 - h) / (1 + h) - 1))) with (s * (1 - h)) by (field; lra). apply Rmult_le_pos; lra. }
  destruct (start_call_price nan cdf _ X2) as (y2 & ->).
  destruct (wb_restore _ _ (self_well_behaved nan cdf) (BSpot "BP" (RelativeSpot h)) (BSpot "BP" (RelativeSpot ((1 - h) / (1 + h) - 1)))
    (one_start_call nan s) true _ s1 true _ s2 (spots_same _ _ _) B1 B2) as (_ & sv & -> & RS & CL).
  cbn [op_restore self_ops] in RS. cbn [op_restore self_ops]. rewrite RS. cbn [delta_loop rmap]. do 3 eexists. reflexivity.
Qed.

Lemma start_call_delta nan N s h : 0 < s -> 0 < h < 1 -> exists sp value m sp' sv',
  self_pricer_new nan [(1, start_call)] (flat_market s) = Ok sp /\ self_price nan N sp = Ok value /\
  generate nan (self_ops nan N) (DeltaGammaGenerator h) sp saved_prefetch_new value = (Ok (DeltaGammaReport h m), sp', sv') /\
  get "BP" m = Some (value / s, 0).
Proof.
  intros S H. destruct (start_call_price nan N s (Rlt_le _ _ S)) as (value & PV). destruct (start_call_report nan N s h value S H) as (r & p' & sv' & E).
  destruct (plain_start_delta nan N 1 (option_on stock 15%Z Call CashSettled) 1 (mkDT 10%Z Open_) (mkDDF 10%Z 0) "BP" "BP-CR" usd NullRule eq_refl (flat_market s) _ s h
    (stream_new [] zero) flat_vol value r p' sv' eq_refl (one_start_call_new nan s) eq_refl S H eq_refl eq_refl Rlt_0_1 eq_refl (flat_no_smile nan _ _ _) eq_refl PV E) as (m & -> & G).
  exists (one_start_call nan s), value, m, p', sv'. split; [apply one_start_call_new|]. auto.
Qed.

(** Five days on. *)
Definition later_start (x : R) : self_pricer R :=
  mkSelfPricer [(1, start_call)] (mkPrefetch (market_five x) (deps_of start_only) [("BP"%string, carried_five x)] [("BP"%string, later_vol)]).

Lemma start_spots nan s dyn : md_bump_spot_date nan (flat_market s) (mkBumpSpotDate 5%Z dyn) (deps_of start_only) = Ok (market_five (spot_five dyn s)).
Proof.
  unfold md_bump_spot_date. cbn [bsd_dynamics bsd_date]. destruct dyn; [reflexivity|]. unfold sticky_forward_spots. cbn [flat_market md_spots mapM fst].
  change (instrument_by_id "BP" (deps_of start_only)) with (Some stock). cbv iota.
  change (md_forward_curve nan _ stock 5%Z) with (equity_forward_new nan 0%Z s NullRule rate zero (stream_new [] zero) 5%Z).
  rewrite carried_new by apply start_zero. cbn [bind].
  rewrite (carried_at nan s rate 5%Z 5%Z (5 * (5 / 365)) (Z.le_refl _) (rate_rt nan 5%Z)). reflexivity.
Qed.

Lemma start_moves_on nan s dyn : self_bump_time nan (day_five dyn) (one_start_call nan s) = (Ok tt, later_start (spot_five dyn s)).
Proof.
  unfold self_bump_time, apply_time_bump. cbn [one_start_call sp_context sp_instruments bind].
  rewrite nothing_passed.
  2: { intros i u0 f _ I. revert I. change (pf_deps (cache nan s start_only rate)) with (deps_of start_only). unfold in_window. cbn [prefetch_context ctx_spot_date cache pf_data md_spot_date day_five bt_spot_date_bump bsd_date].
    destruct (two_fixings nan (fun x => x) 1 (option_on stock 15%Z Call CashSettled) 1 (mkDT 10%Z Open_) (mkDDF 10%Z 0) "BP" "BP-CR" usd NullRule eq_refl 0%Z (deps_of start_only) eq_refl) as (FX & _).
    intros I. apply FX in I. destruct I as [-> | ->]; cbn; lia. }
  cbn [day_five bt_spot_date_bump].
  assert (B : prefetch_bump nan (BSpotDate (mkBumpSpotDate 5%Z dyn)) (cache nan s start_only rate) None =
    (Ok true, mkPrefetch (market_five (spot_five dyn s)) (deps_of start_only) [("BP"%string, carried_five (spot_five dyn s))] [("BP"%string, later_vol)], None)).
  { unfold prefetch_bump, prefetch_bump_saved. cbn [bsd_date]. change (5 =? md_spot_date (pf_data (cache nan s start_only rate)))%Z with false. cbv iota.
    change (pf_data (cache nan s start_only rate)) with (flat_market s). change (pf_deps (cache nan s start_only rate)) with (deps_of start_only).
    rewrite start_spots. unfold refetch_all, walk_dependencies. cbn [pf_data pf_deps].
    change (col_forward_curves (deps_of start_only)) with [("BP"%string, (stock, 15%Z))]. cbn [walk_loop].
    rewrite five_curve. change (vol_surface_hwm stock (deps_of start_only)) with (Some 15%Z). cbv iota beta. rewrite five_vol. reflexivity. }
  rewrite B. reflexivity.
Qed.

Lemma five_at_date nan x d : (5 <= d <= 15)%Z -> forward_at nan (carried_five x) d = Ok (x * exp (5 * (IZR d / 365) - 5 * (5 / 365))).
Proof.
  intros L. unfold carried_five, forward_at, discounted_sum_from_base, sum_at. cbn [boot_hwm boot_acc]. destruct (Z.ltb_spec 15 d); [lia|].
  change (binary_search_by (@nil (accumulation R)) (fun p => (acc_ex_date p ?= d)%Z)) with (Missing 0). cbn [Nat.eqb bind apply_rule].
  unfold log_discount_with_borrow. rewrite rate_rt. unfold zero. rewrite zero_rt. cbn [bind]. rnum. f_equal.
  replace (0 - 5 * (5 / 365) - (0 - 5 * (5 / 365))) with 0 by ring. rewrite exp_0. change (@nexp R RTrans) with exp. rewrite Rminus_0_r, Rmult_1_r. do 2 f_equal. ring.
Qed.

Definition later_q : R := Rmax (15 / 365 - 5 / 365) 0 * (/ 5) ^ 2 - Rmax (10 / 365 - 5 / 365) 0 * (/ 5) ^ 2.
Lemma later_q_positive : 0 <= later_q.
Proof. unfold later_q. rewrite !Rmax_left by lra. lra. Qed.

Lemma later_variance nan k : forward_variance nan later_vol (mkDDF 10%Z 0) (mkDDF 15%Z 0) k = Ok later_q.
Proof.
  apply forward_variance_none_ok; [reflexivity|left; cbn; lia| | |].
  - exact (variance_real nan _ _ _ _ _ (constant_expiry nan _ _ _ _ _ _ _ (flat_at nan k 10%Z ltac:(lia)))).
  - exact (variance_real nan _ _ _ _ _ (constant_expiry nan _ _ _ _ _ _ _ (flat_at nan k 15%Z ltac:(lia)))).
  - pose proof later_q_positive as P. unfold later_q in P. lra.
Qed.

Lemma later_start_price nan N x : 0 <= x -> exists y, self_price nan N (later_start x) = Ok y.
Proof.
  intros P. eexists. apply self_price_sum. cbn [sp_instruments later_start]. constructor; [|constructor]. unfold priced_at.
  apply (start_price_any nan N (prefetch_context nan (sp_context (later_start x))) (option_on stock 15%Z Call CashSettled) 1 (mkDT 10%Z Open_) (mkDDF 10%Z 0)) with
    (F0 := x * exp (5 * (10 / 365) - 5 * (5 / 365))) (F := x * exp (5 * (15 / 365) - 5 * (5 / 365))) (disp := 0) (now := mkDDF 5%Z 0) (vol := later_vol) (yc := rate) (st := 5%Z)
    (u := growth) (r := 5 * (5 / 365)) (q := later_q); try reflexivity.
  - cbn [prices stock option_on van_underlying van_expiry later_start sp_context prefetch_context ctx_spot_date ctx_forward_curve dt_date cache pf_data md_spot_date pf_forwards instrument_id last].
    unfold find_data. cbn [get String.eqb Ascii.eqb Bool.eqb bind mapM dt_date].
    rewrite !five_at_date by lia. reflexivity.
  - apply stock_time.
  - change (ddf_leb (mkDDF 10%Z 0) (mkDDF 5%Z 0)) with false. apply later_variance.
  - rnum. rewrite Rminus_0_r. pose proof (exp_pos (5 * (15 / 365) - 5 * (5 / 365))) as EP. assert (0 <= x * exp (5 * (15 / 365) - 5 * (5 / 365))) by (apply Rmult_le_pos; lra).
    destruct (Rltb_spec (x * exp (5 * (15 / 365) - 5 * (5 / 365))) 0); [lra|reflexivity].
  - rnum. pose proof later_q_positive. destruct (Rltb_spec later_q 0); [lra|reflexivity].
Qed.

Lemma start_call_theta nan N s dyn : 0 < s -> exists sp value price theta,
  self_pricer_new nan [(1, start_call)] (flat_market s) = Ok sp /\ self_price nan N sp = Ok value /\
  generate nan (self_ops nan N) (TimeBumpedGenerator (day_five dyn) []) sp saved_prefetch_new value = (Ok (TimeBumpedReport price theta []), sp, saved_prefetch_new).
Proof.
  intros S. destruct (later_start_price nan N (spot_five dyn s)) as (y & P).
  { unfold spot_five. pose proof (exp_pos (5 * (5 / 365))). destruct dyn; [lra|]. apply Rmult_le_pos; lra. }
  destruct (start_call_price nan N s (Rlt_le _ _ S)) as (value & PV). exists (one_start_call nan s), value, y, (y - value).
  split; [apply one_start_call_new|]. split; [exact PV|]. cbn [generate op_bump_time op_price self_ops]. rewrite start_moves_on, P. reflexivity.
Qed.
