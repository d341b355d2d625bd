(** Portfolios and their parts: concrete cases and a counterexample. *)
From Coq Require Import ZArith List String Bool Lia Reals Lra.
From Verif Require Import Prelude Num M_Dates M_Search M_Calendar M_Interp M_Curves M_Fixings M_Forward M_Vol M_Black76 M_Instruments M_Deps M_Risk M_Reports
  S_Data S_Vol S_Instruments S_Deps S_Risk S_Reports S_Portfolio L_Num L_Fixings L_Vol L_VolTime L_VolCases L_Deps L_Risk L_Prefetch L_PrefetchTop L_InstrumentCases L_DepsPricing
  L_RiskCases L_Reports L_SelfPricer L_SelfReports L_ReportCases L_Portfolio L_PortfolioPrices L_PortfolioRisk L_PortfolioReports.
Import ListNotations.
Open Scope list_scope.
Open Scope R_scope.

(** A call and a short put, apart and together. *)
Definition call_part : holdings R := [(1, call_100)].
Definition put_part : holdings R := [(-1, put_100)].
Definition put_only : list (request R) := [WantSpot put_100].

Lemma put_new nan s : self_pricer_new nan put_part (flat_market s) = Ok (mkSelfPricer put_part (cache nan s put_only rate)).
Proof.
  unfold self_pricer_new. change (portfolio_dependencies put_part (md_spot_date (flat_market s))) with (@Ok (collector R) (deps_of put_only)).
  cbn [bind]. change (flat_market s) with (pf_data (cache nan s put_only rate)). rewrite (cached nan s rate put_only (start_zero nan)); reflexivity.
Qed.

Lemma together_asked s : asks_of (flat_market s) (call_part ++ put_part) twice_asked.
Proof. exact two_asked. Qed.

Lemma no_divs_clear s a : dividends_clear (flat_market s) (a : list (ask R)).
Proof.
  intros u d st _ G. cbn in G. destruct (String.eqb_spec "BP" (instrument_id u)) as [E|E].
  - destruct (String.eqb (instrument_id u) "BP"); [|discriminate]. injection G as <-. split; [exact Logic.I|]. left. intros x [].
  - destruct (String.eqb_spec (instrument_id u) "BP"); [congruence|discriminate].
Qed.

(** Any portfolio of the two has a report. *)
Lemma some_report nan cdf s h l rs u : 0 < s -> 0 < h < 1 ->
  col_forward_curves (deps_of rs) = [("BP"%string, (stock, 15%Z))] -> instrument_by_id "BP" (deps_of rs) = Some stock ->
  keys (col_instruments (deps_of rs)) = ["BP"%string] ->
  (forall x, 0 <= x -> exists v, self_price nan cdf (mkSelfPricer l (cache nan x rs rate)) = Ok v) ->
  exists r p' sv', generate nan (self_ops nan cdf) (DeltaGammaGenerator h) (mkSelfPricer l (cache nan s rs rate)) saved_prefetch_new u = (Ok r, p', sv').
Proof.
  intros S H FC IB KS PR. set (b := fun x => mkSelfPricer l (cache nan x rs rate)).
  assert (BB : forall x f save, save = None \/ save = Some saved_prefetch_new -> exists save', self_bump nan (BSpot "BP" f) (b x) save = (Ok true, b (apply_spot f x), save')).
  { intros x f save [-> | ->]; unfold self_bump, b; cbn [sp_context sp_instruments].
    - rewrite (spot_bumped_unsaved nan x rs f FC IB). eauto.
    - unfold saved_prefetch_new. rewrite (spot_bumped nan x rs f [] [] saved_data_new FC IB). eauto. }
  change (mkSelfPricer l (cache nan s rs rate)) with (b s). cbn [generate op_dependencies self_ops].
  change (pf_deps (sp_context (b s))) with (deps_of rs). rewrite KS. cbn [delta_loop].
  change (ctx_spot (op_context (self_ops nan cdf) (b s)) "BP") with (@Ok R s). cbv iota beta.
  unfold up_and_down, bumped_price. cbn [op_bump op_price self_ops].
  destruct (BB s (RelativeSpot h) (Some saved_prefetch_new) (or_intror eq_refl)) as (s1 & B1).
  set (x1 := apply_spot (RelativeSpot h) s) in *. rnum.
  match goal with |- context [BSpot "BP" (RelativeSpot ?d)] => match d with context [_ / _] =>
    destruct (BB x1 (RelativeSpot d) None (or_introl eq_refl)) as (s2 & B2) end end.
  rewrite B1.
  assert (X1 : 0 <= x1) by (unfold x1; cbn [apply_spot]; rnum; apply Rmult_le_pos; lra).
  destruct (PR x1 X1) as (v1 & V1). change (self_price nan cdf (b x1) = Ok v1) in V1. rewrite V1. rewrite B2.
  match type of B2 with _ = (_, b ?x, _) => assert (X2 : 0 <= x); [|destruct (PR x X2) as (v2 & V2); change (self_price nan cdf (b x) = Ok v2) in V2] end.
  { unfold x1. cbn [apply_spot]. rnum. replace (s * (1 + h) * (1 + ((1 - h) / (1 + h) - 1))) with (s * (1 - h)) by (field; lra). apply Rmult_le_pos; lra. }
  rewrite V2.
  destruct (wb_restore _ _ (self_well_behaved nan cdf) (BSpot "BP" (RelativeSpot h)) (BSpot "BP" (RelativeSpot ((1 - h) / (1 + h) - 1)))
    (b s) true _ s1 true _ s2 (spots_same _ _ _) B1 B2) as (_ & sv & -> & RS & CL).
  cbn [op_restore self_ops] in RS. cbn [op_restore self_ops]. rewrite RS. cbn [delta_loop rmap]. do 3 eexists. reflexivity.
Qed.

Lemma parts_priced nan cdf s rs l : 0 <= s -> incl (map snd l) [call_100; put_100] -> exists v, self_price nan cdf (mkSelfPricer l (cache nan s rs rate)) = Ok v.
Proof.
  intros S I. assert (P : exists v, adds_up (priced_at nan cdf (mkSelfPricer l (cache nan s rs rate))) l v).
  { enough (K : forall k, incl (map snd k) [call_100; put_100] -> exists v, adds_up (priced_at nan cdf (mkSelfPricer l (cache nan s rs rate))) k v) by auto.
    intros k. induction k as [|[w i] k IH]; intros J; [eexists; constructor|]. destruct IH as (v & V); [intros z Z; apply J; now right|].
    destruct (J i ltac:(now left)) as [<-|[<-|[]]].
    - eexists. econstructor; [|exact V]. exact (cached_price nan cdf s rs Call S).
    - eexists. econstructor; [|exact V]. exact (cached_price nan cdf s rs Put S). }
  destruct P as (v & V). exists v. now apply self_price_sum.
Qed.

Lemma reports_case : forall nan cdf s h, 0 < s -> 0 < h < 1 -> exists sp1 sp2 sp u1 u2 u r1 r2 r q1 q2 q v1 v2 v,
  self_pricer_new nan call_part (flat_market s) = Ok sp1 /\ self_pricer_new nan put_part (flat_market s) = Ok sp2 /\
  self_pricer_new nan (call_part ++ put_part) (flat_market s) = Ok sp /\ asks_of (flat_market s) (call_part ++ put_part) twice_asked /\
  one_per_id twice_asked /\ dividends_clear (flat_market s) twice_asked /\
  self_price nan cdf sp1 = Ok u1 /\ self_price nan cdf sp2 = Ok u2 /\ self_price nan cdf sp = Ok u /\
  generate nan (self_ops nan cdf) (DeltaGammaGenerator h) sp1 saved_prefetch_new u1 = (Ok r1, q1, v1) /\
  generate nan (self_ops nan cdf) (DeltaGammaGenerator h) sp2 saved_prefetch_new u2 = (Ok r2, q2, v2) /\
  generate nan (self_ops nan cdf) (DeltaGammaGenerator h) sp saved_prefetch_new u = (Ok r, q, v).
Proof.
  intros nan cdf s h S H. assert (S' : 0 <= s) by lra.
  destruct (parts_priced nan cdf s call_only call_part S') as (u1 & U1); [intros z [<-|[]]; now left|].
  destruct (parts_priced nan cdf s put_only put_part S') as (u2 & U2); [intros z [<-|[]]; right; now left|].
  destruct (parts_priced nan cdf s call_and_put (call_part ++ put_part) S') as (u & U); [intros z [<-|[<-|[]]]; cbn; auto|].
  destruct (some_report nan cdf s h call_part call_only u1 S H eq_refl eq_refl eq_refl) as (r1 & q1 & v1 & G1).
  { intros x X. apply parts_priced; [exact X|]. intros z [<-|[]]; now left. }
  destruct (some_report nan cdf s h put_part put_only u2 S H eq_refl eq_refl eq_refl) as (r2 & q2 & v2 & G2).
  { intros x X. apply parts_priced; [exact X|]. intros z [<-|[]]; right; now left. }
  destruct (some_report nan cdf s h (call_part ++ put_part) call_and_put u S H eq_refl eq_refl eq_refl) as (r & q & v & G).
  { intros x X. apply parts_priced; [exact X|]. intros z [<-|[<-|[]]]; cbn; auto. }
  exists (mkSelfPricer call_part (cache nan s call_only rate)), (mkSelfPricer put_part (cache nan s put_only rate)), (mkSelfPricer (call_part ++ put_part) (cache nan s call_and_put rate)).
  exists u1, u2, u, r1, r2, r, q1, q2, q, v1, v2, v. split; [exact (one_call_new nan s)|]. split; [exact (put_new nan s)|]. split; [exact (holding_new nan s)|].
  split; [apply together_asked|]. split; [exact one_stock_twice|]. split; [apply no_divs_clear|]. auto 10.
Qed.

(** A dividend of 2 going ex today, and a tenth of the forward going ex in twenty days. *)
Definition ex_today : dividend R := mkDiv 2 0 0%Z 5%Z.
Definition ex_in_20 : dividend R := mkDiv 0 (/ 10) 20%Z 25%Z.
Definition stream : div_stream R := mkStream [ex_today; ex_in_20] zero 0%Z.
Lemma stream_is_new : stream_new [ex_today; ex_in_20] zero = stream.
Proof.
  unfold stream_new, stream. f_equal. cbn [fold_left cash ex_today ex_in_20 ex_date]. rnum.
  destruct (Reqb_spec 2 0); [lra|]. destruct (Reqb_spec 0 0); [reflexivity|lra].
Qed.
Definition paying : market_data R :=
  mkMarket 0%Z [("BP"%string, 100)] [("BP-CR"%string, zero); ("OPT-CR"%string, zero)] [("BP"%string, zero)] [("BP"%string, stream)] [("BP"%string, flat_vol)].

Lemma zero_log nan d : log_discount_with_borrow nan zero zero d = Ok 0.
Proof. unfold log_discount_with_borrow, zero. rewrite zero_rt. cbn [bind]. rnum. f_equal. ring. Qed.
Lemma zero_discount nan d : discount_with_borrow nan zero zero 0 d = Ok 1.
Proof. unfold discount_with_borrow. rewrite zero_log. cbn [bind]. rnum. f_equal. rewrite Rminus_0_r. apply exp_0. Qed.

Lemma add_today nan x s : boot_add nan zero zero 0 x s ex_today =
  Ok (mkBS (bs_prev s) (bs_und s + 2) (bs_disc s + 2 * 1) (bs_cash s + 2 * 1) (bs_prev_disc s) (bs_acc s)).
Proof.
  unfold boot_add. cbn [ex_today pay_date cash relative]. rewrite zero_discount. cbn [bind]. rnum. destruct (Reqb_spec 0 0) as [_|]; [|lra]. reflexivity.
Qed.
Lemma add_in_20 nan x s : boot_add nan zero zero 0 x s ex_in_20 =
  Ok (mkBS (bs_prev s) (bs_und s + 0 + / 10 * ((x - bs_prev_disc s) * (1 / 1))) (bs_disc s + 0 * 1 + / 10 * ((x - bs_prev_disc s) * (1 / 1)) * 1) (bs_cash s + 0 * 1) (bs_prev_disc s) (bs_acc s)).
Proof.
  unfold boot_add. cbn [ex_in_20 pay_date ex_date cash relative]. rewrite !zero_discount. cbn [bind]. rnum. destruct (Reqb_spec (/ 10) 0) as [|_]; [lra|].
  cbn [negb bind]. reflexivity.
Qed.

Definition flat_spot : R := 100 * 1.
Definition short : forward R := EquityForward NullRule zero zero zero (mkBoot 0%Z 15%Z []) flat_spot 0.
Definition acc_0 (nan : R) : accumulation R := mkAcc 0%Z (0 + 2) (0 + 2 * 1) (0 + 2 * 1) nan.
Definition acc_20 (nan : R) : accumulation R :=
  mkAcc 20%Z (0 + 2 + 0 + / 10 * ((flat_spot - (0 + 2 * 1)) * (1 / 1))) (0 + 2 * 1 + 0 * 1 + / 10 * ((flat_spot - (0 + 2 * 1)) * (1 / 1)) * 1) (0 + 2 * 1 + 0 * 1) nan.
Definition long (nan : R) : forward R := EquityForward NullRule zero zero zero (mkBoot 0%Z 30%Z (fill_remaining [acc_0 nan; acc_20 nan])) flat_spot 0.

Lemma short_boot nan : bootstrap_new nan stream zero zero flat_spot 0%Z 15%Z = Ok (mkBoot 0%Z 15%Z []).
Proof.
  unfold bootstrap_new. change (rev (dividends stream)) with [ex_in_20; ex_today]. change (negb (is_zero (div_yield stream)) && _)%bool with false. cbv iota.
  rewrite zero_log. cbn [bind]. change (dividends stream) with [ex_today; ex_in_20]. change (Z.max 15 (last_cash_ex_date stream)) with 15%Z.
  cbn [boot_loop]. change (ex_date ex_today) with 0%Z. change (ex_date ex_in_20) with 20%Z. cbn [bs_prev]. change (0 <? 0)%Z with false. change (15 <? 0)%Z with false. cbv iota.
  rewrite add_today. cbn [bind bs_prev]. change (20 <? 0)%Z with false. change (15 <? 20)%Z with true. cbv iota. cbn [bind bs_prev bs_acc]. reflexivity.
Qed.
Lemma long_boot nan : bootstrap_new nan stream zero zero flat_spot 0%Z 30%Z = Ok (mkBoot 0%Z 30%Z (fill_remaining [acc_0 nan; acc_20 nan])).
Proof.
  unfold bootstrap_new. change (rev (dividends stream)) with [ex_in_20; ex_today]. change (negb (is_zero (div_yield stream)) && _)%bool with false. cbv iota.
  rewrite zero_log. cbn [bind]. change (dividends stream) with [ex_today; ex_in_20]. change (Z.max 30 (last_cash_ex_date stream)) with 30%Z.
  cbn [boot_loop]. change (ex_date ex_today) with 0%Z. change (ex_date ex_in_20) with 20%Z. cbn [bs_prev]. change (0 <? 0)%Z with false. change (30 <? 0)%Z with false. cbv iota.
  rewrite add_today. cbn [bind bs_prev bs_und bs_disc bs_cash bs_prev_disc bs_acc]. change (20 <? 0)%Z with false. change (30 <? 20)%Z with false. change (0 <? 20)%Z with true. cbv iota.
  rewrite add_in_20. cbn [bind bs_prev bs_und bs_disc bs_cash bs_prev_disc bs_acc]. change (0 <? 20)%Z with true. cbv iota. reflexivity.
Qed.

Lemma curve_of nan h b : bootstrap_new nan stream zero zero flat_spot 0%Z h = Ok b ->
  equity_forward_new nan 0%Z 100 NullRule zero zero stream h = Ok (EquityForward NullRule zero zero zero b flat_spot 0).
Proof. intros E. unfold equity_forward_new. rewrite zero_log. cbn [bind apply_rule]. rewrite zero_discount. cbn [bind]. change (@nmul R _ 100 1) with flat_spot. rewrite E. reflexivity. Qed.

Lemma curve_at nan b d x : discounted_sum_from_base b d = Ok x -> forward_at nan (EquityForward NullRule zero zero zero b flat_spot 0) d = Ok (100 - x).
Proof.
  intros E. cbn [forward_at]. rewrite E. cbn [bind apply_rule]. rewrite zero_log. cbn [bind]. unfold zero. rewrite zero_rt. cbn [bind]. rnum. f_equal.
  replace (0 + 0 - 0) with 0 by ring. rewrite exp_0. unfold flat_spot. ring.
Qed.
Lemma short_at nan : forward_at nan short 15%Z = Ok (100 - 0).
Proof. apply curve_at. reflexivity. Qed.
Lemma long_at nan : forward_at nan (long nan) 15%Z = Ok (100 - (0 + 2 * 1)).
Proof. apply curve_at. reflexivity. Qed.
Lemma long_later nan : exists x, forward_at nan (long nan) 30%Z = Ok x /\ 0 <= x.
Proof.
  exists (100 - (0 + 2 * 1 + 0 * 1 + / 10 * ((flat_spot - (0 + 2 * 1)) * (1 / 1)) * 1)). split; [apply curve_at; reflexivity|]. unfold flat_spot. lra.
Qed.

(** C78: how far out the curve goes changes its start. *)
Lemma forward_depends nan : exists f f', equity_forward_new nan 0%Z 100 NullRule zero zero (stream_new [ex_today; ex_in_20] zero) 15%Z = Ok f /\
  equity_forward_new nan 0%Z 100 NullRule zero zero (stream_new [ex_today; ex_in_20] zero) 30%Z = Ok f' /\
  forward_at nan f 15%Z = Ok 100 /\ forward_at nan f' 15%Z = Ok 98.
Proof.
  exists short, (long nan). rewrite stream_is_new. split; [apply curve_of, short_boot|]. split; [apply curve_of, long_boot|].
  split; [rewrite short_at|rewrite long_at]; f_equal; ring.
Qed.

(** A call less a put in 15 days, and a call in 30. *)
Definition call_30 : instrument R := ISpotEuropean (option_on stock 30%Z Call CashSettled) 100.
Definition later_part : holdings R := [(1, call_30)].
Definition later_only : list (request R) := [WantSpot call_30].
Definition all_three : list (request R) := [WantSpot call_100; WantSpot put_100; WantSpot call_30].
Definition paying_cache (f : forward R) (rs : list (request R)) : prefetch R := mkPrefetch paying (deps_of rs) [("BP"%string, f)] [("BP"%string, flat_vol)].

Lemma paying_cached nan rs h b : col_forward_curves (deps_of rs) = [("BP"%string, (stock, h))] -> vol_surface_hwm stock (deps_of rs) = Some h ->
  bootstrap_new nan stream zero zero flat_spot 0%Z h = Ok b -> 
  prefetch_new nan paying (deps_of rs) = Ok (paying_cache (EquityForward NullRule zero zero zero b flat_spot 0) rs).
Proof.
  intros F V E. unfold prefetch_new, walk_dependencies. rewrite F. cbn [walk_loop].
  assert (Q : md_forward_curve nan paying stock h = Ok (EquityForward NullRule zero zero zero b flat_spot 0)) by exact (curve_of nan h b E).
  rewrite Q. rewrite V. change (md_vol_surface nan _ stock h _) with (@Ok (vol_surface R) flat_vol). reflexivity.
Qed.

Definition later_asked : list (ask R) := option_asks (option_on stock 30%Z Call CashSettled) [Discount "BP-CR" 0%Z].
Definition three_asked : list (ask R) := option_asked ++ option_asked ++ later_asked ++ [].
Lemma three_come : asks_of paying (call_less_put ++ later_part) three_asked.
Proof.
  change (all_come_to 0%Z [WantSpot call_100; WantSpot put_100; WantSpot call_30] three_asked).
  apply (act_cons 0%Z (WantSpot call_100) _ option_asked (option_asked ++ later_asked ++ [])).
  - rewrite <- (app_nil_r option_asked). apply (ct_spot 0%Z call_100). repeat constructor.
  - apply (act_cons 0%Z (WantSpot put_100) _ option_asked (later_asked ++ [])).
    + rewrite <- (app_nil_r option_asked). apply (ct_spot 0%Z put_100).
      apply (dec_spot 0%Z (option_on stock 15%Z Put CashSettled) 100 [Discount "BP-CR" 0%Z]). repeat constructor.
    + apply (act_cons 0%Z (WantSpot call_30) [] later_asked []); [|constructor]. rewrite <- (app_nil_r later_asked). apply (ct_spot 0%Z call_30). repeat constructor.
Qed.
Lemma three_one : one_per_id three_asked.
Proof.
  assert (K : forall u, named u three_asked -> u = stock).
  { intros u [I|[(d & I)|(d & I)]]; unfold three_asked in I; rewrite !in_app_iff in I; cbn in I; intuition congruence. }
  intros u u' A B _. rewrite (K u A), (K u' B). reflexivity.
Qed.

Lemma paying_new nan : self_pricer_new nan call_less_put paying = Ok (mkSelfPricer call_less_put (paying_cache short call_and_put)) /\
  self_pricer_new nan later_part paying = Ok (mkSelfPricer later_part (paying_cache (long nan) later_only)) /\
  self_pricer_new nan (call_less_put ++ later_part) paying = Ok (mkSelfPricer (call_less_put ++ later_part) (paying_cache (long nan) all_three)).
Proof.
  unfold self_pricer_new. split; [|split].
  - change (portfolio_dependencies call_less_put (md_spot_date paying)) with (@Ok (collector R) (deps_of call_and_put)). cbn [bind].
    rewrite (paying_cached nan call_and_put 15%Z (mkBoot 0%Z 15%Z []) eq_refl eq_refl (short_boot nan)). reflexivity.
  - change (portfolio_dependencies later_part (md_spot_date paying)) with (@Ok (collector R) (deps_of later_only)). cbn [bind].
    rewrite (paying_cached nan later_only 30%Z _ eq_refl eq_refl (long_boot nan)). reflexivity.
  - change (portfolio_dependencies (call_less_put ++ later_part) (md_spot_date paying)) with (@Ok (collector R) (deps_of all_three)). cbn [bind].
    rewrite (paying_cached nan all_three 30%Z _ eq_refl eq_refl (long_boot nan)). reflexivity.
Qed.

Definition var_to (d : Z) : R := (IZR d + 0) / 365 * (/ 5) ^ 2.
Lemma var_flat nan k d : (0 < d)%Z -> variance nan flat_vol (mkDDF d 0) k = Ok (var_to d) /\ 0 <= var_to d.
Proof.
  intros D. apply IZR_lt in D. unfold var_to. split; [|apply Rmult_le_pos; [|lra]; apply Rmult_le_pos; lra].
  apply variance_real. unfold volatility_is, flat_vol. cbn [volatilities map]. rewrite every_years by (cbn; apply lt_IZR in D; lia). cbn [bind].
  do 2 f_equal. cbn [ddf_date ddf_frac]. rewrite Z.sub_0_r. field.
Qed.

Lemma paying_price nan cdf f rs d pc F : (0 < d)%Z -> forward_at nan f d = Ok F -> 0 <= F ->
  price nan cdf (prefetch_context nan (paying_cache f rs)) (ISpotEuropean (option_on stock d pc CashSettled) 100) (mkDT 0%Z Open_) =
  Ok (match pc with
      | Call => call_price cdf (exp (- 0) * exp 0) (F - 0) (100 + 0) (sqrt (var_to d))
      | Put => put_price cdf (exp (- 0) * exp 0) (F - 0) (100 + 0) (sqrt (var_to d))
      end).
Proof.
  intros D FA P. destruct (var_flat nan 100 d D) as (V & X).
  apply (option_price nan cdf (prefetch_context nan (paying_cache f rs)) (option_on stock d pc CashSettled)) with
    (tm := mkDDF 0%Z 0) (vol := flat_vol) (yc := zero) (st := 0%Z); try reflexivity; try assumption; try apply zero_rt.
  - unfold first_price. cbn [prices stock option_on van_underlying van_expiry prefetch_context ctx_spot_date ctx_forward_curve dt_date paying_cache pf_data paying md_spot_date pf_forwards instrument_id].
    destruct (Z.eqb_spec d 0); [lia|]. unfold find_data. cbn [get String.eqb Ascii.eqb Bool.eqb bind mapM dt_date]. rewrite FA. reflexivity.
  - lra.
  - cbn. unfold dt_leb. cbn. destruct d; try lia. reflexivity.
  - apply stock_time.
  - apply leb_same.
  - right. reflexivity.
Qed.

(** C78: the price of the whole is not the sum of the prices of the parts. *)
Lemma prices_do_not_add : forall nan cdf, (forall x, cdf (- x) = 1 - cdf x) -> exists (l1 l2 : holdings R) md a sp1 sp2 sp x1 x2,
  self_pricer_new nan l1 md = Ok sp1 /\ self_pricer_new nan l2 md = Ok sp2 /\ self_pricer_new nan (l1 ++ l2) md = Ok sp /\
  asks_of md (l1 ++ l2) a /\ one_per_id a /\
  self_price nan cdf sp1 = Ok x1 /\ self_price nan cdf sp2 = Ok x2 /\ self_price nan cdf sp = Ok (x1 + x2 - 2).
Proof.
  intros nan cdf sym. destruct (paying_new nan) as (N1 & N2 & NW). destruct (long_later nan) as (y & Y & P).
  assert (D15 : (0 < 15)%Z) by lia. assert (D30 : (0 < 30)%Z) by lia.
  pose proof (paying_price nan cdf (long nan) later_only 30%Z Call y D30 Y P) as L1. pose proof (paying_price nan cdf (long nan) all_three 30%Z Call y D30 Y P) as L2.
  cbv iota in L1, L2. set (X30 := call_price cdf (exp (- 0) * exp 0) (y - 0) (100 + 0) (sqrt (var_to 30))) in *.
  assert (Par : forall f rs F, forward_at nan f 15%Z = Ok F -> 0 <= F -> exists c p,
    price nan cdf (prefetch_context nan (paying_cache f rs)) call_100 (mkDT 0%Z Open_) = Ok c /\
    price nan cdf (prefetch_context nan (paying_cache f rs)) put_100 (mkDT 0%Z Open_) = Ok p /\ c - p = F - 100).
  { intros f rs F FA FP. do 2 eexists. split; [exact (paying_price nan cdf f rs 15%Z Call F D15 FA FP)|]. split; [exact (paying_price nan cdf f rs 15%Z Put F D15 FA FP)|].
    cbv iota. rewrite (L_Black76.parity cdf (exp (- 0) * exp 0) (F - 0) (100 + 0) (sqrt (var_to 15)) sym). rewrite Ropp_0, exp_0. ring. }
  destruct (Par short call_and_put _ (short_at nan) ltac:(lra)) as (c & p & C & PP & E). destruct (Par (long nan) all_three _ (long_at nan) ltac:(lra)) as (c' & p' & C' & PP' & E').
  exists call_less_put, later_part, paying, three_asked, (mkSelfPricer call_less_put (paying_cache short call_and_put)), (mkSelfPricer later_part (paying_cache (long nan) later_only)),
    (mkSelfPricer (call_less_put ++ later_part) (paying_cache (long nan) all_three)), (1 * c + (-1 * p + 0)), (1 * X30 + 0).
  split; [exact N1|]. split; [exact N2|]. split; [exact NW|]. split; [exact three_come|]. split; [exact three_one|].
  split; [apply self_price_sum; repeat constructor; assumption|]. split; [apply self_price_sum; repeat constructor; assumption|].
    apply self_price_sum. replace (1 * c + (-1 * p + 0) + (1 * X30 + 0) - 2) with (1 * c' + (-1 * p' + (1 * X30 + 0))) by lra. repeat constructor; assumption.
Qed.

(** C78: a share on its own has no report, and has one beside an option on it. *)
Definition share_and_call : list (request R) := [WantSpot stock; WantSpot call_100].
Lemma share_priced nan cdf s rs : price nan cdf (prefetch_context nan (cache nan s rs rate)) stock (mkDT 0%Z Open_) = Ok s.
Proof. reflexivity. Qed.
Lemma report_needs_others : forall nan cdf s h, 0 < s -> 0 < h < 1 -> exists (l1 l2 : holdings R) md sp1 sp u1 u m r q1 q v1 v,
  self_pricer_new nan l1 md = Ok sp1 /\ self_pricer_new nan (l1 ++ l2) md = Ok sp /\ self_price nan cdf sp1 = Ok u1 /\ self_price nan cdf sp = Ok u /\
  generate nan (self_ops nan cdf) (DeltaGammaGenerator h) sp1 saved_prefetch_new u1 = (Err m, q1, v1) /\
  generate nan (self_ops nan cdf) (DeltaGammaGenerator h) sp saved_prefetch_new u = (Ok r, q, v).
Proof.
  intros nan cdf s h S H. destruct (equity_left_bumped nan cdf s h s) as (sp1 & m & q1 & v1 & N1 & G1 & _).
  assert (PR : forall x, 0 <= x -> exists v, self_price nan cdf (mkSelfPricer [(1, stock); (1, call_100)] (cache nan x share_and_call rate)) = Ok v).
  { intros x X. eexists. apply self_price_sum. cbn [sp_instruments]. econstructor; [exact (share_priced nan cdf x share_and_call)|].
    econstructor; [exact (cached_price nan cdf x share_and_call Call X)|]. constructor. }
  destruct (PR s ltac:(lra)) as (u & U).
  destruct (some_report nan cdf s h [(1, stock); (1, call_100)] share_and_call u S H eq_refl eq_refl eq_refl PR) as (r & q & v & G).
  exists [(1, stock)], [(1, call_100)], (flat_market s), sp1, (mkSelfPricer [(1, stock); (1, call_100)] (cache nan s share_and_call rate)), s, u, m, r, q1, q, v1, v.
  split; [exact N1|]. split.
  { unfold self_pricer_new. change (portfolio_dependencies ([(1, stock)] ++ [(1, call_100)]) (md_spot_date (flat_market s))) with (@Ok (collector R) (deps_of share_and_call)).
    cbn [bind]. change (flat_market s) with (pf_data (cache nan s share_and_call rate)). rewrite (cached nan s rate share_and_call (start_zero nan)); reflexivity. }
  split; [|auto]. injection N1 as <-. cbn. rnum. f_equal. ring.
Qed.

Lemma clear_case nan : base_clear 0%Z stream 20%Z /\ ~ base_clear 0%Z stream 19%Z /\ (exists f, equity_forward_new nan 0%Z 100 NullRule zero zero stream 30%Z = Ok f).
Proof.
  split; [|split].
  - split; [cbn; intuition (subst; cbn; lia)|]. right. exists ex_in_20. split; [right; now left|]. cbn. lia.
  - intros (_ & [C|(d & [<-|[<-|[]]] & C)]); [exact (C ex_today (or_introl eq_refl) eq_refl)| |]; cbn in C; lia.
  - eexists. apply curve_of, long_boot.
Qed.
