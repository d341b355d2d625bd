(** A worked vega and volga of one call. *)
From Coq Require Import ZArith List String Bool Lia Reals Lra.
From Verif Require Import Prelude Num L_Num M_Dates M_Calendar M_Curves M_Forward M_Vol M_Black76 M_Instruments M_Deps M_Risk M_Reports
  S_Math S_Vol S_Instruments S_Deps S_Risk S_Reports S_Greeks L_Fixings L_Vol L_VolTime L_VolCases L_Normal L_Black76 L_Deps L_Risk L_Prefetch L_PrefetchTop L_InstrumentCases L_DepsPricing
  L_RiskCases L_Reports L_SelfPricer L_SelfReports L_ReportCases L_SolverCases L_BlackGreeks L_Greeks L_GreeksCases L_Vega.
Import ListNotations.
Open Scope list_scope.
Open Scope R_scope.

Definition call_off (nan s : R) (S : vol_surface R) : self_pricer R :=
  mkSelfPricer [(1, call_100)]
    (mkPrefetch (mkMarket 0%Z [("BP"%string, s)] [("BP-CR"%string, rate); ("OPT-CR"%string, zero)] [("BP"%string, zero)]
      [("BP"%string, stream_new [] zero)] [("BP"%string, S)]) (deps_of call_only) [("BP"%string, carried s rate 15%Z)] [("BP"%string, S)]).

Lemma call_off_bumped nan s S f save : vs_base (apply_vol f S) = mkDDF 0%Z 0 -> save = None \/ save = Some saved_prefetch_new -> exists save',
  self_bump nan (BVol "BP" f) (call_off nan s S) save = (Ok true, call_off nan s (apply_vol f S), save').
Proof.
  intros B O. assert (M : forall d, md_vols d = [("BP"%string, apply_vol f S)] -> md_spot_date d = 0%Z -> md_vol_surface nan d stock 15%Z (Ok (carried s rate 15%Z)) = Ok (apply_vol f S)).
  { intros d V D. unfold md_vol_surface. rewrite V, D. unfold find_data. cbn [instrument_id stock get String.eqb Ascii.eqb Bool.eqb bind]. unfold time_modify. rewrite B. reflexivity. }
  unfold self_bump, call_off. cbn [sp_context sp_instruments]. unfold prefetch_bump.
  destruct O as [-> | ->]; [|unfold saved_prefetch_new; cbv iota beta].
  all: rewrite (bump_dispatch nan (BVol "BP" f) _ _ _ _ (VolFor "BP") eq_refl); unfold refetch_for, known; cbv iota.
  all: match goal with |- context [look (pf_data ?p) (VolFor "BP")] => change (look (pf_data p) (VolFor "BP")) with (Some (ASurface S)) end; cbv iota.
  - match goal with |- context [mkPrefetch ?d _ _ _] =>
      use_refetch (refetch_flat nan d call_only (carried s rate 15%Z) None None S (apply_vol f S) (M d eq_refl eq_refl) eq_refl eq_refl) end.
    eexists. reflexivity.
  - match goal with |- context [mkPrefetch ?d _ _ _] =>
      use_refetch (refetch_flat nan d call_only (carried s rate 15%Z) (Some []) (Some []) S (apply_vol f S) (M d eq_refl eq_refl) eq_refl eq_refl) end.
    eexists. reflexivity.
Qed.

Lemma call_off_price nan cdf s S x : 0 <= s -> vs_base S = mkDDF 0%Z 0 -> displacement nan S 15%Z = Ok 0 ->
  variance nan S (mkDDF 15%Z 0) 100 = Ok x -> 0 <= x ->
  self_price nan cdf (call_off nan s S) = Ok (call_price cdf (exp (- growth) * exp 0) (s * exp growth - 0) (100 + 0) (sqrt x)).
Proof.
  intros P B DI V X. apply self_price_sum. cbn [sp_instruments call_off].
  match goal with |- context [call_price cdf ?a ?b ?c ?d] => replace (call_price cdf a b c d) with (1 * call_price cdf a b c d + 0) by ring end.
  constructor; [|constructor]. unfold priced_at.
  apply (option_price nan cdf (prefetch_context nan (sp_context (call_off nan s S))) (option_on stock 15%Z Call CashSettled)) with
    (tm := mkDDF 0%Z 0) (vol := S) (yc := rate) (st := 0%Z); try reflexivity; try assumption.
  - unfold first_price. cbn [call_off sp_context prices stock option_on van_underlying van_expiry prefetch_context ctx_spot_date ctx_forward_curve dt_date pf_data md_spot_date pf_forwards instrument_id].
    change ((15 =? 0)%Z) with false. unfold find_data. cbn [get String.eqb Ascii.eqb Bool.eqb bind mapM].
    pose proof (carried_at nan s rate 15%Z 15%Z growth (Z.le_refl _) (rate_rt nan 15%Z)) as FA. cbn [dt_date]. rewrite FA. reflexivity.
  - pose proof (exp_pos growth). rewrite Rminus_0_r. apply Rmult_le_pos; lra.
  - apply start_zero.
  - apply stock_time.
  - apply leb_same.
  - rewrite B. right. reflexivity.
Qed.

Lemma flat_vol_is nan k : volatility_is nan flat_vol (mkDDF 15%Z 0) k (/ 5) (15 / 365).
Proof.
  unfold volatility_is, flat_vol. cbn [volatilities map]. rewrite every_years by (cbn; lia). cbn [bind]. do 2 f_equal.
  cbn [ddf_date ddf_frac]. replace (IZR (15 - 0)) with 15 by reflexivity. field.
Qed.

Lemma call_vega_report nan cdf s b u : 0 < s -> exists r p' sv',
  generate nan (self_ops nan cdf) (VegaVolgaGenerator (FlatAdditive b)) (one_call nan s) saved_prefetch_new u = (Ok r, p', sv').
Proof.
  intros S. cbn [generate op_dependencies self_ops].
  change (keys (col_instruments (pf_deps (sp_context (one_call nan s))))) with ["BP"%string]. cbn [vega_loop].
  change (one_call nan s) with (call_off nan s flat_vol).
  unfold up_and_down, bumped_price. cbn [op_bump op_price self_ops].
  destruct (call_off_bumped nan s flat_vol (FlatAdditive b) (Some saved_prefetch_new) eq_refl (or_intror eq_refl)) as (s1 & B1).
  rewrite B1. cbn [apply_vol] in *.
  pose proof (parallel nan _ _ _ _ _ b (flat_vol_is nan 100)) as V1.
  rewrite (call_off_price nan cdf s (ParallelBumpVol flat_vol b) _ (Rlt_le _ _ S) eq_refl eq_refl (variance_real nan _ _ _ _ _ V1)
    ltac:(apply Rmult_le_pos; [lra|apply pow2_ge_0])).
  set (o := vol_opposite nan (FlatAdditive b)). assert (O : exists y, o = FlatAdditive y) by (eexists; reflexivity). destruct O as (y & ->).
  destruct (call_off_bumped nan s (ParallelBumpVol flat_vol b) (FlatAdditive y) None eq_refl (or_introl eq_refl)) as (s2 & B2).
  rewrite B2. cbn [apply_vol] in *.
  pose proof (parallel nan _ _ _ _ _ y V1) as V2.
  rewrite (call_off_price nan cdf s (ParallelBumpVol (ParallelBumpVol flat_vol b) y) _ (Rlt_le _ _ S) eq_refl eq_refl (variance_real nan _ _ _ _ _ V2)
    ltac:(apply Rmult_le_pos; [lra|apply pow2_ge_0])).
  destruct (wb_restore _ _ (self_well_behaved nan cdf) (BVol "BP" (FlatAdditive b)) (BVol "BP" (FlatAdditive y))
    (call_off nan s flat_vol) true _ s1 true _ s2 (vols_same _ _ _) B1 B2) as (_ & sv & -> & RS & CL).
  cbn [op_restore self_ops] in RS. cbn [op_restore self_ops]. rewrite RS. cbn [vega_loop rmap]. do 3 eexists. reflexivity.
Qed.

(** At the money forward the price is concave in the volatility, and yet the volga is positive. *)
Lemma money_volga nan N b : normal_cdf N -> 0 < b < 1 -> b * (1 - b) / (1 + b) < / 5 ->
  let s := 100 * exp (- growth) in exists sp value m sp' sv' vega volga price,
  self_pricer_new nan [(1, call_100)] (flat_market s) = Ok sp /\ self_price nan N sp = Ok value /\
  generate nan (self_ops nan N) (VegaVolgaGenerator (FlatAdditive b)) sp saved_prefetch_new value = (Ok (VegaVolgaReport b m), sp', sv') /\
  get "BP" m = Some (vega, volga) /\ 0 < vega /\ 0 < volga /\
  (forall x, price_after (self_ops nan N) [BVol "BP" (ReplaceVol x)] sp = Ok (price x)) /\
  (forall x y, 0 < x < y -> (price x + price y) / 2 < price ((x + y) / 2)).
Proof.
  intros HN B C s. assert (S : 0 < s) by (unfold s; pose proof (exp_pos (- growth)); lra).
  pose proof (one_call_price nan N s (Rlt_le _ _ S)) as PV.
  destruct (call_vega_report nan N s b (call_price N (exp (- growth) * exp 0) (s * exp growth - 0) (100 + 0) (sqrt var15)) S) as (r & p' & sv' & E).
  destruct (option_vega_sign nan N 1 (option_on stock 15%Z Call CashSettled) 100 "BP" "BP-CR" usd NullRule eq_refl HN (flat_market s) _ s flat_vol (/ 5) (15 / 365) b _ r p' sv'
    ltac:(cbn; lia) (one_call_new nan s) eq_refl eq_refl eq_refl ltac:(cbn; lra) (flat_vol_is nan 100) ltac:(lra) B C PV E ltac:(lra))
    as (m & vega & volga & D & disp & sd & F & -> & G & OI & FF & X).
  destruct (flat_inputs _ _ _ _ _ OI) as (-> & -> & ->). apply flat_forward in FF.
  assert (FE : F = 100). { rewrite FF. unfold s. rewrite Rmult_assoc, <- exp_plus. replace (- growth + growth) with 0 by lra. rewrite exp_0. lra. }
  destruct (X ltac:(lra) ltac:(lra)) as (VP & VO).
  exists (one_call nan s). eexists. exists m, p', sv', vega, volga, (call_value N s).
  split; [apply one_call_new|]. split; [exact PV|]. split; [exact E|]. split; [exact G|]. split; [exact VP|]. split; [apply VO; lra|].
  split; [intros x; apply call_given; lra|]. intros x y XY.
  assert (CV : forall z, 0 < z -> call_value N s z = black Call N (exp (- growth)) 100 100 (z * sqrt (15 / 365))).
  { intros z Z. unfold call_value. cbn [black]. rewrite exp_0, Rmult_1_r, Rplus_0_r, Rminus_0_r. replace (s * exp growth) with 100 by congruence.
    rewrite Rplus_0_r. rewrite sqrt_mult by (try apply pow2_ge_0; lra). rewrite sqrt_pow2 by lra. f_equal. ring. }
  rewrite !CV by lra. apply (money_concave N HN Call); try lra. apply exp_pos. apply sqrt_lt_R0; lra.
Qed.

Lemma one_point : let b := / 100 in 0 < b < 1 /\ b * (1 - b) / (1 + b) < / 5.
Proof. cbv zeta. split; lra. Qed.
