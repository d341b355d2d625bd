(** A forward-starting option whose strike is known, reported through the facade. *)
From Coq Require Import ZArith List String Bool Reals Lra.
From Verif Require Import Prelude Num M_Dates M_Calendar M_Interp M_Curves M_Fixings M_Forward M_Vol M_Black76 M_Instruments M_Deps M_Risk M_Reports
  M_MonteCarlo M_Serde M_Objects M_Handles M_Facade S_Instruments S_Risk S_Reports S_EndToEnd
  L_Num L_InstrumentCases L_RiskCases L_Reports L_SelfPricer L_ReportCases L_AreasCases L_SolverCases.
Import ListNotations.
Open Scope list_scope.
Open Scope R_scope.

Lemma call_priced nan cdf s : 0 <= s -> exists u, self_price nan cdf (one_call nan s) = Ok u.
Proof.
  intros S. pose proof (cached_price nan cdf s call_only Call S) as C. unfold self_price, one_call. cbn [sp_instruments sp_context foldM snd fst].
  unfold call_100. change (ctx_spot_date (prefetch_context nan (cache nan s call_only rate))) with 0%Z. rewrite C. cbn [bind]. eauto.
Qed.

Lemma call_bumped nan s f save : save = None \/ save = Some saved_prefetch_new -> exists save',
  self_bump nan (BSpot "BP" f) (one_call nan s) save = (Ok true, one_call nan (apply_spot f s), save').
Proof.
  intros [-> | ->]; unfold self_bump, one_call; cbn [sp_context sp_instruments].
  - rewrite (spot_bumped_unsaved nan s call_only f eq_refl eq_refl). eauto.
  - unfold saved_prefetch_new. rewrite (spot_bumped nan s call_only f [] [] saved_data_new eq_refl eq_refl). eauto.
Qed.

Lemma call_reported nan cdf visit draws redraws s h : 0 < s -> 0 < h < 1 -> exists r,
  calculate_reports nan cdf visit draws redraws SelfPricerFactory started one_fixing (flat_market s) [DeltaGammaGenerator h] = Ok [r].
Proof.
  intros S H. cbn [calculate_reports]. rewrite started_new. cbn [bind]. destruct (call_priced nan cdf s) as [u U]; [lra|].
  unfold calculate. cbn [op_price self_ops op_new_saveable]. rewrite U. cbn [bind generate_each generate op_dependencies self_ops].
  change (keys (col_instruments (pf_deps (sp_context (one_call nan s))))) with ["BP"%string]. cbn [delta_loop].
  change (ctx_spot (op_context _ (one_call nan s)) "BP") with (@Ok R s). cbv iota beta.
  unfold up_and_down, bumped_price. cbn [op_bump op_price self_ops].
  destruct (call_bumped nan s (RelativeSpot h) (Some saved_prefetch_new) (or_intror eq_refl)) as (s1 & B1).
  set (x1 := apply_spot (RelativeSpot h) s) in *. rnum.
  match goal with |- context [BSpot "BP" (RelativeSpot ?d)] => match d with context [_ / _] =>
    destruct (call_bumped nan x1 (RelativeSpot d) None (or_introl eq_refl)) as (s2 & B2) end end.
  rewrite B1.
  assert (X1 : 0 <= x1) by (unfold x1; cbn [apply_spot]; rnum; apply Rmult_le_pos; lra).
  destruct (call_priced nan cdf x1 X1) as [u1 U1]. rewrite U1, B2.
  match type of B2 with _ = (_, one_call nan ?x, _) => assert (X2 : 0 <= x) end.
  { unfold x1. cbn [apply_spot]. rnum. replace (s * (1 + h) * (1 + ((1 - h) / (1 + h) - 1))) with (s * (1 - h)) by (field; lra). apply Rmult_le_pos; lra. }
  match type of B2 with _ = (_, one_call nan ?x, _) => destruct (call_priced nan cdf x X2) as [u2 U2] end. rewrite U2.
  destruct (wb_restore _ _ (self_well_behaved nan cdf) (BSpot "BP" (RelativeSpot h)) (BSpot "BP" (RelativeSpot ((1 - h) / (1 + h) - 1)))
    (one_call nan s) true _ s1 true _ s2 (spots_same _ _ _) B1 B2) as (_ & sv & -> & RS & CL).
  cbn [op_restore self_ops] in RS. cbn [op_restore self_ops]. rewrite RS. cbn [delta_loop rmap]. eexists. reflexivity.
Qed.

(** A bond: two reports, on nothing. *)
Definition bond (T : Type) `{Num T} : instrument T :=
  IZeroCoupon "BOND" "OPT" (mkCurrency "GBP" NullRule) (mkDT 43800%Z Close_) 43822%Z NullRule.
Definition bond_market : market_data R :=
  mkMarket 43457%Z [] [("OPT", RateCurveAct365 43457%Z (mkLinear Flat Flat [(43457%Z, / 20)]))] [] [] [].
Lemma bond_reported nan cdf visit draws redraws : exists rs,
  calculate_reports nan cdf visit draws redraws SelfPricerFactory (bond R) (mkTable 43457%Z []) bond_market
    [DeltaGammaGenerator (/ 100); VegaVolgaGenerator (FlatAdditive (/ 100))] = Ok rs.
Proof. eexists. reflexivity. Qed.
