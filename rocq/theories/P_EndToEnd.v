(** C57: calculations from end to end. *)
From Coq Require Import ZArith NArith List String Bool Reals Lia Lra Permutation.
From Verif Require Import Prelude Num M_Dates M_Calendar M_Interp M_Curves M_Fixings M_Forward M_Vol M_Instruments M_Risk M_Reports
  M_MonteCarlo M_Schema M_Serde M_Objects M_Handles M_Facade S_Serde S_Objects S_Facade S_Reports S_Handles S_EndToEnd
  L_InstrumentCases L_RiskCases L_AreasCases L_SerdeCases L_HandlesCases L_Stateless L_EndToEnd L_EndToEndCases.
Import ListNotations.
Open Scope string_scope.
Open Scope list_scope.
Open Scope R_scope.

(** A calculation gives one report for each generator, in order, of the kind and with the bump sizes asked for. *)
Theorem C57_asked_for : forall T (N : Num T) (TR : Trans T) (nan : T) cdf visit draws redraws f i t md gs rs,
  calculate_reports nan cdf visit draws redraws f i t md gs = Ok rs -> Forall2 (report_for nan) gs rs.
Proof. exact @facade_for. Qed.
Print Assumptions C57_asked_for.

(** Each is the report that would be given if it were the only one asked for, with either kind of pricer. *)
Theorem C57_each : forall T (N : Num T) (TR : Trans T) (nan : T) cdf visit draws redraws f i t md gs rs,
  calculate_reports nan cdf visit draws redraws f i t md gs = Ok rs <->
  calculate_reports nan cdf visit draws redraws f i t md [] = Ok [] /\
  Forall2 (fun g r => calculate_reports nan cdf visit draws redraws f i t md [g] = Ok [r]) gs rs.
Proof. exact @facade_each. Qed.
Print Assumptions C57_each.

Theorem C57_any_order : forall T (N : Num T) (TR : Trans T) (nan : T) cdf visit draws redraws f i t md gs gs' rs, Permutation gs gs' ->
  calculate_reports nan cdf visit draws redraws f i t md gs = Ok rs ->
  exists rs', calculate_reports nan cdf visit draws redraws f i t md gs' = Ok rs' /\ Permutation (combine gs rs) (combine gs' rs').
Proof. exact @facade_permuted. Qed.
Print Assumptions C57_any_order.

(** The results, if they are finite, can be written and read, and are then found to be the same, if the tolerances and the bump
    sizes are positive. *)
Theorem C57_results : forall (nan : R) cdf visit draws redraws finite tol f i t md gs rs s,
  calculate_reports nan cdf visit draws redraws f i t md gs = Ok rs -> Forall (storable_report finite) rs ->
  positive_tolerances tol -> Forall (positive_sizes nan) gs ->
  exists j s', write_results finite rs s = (Ok j, s) /\ reports_from_json j s = (Ok rs, s') /\ assert_approx_eq_reports tol rs rs = Ok tt.
Proof. exact facade_results. Qed.
Print Assumptions C57_results.

Example C57_case : forall (nan : R) cdf visit draws redraws s h, 0 < s -> 0 < h < 1 -> exists r,
  calculate_reports nan cdf visit draws redraws SelfPricerFactory started one_fixing (flat_market s) [DeltaGammaGenerator h] = Ok [r] /\
  positive_tolerances (mkTol 1 1 1) /\ Forall (positive_sizes nan) [DeltaGammaGenerator h].
Proof.
  intros nan cdf visit draws redraws s h S H. destruct (call_reported nan cdf visit draws redraws s h S H) as [r E]. exists r. split; [exact E|].
  split; [repeat split; cbn; lra|]. constructor; [constructor; lra | constructor].
Qed.

(** A client of the C interface that reads what was written elsewhere, and calculates, has the results of calculating with the
    objects themselves, whatever has gone on before. *)
Theorem C57_client : forall T (N : Num T) (TR : Trans T) finite nan cdf visit draws redraws files print fresh, allocates fresh ->
  let F := the_facade finite nan cdf visit draws redraws files print in
  forall f i t md gs, storable_factory finite f -> storable finite i -> storable_table finite t -> storable_market finite nan md ->
  Forall (storable_generator finite) gs ->
  exists jf ji jt jm js,
    write finite (val_of_factory f) tls_initial = (Ok jf, tls_initial) /\
    instrument_to_json finite i Inline [] Inline [] tls_initial = (Ok ji, tls_initial) /\
    write finite (val_of_fixing_table t) tls_initial = (Ok jt, tls_initial) /\
    write finite (val_of_market md) tls_initial = (Ok jm, tls_initial) /\
    Forall2 (fun g j => write finite (val_of_generator g) tls_initial = (Ok j, tls_initial)) gs js /\
    forall w, exists af ai at_ am ags w',
      asks F fresh w ([PricerFactoryFromJson (Text (Some jf)); InstrumentFromJson (Text (Some ji)) Inline [] Inline [];
                       FixingTableFromJson (Text (Some jt)); MarketDataFromJson (Text (Some jm))] ++
                      map (fun j => ReportGeneratorFromJson (Text (Some j))) js) ([af; ai; at_; am] ++ ags) w' /\
      answers F fresh (Calculate af ai at_ am ags) w' (outcome HReports (calculate_reports nan cdf visit draws redraws f i t md gs)).
Proof. exact @client. Qed.
Print Assumptions C57_client.

Example C57_client_case : forall nan cdf visit draws redraws,
  allocates next /\ storable_factory all SelfPricerFactory /\ storable all (bond R) /\ storable_table all (mkTable 43457%Z []) /\
  storable_market all nan bond_market /\
  Forall (storable_generator all) [DeltaGammaGenerator (/ 100); VegaVolgaGenerator (FlatAdditive (/ 100))] /\
  exists rs, calculate_reports nan cdf visit draws redraws SelfPricerFactory (bond R) (mkTable 43457%Z []) bond_market
    [DeltaGammaGenerator (/ 100); VegaVolgaGenerator (FlatAdditive (/ 100))] = Ok rs.
Proof.
  intros nan cdf visit draws redraws. split; [exact next_allocates|]. split; [exact I|].
  split; [repeat split; cbn; lia|]. split; [repeat split; repeat constructor; cbn; lia|].
  split; [repeat split; repeat constructor; cbn; try lia; intros []|]. split; [repeat constructor|]. exact (bond_reported nan cdf visit draws redraws).
Qed.

(** ** C53: what depends on the state of the thread *)

(** Reading fixings, report generators, reports, pricer factories and market data neither uses nor changes the state of the thread. *)
Theorem C53_stateless : forall T (N : Num T) (TR : Trans T) (nan : T) j,
  (exists r, forall s, fixing_table_from_json j s = (r, s)) /\
  (exists r, forall s, report_generator_from_json j s = (r, s)) /\
  (exists r, forall s, reports_from_json j s = (r, s)) /\
  (exists r, forall s, pricer_factory_from_json j s = (r, s)) /\
  (exists r, forall s, market_data_from_json nan j s = (r, s)).
Proof.
  exact (fun T N TR nan j => conj (fixings_stateless j) (conj (generator_stateless j) (conj (reports_stateless j)
    (conj (factory_stateless j) (market_stateless nan j))))).
Qed.
Print Assumptions C53_stateless.

(** Reading an instrument does not use it, and does not change it unless it panics. *)
Theorem C53_instrument_only : forall T (N : Num T) (j : json T) cd cs ic is, exists r, forall s,
  fst (instrument_from_json j cd cs ic is s) = r /\
  match r with Panic _ => True | _ => snd (instrument_from_json j cd cs ic is s) = s end.
Proof. exact @instrument_stateless. Qed.
Print Assumptions C53_instrument_only.

Example C53_stateless_case : exists r, forall s, fixing_table_from_json (JObj [("fixings_known_until", JStr "2018-01-01"); ("fixings_by_id", JObj [])] : json R) s = (Ok r, s).
Proof. eexists. intros s. reflexivity. Qed.
