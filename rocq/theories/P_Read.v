(** What arbitrary JSON can be read as (C56). *)
From Coq Require Import ZArith List String Bool Reals Lia Lra.
From Verif Require Import Prelude Num M_Dates M_Calendar M_Interp M_Curves M_Fixings M_Forward M_Vol M_Black76 M_Instruments M_Risk M_Reports
  M_MonteCarlo M_Schema M_Serde M_Objects M_Facade S_Serde S_Objects S_Facade S_Read L_ReadTop L_ReadCases L_InterpNan.
Import ListNotations.
Open Scope string_scope.
Open Scope list_scope.

(** ** C56: reading *)

(** After any history of reading on a thread, even one in which reading panicked, everything the thread knows under an id is an
    object of the right type, and all currencies and instruments that were read can be stored. *)
Theorem C56_session : forall T (N : Num T) finite (s : tls T) cs is, session finite s cs is ->
  known finite s /\ Forall (storable_currency finite) cs /\ Forall (storable finite) is.
Proof. exact @session_sound. Qed.
Print Assumptions C56_session.

(** Reading any JSON as an instrument, in the presence of anything read before, gives an instrument that can be stored, or the
    error of the reader, or a panic because of a text that the parser of dates panics on. *)
Theorem C56_instrument : forall T (N : Num T) finite (s : tls T) cs is j cd cs' ic is',
  session finite s cs is -> numbers_finite finite j -> incl cs' cs -> incl is' is ->
  match fst (instrument_from_json j cd cs' ic is' s) with
  | Ok i => storable finite i
  | Err e => exists s1 s2, read j (TShared ShInstrument) s1 = (Err e, s2)
  | Panic _ => panicking_text j
  end.
Proof. exact @instrument_read. Qed.
Print Assumptions C56_instrument.

Theorem C56_currency : forall T (N : Num T) finite (s : tls T) cs is j,
  session finite s cs is -> numbers_finite finite j ->
  match fst (currency_from_json j s) with
  | Ok c => storable_currency finite c
  | Err e => exists s', read j (TShared ShCurrency) s = (Err e, s')
  | Panic _ => panicking_text j
  end.
Proof. exact @currency_read. Qed.
Print Assumptions C56_currency.

Theorem C56_fixings : forall T (N : Num T) finite (s : tls T) cs is j,
  session finite s cs is -> numbers_finite finite j ->
  match fst (fixing_table_from_json j s) with
  | Ok t => storable_table finite t
  | Err e => exists s', read j ty_fixing_table s = (Err e, s')
  | Panic _ => panicking_text j
  end.
Proof. exact @fixings_read. Qed.
Print Assumptions C56_fixings.

Theorem C56_generator : forall T (N : Num T) finite (s : tls T) cs is j,
  session finite s cs is -> numbers_finite finite j ->
  match fst (report_generator_from_json j s) with
  | Ok g => storable_generator finite g
  | Err e => exists s', read j (TTagged TrReportGenerator) s = (Err e, s')
  | Panic _ => panicking_text j
  end.
Proof. exact @generator_read. Qed.
Print Assumptions C56_generator.

Theorem C56_reports : forall T (N : Num T) finite (s : tls T) cs is j,
  session finite s cs is -> numbers_finite finite j ->
  match fst (reports_from_json j s) with
  | Ok rs => Forall (storable_report finite) rs
  | Err e => exists s', read j (TVec (TTagged TrReport)) s = (Err e, s')
  | Panic _ => panicking_text j
  end.
Proof. exact @reports_read. Qed.
Print Assumptions C56_reports.

Theorem C56_pricer_factory : forall T (N : Num T) finite (s : tls T) cs is j,
  session finite s cs is -> numbers_finite finite j ->
  match fst (pricer_factory_from_json j s) with
  | Ok f => storable_factory finite f
  | Err e => exists s', read j (TTagged TrPricerFactory) s = (Err e, s')
  | Panic _ => panicking_text j
  end.
Proof. exact @factory_read. Qed.
Print Assumptions C56_pricer_factory.

(** Reading market data can also fail in the constructor of surfaces by probability: with its error, or with a panic about a smile
    of fewer than two points, times between which a calendar cannot count or a forward that cannot be compared with the strikes. *)
Theorem C56_market_data : forall T (N : Num T) (TR : Trans T) finite (nan : T) (s : tls T) cs is j,
  session finite s cs is -> numbers_finite finite j ->
  match fst (market_data_from_json nan j s) with
  | Ok md => storable_market finite nan md
  | Err e => (exists s', read j ty_market_data s = (Err e, s')) \/ rejected nan e
  | Panic _ => panicking_text j \/ exists v s', read j ty_market_data s = (Ok v, s') /\ (short_smile v \/ uncountable v \/ incomparable nan v)
  end.
Proof. exact @market_read. Qed.
Print Assumptions C56_market_data.

(** A session: a currency, then an equity in that currency. *)
Example C56_case : exists (s : tls R) c i, session (fun _ => true) s [c] [i].
Proof.
  pose (ccy := JObj [("id", JStr "GBP"); ("settlement", JObj [("NullRule", JObj [])])] : json R).
  pose (eq := JObj [("Equity", JObj [("id", JStr "BP.L"); ("credit_id", JStr "OPT"); ("currency", JStr "GBP");
                                     ("settlement", JObj [("NullRule", JObj [])])])] : json R).
  pose proof (SCurrency (fun _ => true) _ _ _ ccy _ _ (SStart _) ltac:(repeat split) eq_refl) as S1.
  pose proof (SInstrument (fun _ => true) _ _ _ eq ErrorIfMissing _ Inline [] _ _ S1 ltac:(repeat split) (incl_refl _) (incl_refl _) eq_refl) as S2.
  eexists _, _, _. exact S2.
Qed.

(** ** What can be read is exactly what can be stored *)

Theorem C56_instruments_exactly : forall T (N : Num T) finite (i : instrument T), whole_numbers finite -> storable finite i <->
  exists j, numbers_finite finite j /\ instrument_from_json j Inline [] Inline [] tls_initial = (Ok i, tls_initial).
Proof. exact @instruments_exactly. Qed.
Print Assumptions C56_instruments_exactly.

Theorem C56_currencies_exactly : forall T (N : Num T) finite (c : currency T), whole_numbers finite -> storable_currency finite c <->
  exists j s', numbers_finite finite j /\ currency_from_json j tls_initial = (Ok c, s').
Proof. exact @currencies_exactly. Qed.
Print Assumptions C56_currencies_exactly.

Theorem C56_fixings_exactly : forall T (N : Num T) finite (t : fixing_table T), whole_numbers finite -> storable_table finite t <->
  exists j s', numbers_finite finite j /\ fixing_table_from_json j tls_initial = (Ok t, s').
Proof. exact @fixings_exactly. Qed.
Print Assumptions C56_fixings_exactly.

Theorem C56_generators_exactly : forall T (N : Num T) finite (g : generator T), whole_numbers finite -> storable_generator finite g <->
  exists j s', numbers_finite finite j /\ report_generator_from_json j tls_initial = (Ok g, s').
Proof. exact @generators_exactly. Qed.
Print Assumptions C56_generators_exactly.

Theorem C56_reports_exactly : forall T (N : Num T) finite (rs : list (report T)), whole_numbers finite ->
  Forall (storable_report finite) rs <-> exists j s', numbers_finite finite j /\ reports_from_json j tls_initial = (Ok rs, s').
Proof. exact @reports_exactly. Qed.
Print Assumptions C56_reports_exactly.

Theorem C56_pricer_factories_exactly : forall T (N : Num T) finite (f : pricer_factory T), whole_numbers finite ->
  storable_factory finite f <-> exists j s', numbers_finite finite j /\ pricer_factory_from_json j tls_initial = (Ok f, s').
Proof. exact @factories_exactly. Qed.
Print Assumptions C56_pricer_factories_exactly.

Theorem C56_market_data_exactly : forall T (N : Num T) (TR : Trans T) finite (nan : T) md, whole_numbers finite ->
  storable_market finite nan md <-> exists j s', numbers_finite finite j /\ market_data_from_json nan j tls_initial = (Ok md, s').
Proof. exact @markets_exactly. Qed.
Print Assumptions C56_market_data_exactly.

Example C56_exactly_case : whole_numbers (fun _ : R => true).
Proof. intros z _. reflexivity. Qed.

(** ** What reading lets through *)

(** Points that the constructor of interpolators refuses are read, and the value at a point is then not the value of the point. *)
Theorem C56_points_refuted : forall x y nan : R, exists j md s' base l,
  market_data_from_json nan j tls_initial = (Ok md, s') /\ get "GBP" (md_yields md) = Some (RateCurveAct365 base l) /\
  (exists e, linear_new (lin_points l) (lin_left l) (lin_right l) = Err e) /\
  In (43457%Z, y) (lin_points l) /\ linear_at nan l 43457%Z = Ok x.
Proof.
  intros x y nan. destruct (backwards_read x y nan) as (j & s' & H). eexists j, _, s', _, _. exact H.
Qed.
Print Assumptions C56_points_refuted.

(** Holidays are read in any order, and a day listed among them may then be none. *)
Theorem C56_holidays_refuted : exists j s' name (hols : list date) d,
  instrument_from_json j Inline [] Inline [] tls_initial =
    (Ok (ICurrency (mkCurrency "GBP" (ModifiedFollowing (Holidays name hols : calendar R)))), s') /\
  In d hols /\ is_holiday (Holidays name hols : calendar R) d = Ok false.
Proof.
  destruct jumbled_read as (j & s' & R & I & H & _). exists j, s', "London", [18479%Z; 18480%Z; 18478%Z], 18478%Z. auto.
Qed.
Print Assumptions C56_holidays_refuted.

(** A part of a day that the constructor of times refuses is read, and an option's two expiries need not agree. *)
Theorem C56_times_refuted : forall strike : R, exists j s' v,
  instrument_from_json j Inline [] Inline [] tls_initial = (Ok (ISpotEuropean v strike), s') /\
  (exists m, ddf_new (ddf_date (van_expiry_time v)) (ddf_frac (van_expiry_time v)) = Panic m) /\
  ddf_date (van_expiry_time v) <> dt_date (van_expiry v).
Proof. intros x. destruct (late_read x) as (j & s' & H). exists j, s', late. exact H. Qed.
Print Assumptions C56_times_refuted.

(** The date of the last cash dividend is read, not looked for. *)
Theorem C56_last_cash_refuted : forall x nan : R, x <> 0%R -> exists j md s' s,
  market_data_from_json nan j tls_initial = (Ok md, s') /\ get "BP.L" (md_divs md) = Some s /\
  (last_cash_ex_date s < last_cash_ex_date (stream_new (dividends s) (div_yield s)))%Z.
Proof.
  intros x nan NZ. destruct (early_read x nan NZ) as (j & s' & R & G & E1 & E2). eexists j, _, s', _. split; [exact R|].
  split; [exact G|]. rewrite E1, E2. lia.
Qed.
Print Assumptions C56_last_cash_refuted.

(** Fixings that the constructor of tables refuses are read, and the last one for a time counts. *)
Theorem C56_twice_refuted : forall x y : R, exists j s' until id d,
  fixing_table_from_json j tls_initial = (Ok (mkTable until [(id, [(d, y)])]), s') /\
  exists e, from_fixings until [(id, [(d, x); (d, y)])] = Err e.
Proof. intros x y. destruct (twice_read x y) as (j & s' & H). exists j, s'. eexists _, _, _. exact H. Qed.
Print Assumptions C56_twice_refuted.

(** All three other panics occur. *)
Theorem C56_one_point_refuted : forall nan : R, ~ panicking_text one_point /\
  exists m, fst (market_data_from_json nan one_point tls_initial) = Panic m.
Proof. exact one_point_panics. Qed.
Print Assumptions C56_one_point_refuted.

Theorem C56_last_day_refuted : forall nan : R, ~ panicking_text last_day /\
  exists m, fst (market_data_from_json nan last_day tls_initial) = Panic m.
Proof. exact last_day_panics. Qed.
Print Assumptions C56_last_day_refuted.

(** A forward curve that ends before the smile does, and continues with NaN. *)
Theorem C56_nan_forward_refuted : forall TR : Trans F64, ~ panicking_text nan_forward /\
  exists m, fst (market_data_from_json F_nan nan_forward tls_initial) = Panic m.
Proof. exact (fun TR => conj (proj1 (nan_forward_panics TR)) (ex_intro _ _ (proj2 (nan_forward_panics TR)))). Qed.
Print Assumptions C56_nan_forward_refuted.
