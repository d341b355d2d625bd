(** Model of the serialised types: what [#[derive(Serialize, Deserialize)]] sees of each struct and enum, and the
    registries of the dynamically typed ones.  No numbers here, only tables. *)
From Coq Require Import List String Bool.
From Verif Require Import Prelude.
Import ListNotations.
Open Scope string_scope.

(** The traits whose objects are written with a tag ([Qrc<T>] and [Qbox<T>], core/factories.rs:63-162). *)
Inductive trait :=
| TrCalendar | TrDateRule | TrInstrument | TrRateCurve | TrVolSurface
| TrModelFactory | TrPricerFactory | TrReportGenerator | TrReport.

(** The types shared through a [Drc] (core/dedup.rs:112-118): [RcCurrency] (assets.rs:146-173) and [RcInstrument]
    (instruments/mod.rs:212-316). *)
Inductive shared := ShCurrency | ShInstrument.

(** Serialised types.  A struct may have flattened parts ([#[serde(flatten)]]): their fields are listed with its own, and it
    can then only be read from an object.  A newtype struct is its content. *)
Inductive ty :=
| TStr                                            (* String *)
| TF64
| TI32
| TUsize
| TBool
| TDate                                           (* dates/mod.rs:129-152, ISO text *)
| TEnum (variants : list (string * option ty))    (* unit variants, or variants with a payload *)
| TStruct (flat : bool) (fields : list (string * ty))
| TTuple (l : list ty)                            (* tuples and tuple structs *)
| TVec (t : ty)
| TMap (t : ty)                                   (* HashMap<String, _> *)
| TTagged (tr : trait)
| TShared (k : shared).

(** A C-like enum. *)
Definition unit_enum (names : list string) : ty := TEnum (map (fun n => (n, None)) names).

(** dates/datetime.rs:21-26, 40-44, 83-87. *)
Definition ty_time_of_day := unit_enum ["Open"; "EDSP"; "Close"].
Definition ty_date_time := TStruct false [("date", TDate); ("time_of_day", ty_time_of_day)].
Definition ty_ddf := TStruct false [("date", TDate); ("day_fraction", TF64)].

(** math/interpolation.rs:71-78, 223-228, 269-274. *)
Definition ty_extrap := unit_enum ["Flat"; "Natural"; "NotANumber"; "Zero"; "Throw"].
Definition ty_points (x : ty) :=
  TStruct false [("left", ty_extrap); ("right", ty_extrap); ("points", TVec (TTuple [x; TF64]))].

(** dates/calendar.rs:115-116, 168-169, 289-294, 483-488; registry 90-113. *)
Definition calendar_types : list (string * ty) := [
  ("EveryDayCalendar", TTuple []);
  ("WeekdayCalendar", TTuple []);
  ("WeekdayAndHolidayCalendar", TStruct false [("name", TStr); ("holidays", TVec TDate)]);
  ("VolatilityCalendar", TStruct false [("name", TStr); ("calendar", TTagged TrCalendar); ("holiday_weight", TF64)])].

(** dates/rules.rs:54-55, 74-79, 134-137; registry 31-52. *)
Definition rule_types : list (string * ty) := [
  ("NullRule", TStruct false []);
  ("BusinessDays", TStruct false [("calendar", TTagged TrCalendar); ("step", TI32); ("slip_forward", TBool)]);
  ("ModifiedFollowing", TStruct false [("calendar", TTagged TrCalendar)])].

(** instruments/assets.rs:33-37 [Currency]. *)
Definition ty_currency := TStruct false [("id", TStr); ("settlement", TTagged TrDateRule)].

(** instruments/options.rs:30-57: the fields of [VanillaOption], flattened into the two options. *)
Definition vanilla_fields : list (string * ty) := [
  ("id", TStr); ("credit_id", TStr); ("underlying", TShared ShInstrument); ("settlement", TTagged TrDateRule);
  ("expiry", ty_date_time); ("put_or_call", unit_enum ["Put"; "Call"]);
  ("cash_or_physical", unit_enum ["Cash"; "Physical"]); ("expiry_time", ty_ddf); ("pay_date", TDate)].

(** instruments/mod.rs:183-210 with assets.rs:172-178, 307-311, bonds.rs:24-32, basket.rs:30-37, options.rs:178-212. *)
Definition instrument_types : list (string * ty) := [
  ("Currency", ty_currency);
  ("CreditEntity", TStruct false [("id", TStr); ("currency", TShared ShCurrency); ("settlement", TTagged TrDateRule)]);
  ("Equity", TStruct false [("id", TStr); ("credit_id", TStr); ("currency", TShared ShCurrency);
                            ("settlement", TTagged TrDateRule)]);
  ("ZeroCoupon", TStruct false [("id", TStr); ("credit_id", TStr); ("currency", TShared ShCurrency);
                                ("ex_date", ty_date_time); ("payment_date", TDate); ("settlement", TTagged TrDateRule)]);
  ("Basket", TStruct false [("id", TStr); ("credit_id", TStr); ("currency", TShared ShCurrency);
                            ("settlement", TTagged TrDateRule);
                            ("basket", TVec (TTuple [TF64; TShared ShInstrument]))]);
  ("SpotStartingEuropean", TStruct true (vanilla_fields ++ [("strike", TF64)]));
  ("ForwardStartingEuropean", TStruct true (vanilla_fields ++
     [("strike_fraction", TF64); ("strike_date", ty_date_time); ("strike_time", ty_ddf)]))].

(** data/curves.rs:91-94, 129-133, 174-178, 220-224, 255-259; registry 66-89. *)
Definition curve_types : list (string * ty) := [
  ("ZeroRateCurve", TStruct false [("base", TDate)]);
  ("RateCurveAct365", TStruct false [("base", TDate); ("interp", ty_points TDate)]);
  ("AnnualisedFlatBump", TStruct false [("curve", TTagged TrRateCurve); ("bump", TF64)]);
  ("ContinuouslyCompoundedFlatBump", TStruct false [("curve", TTagged TrRateCurve); ("bump", TF64)]);
  ("RelativeBump", TStruct false [("curve", TTagged TrRateCurve); ("one_plus_bump", TF64)])].

(** data/volsmile.rs:35-38, 66-69 and volsurface.rs:268-302, 508-516 [VolByProbabilityInput]. *)
Definition ty_flat_smile := TStruct false [("vol", TF64)].
Definition ty_spline_smile := TStruct false [("smile", ty_points TF64)].
Definition ty_vol_input (smile : ty) := TStruct false [
  ("smiles", TVec (TTuple [ty_ddf; smile])); ("calendar", TTagged TrCalendar); ("base_date", ty_ddf);
  ("forward", ty_points TDate); ("fixed_divs_after", ty_points TDate);
  ("div_assumptions", unit_enum ["NoCashDivs"; "IndependentLogNormals"; "FixedDivs"; "JumpDivs"])].

Definition ty_time_evolution := TStruct false [
  ("base_vol", TTagged TrVolSurface); ("vol_time_offset", TF64); ("base_date", ty_ddf)].

(** data/volsurface.rs:239-262 with 406-411, 508-516 and voldecorators.rs:21-26, 90-95, 167-171, 230-235. *)
Definition vol_types : list (string * ty) := [
  ("FlatVolSurface", TStruct false [("vol", TF64); ("calendar", TTagged TrCalendar); ("base_date", ty_ddf)]);
  ("VolByProbabilityCubicSplineSmile", ty_vol_input ty_spline_smile);
  ("ConstantExpiryTimeEvolution", ty_time_evolution);
  ("RollingExpiryTimeEvolution", ty_time_evolution);
  ("ParallelBumpVol", TStruct false [("base_vol", TTagged TrVolSurface); ("bump", TF64)]);
  ("TimeScaledBumpVol", TStruct false [("base_vol", TTagged TrVolSurface); ("bump", TF64); ("vol_time_floor", TF64)])].

(** models/mod.rs:39-57 with blackdiffusion.rs:46-52. *)
Definition model_types : list (string * ty) := [
  ("BlackDiffusionFactory", TStruct false [("correlation_substep", TUsize); ("path_substep", TF64);
                                           ("number_of_paths", TUsize)])].

(** pricers/mod.rs:35-55 with montecarlo.rs:40-43, selfpricer.rs:39-42. *)
Definition pricer_types : list (string * ty) := [
  ("MonteCarloPricerFactory", TStruct false [("model_factory", TTagged TrModelFactory)]);
  ("SelfPricerFactory", TStruct false [])].

(** data/bumpvol.rs:11-16, bumpspotdate.rs:8-31, risk/bumptime.rs:19-23. *)
Definition ty_bump_vol := TEnum [
  ("FlatAdditive", Some (TStruct false [("size", TF64)]));
  ("TimeScaled", Some (TStruct false [("size", TF64); ("floor", TF64)]));
  ("Replace", Some (TStruct false [("vol", TF64)]))].
Definition ty_bump_time := TStruct false [
  ("spot_date_bump", TStruct false [("spot_date", TDate); ("spot_dynamics", unit_enum ["StickySpot"; "StickyForward"])]);
  ("_ex_from", TDate)].

(** risk/mod.rs:189-210 with deltagamma.rs:118-121, vegavolga.rs:126-129, timebumped.rs:93-97. *)
Definition generator_types : list (string * ty) := [
  ("DeltaGammaReportGenerator", TStruct false [("bumpsize", TF64)]);
  ("VegaVolgaReportGenerator", TStruct false [("bump", ty_bump_vol)]);
  ("TimeBumpedReportGenerator", TStruct false [("bump", ty_bump_time); ("subgenerators", TVec (TTagged TrReportGenerator))])].

(** risk/mod.rs:218-265 with deltagamma.rs:26-30, 86-90, vegavolga.rs:35-39, 94-98, timebumped.rs:22-27. *)
Definition report_types : list (string * ty) := [
  ("DeltaGammaReport", TStruct false [("bumpsize", TF64);
     ("results", TMap (TStruct false [("delta", TF64); ("gamma", TF64)]))]);
  ("VegaVolgaReport", TStruct false [("bumpsize", TF64);
     ("results", TMap (TStruct false [("vega", TF64); ("volga", TF64)]))]);
  ("TimeBumpedReport", TStruct false [("price", TF64); ("theta", TF64); ("subreports", TVec (TTagged TrReport))])].

(** core/factories.rs:19-57 [Registry], one per trait: the tags that can be read, and what is read under each. *)
Definition registry (tr : trait) : list (string * ty) :=
  match tr with
  | TrCalendar => calendar_types
  | TrDateRule => rule_types
  | TrInstrument => instrument_types
  | TrRateCurve => curve_types
  | TrVolSurface => vol_types
  | TrModelFactory => model_types
  | TrPricerFactory => pricer_types
  | TrReportGenerator => generator_types
  | TrReport => report_types
  end.

(** The [get_type_id] of what [from_serial] makes of a body read under this tag: the tag itself, except that
    volsurface.rs:852-858 puts a bare [VolByProbability] into the [RcVolSurface], whose [get_type_id] (537-541) panics. *)
Definition read_type_id (tr : trait) (tag : string) : option string :=
  match tr with
  | TrVolSurface => if String.eqb tag "VolByProbabilityCubicSplineSmile" then None else Some tag
  | _ => Some tag
  end.

(** Every [get_type_id] of an object that can be put in a [Qrc] or [Qbox] of the trait and so be written, with the body it
    writes: those of the registry, and volsurface.rs:772-779 and voldecorators.rs:299-308 which no registry knows.
    [StickyDeltaBumpVol] skips its forward. *)
Definition written (tr : trait) : list (string * ty) :=
  registry tr ++
  match tr with
  | TrVolSurface => [("VolByProbabilityFlatSmile", ty_vol_input ty_flat_smile);
                     ("StickyDeltaBumpVol", TStruct false [("base_vol", TTagged TrVolSurface)])]
  | _ => []
  end.

(** What a [Drc] holds: [Arc<Currency>] (assets.rs:146) or [Qrc<Instrument>] (instruments/mod.rs:212). *)
Definition content (k : shared) : ty :=
  match k with ShCurrency => ty_currency | ShInstrument => TTagged TrInstrument end.

(** data/divstream.rs:38-45, 79-84. *)
Definition ty_dividends := TStruct false [
  ("dividends", TVec (TStruct false [("cash", TF64); ("relative", TF64); ("ex_date", TDate); ("pay_date", TDate)]));
  ("div_yield", TTagged TrRateCurve); ("last_cash_ex_date", TDate)].

(** risk/marketdata.rs:40-48. *)
Definition ty_market_data := TStruct false [
  ("spot_date", TDate); ("spots", TMap TF64); ("yield_curves", TMap (TTagged TrRateCurve));
  ("borrow_curves", TMap (TTagged TrRateCurve)); ("dividends", TMap ty_dividends);
  ("vol_surfaces", TMap (TTagged TrVolSurface))].

(** data/fixings.rs:10-14, 155-211: the inner map is written as a list of pairs. *)
Definition ty_fixing_table := TStruct false [
  ("fixings_known_until", TDate);
  ("fixings_by_id", TMap (TStruct false [("fixing_by_date", TVec (TTuple [ty_date_time; TF64]))]))].
