(** The facade (facade/mod.rs): what lies behind the C interface. *)
From Coq Require Import ZArith List String Bool.
From Verif Require Import Prelude Num M_Dates M_Calendar M_Interp M_Curves M_Fixings M_Forward M_Vol M_Instruments M_Deps M_Risk
  M_Reports M_MonteCarlo M_Schema M_Serde M_Objects M_Handles.
Import ListNotations.
Open Scope string_scope.
Open Scope list_scope.

(** The implementations of [trait PricerFactory]: selfpricer.rs:39-42; montecarlo.rs:40-43 with the only kind of model there
    is, blackdiffusion.rs:46-52.  The substep for correlations is kept and never used. *)
Inductive pricer_factory (T : Type) :=
| SelfPricerFactory
| MonteCarloPricerFactory (correlation_substep : Z) (f : diffusion_factory T).
Arguments SelfPricerFactory {T}.
Arguments MonteCarloPricerFactory {T} correlation_substep f.

Section Facade.
  Context {T : Type} {N : Num T} {TR : Trans T}.
  Variable finite : T -> bool.
  Variable nan : T.
  Variable cdf : T -> T.
  (** The order of a [HashMap] and the random numbers, as in M_MonteCarlo. *)
  Variable visit : smap (instrument T * list (ddf T)) -> smap (instrument T * list (ddf T)).
  Variable draws : nat -> nat -> T.
  Variable redraws : bump_time -> mc_pricer T -> nat -> nat -> T.

  (** selfpricer.rs:39-53; montecarlo.rs:40-66; blackdiffusion.rs:46-72; pricers/mod.rs:35-62. *)
  Definition val_of_factory (f : pricer_factory T) : val T :=
    match f with
    | SelfPricerFactory => VTagged TrPricerFactory (Some "SelfPricerFactory") (VStruct [])
    | MonteCarloPricerFactory c d =>
        VTagged TrPricerFactory (Some "MonteCarloPricerFactory") (VStruct [("model_factory",
          VTagged TrModelFactory (Some "BlackDiffusionFactory") (VStruct [
            ("correlation_substep", VInt c); ("path_substep", VNum (df_path_substep d));
            ("number_of_paths", VInt (Z.of_nat (df_n_paths d)))]))])
    end.
  Definition factory_of_val (v : val T) : res (pricer_factory T) :=
    match v with
    | VTagged _ _ (VStruct []) => Ok SelfPricerFactory
    | VTagged _ _ (VStruct [(_, VTagged _ _ (VStruct [(_, VInt c); (_, VNum p); (_, VInt n)]))]) =>
        Ok (MonteCarloPricerFactory c (mkFactory p (Z.to_nat n)))
    | _ => ill
    end.
  (** facade/mod.rs:74-82. *)
  Definition pricer_factory_from_json (source : json T) : act T (pricer_factory T) :=
    let! v := read source (TTagged TrPricerFactory) in lift (factory_of_val v).

  (** facade/mod.rs:133-149 [calculate]. *)
  Definition calculate_reports (f : pricer_factory T) (i : instrument T) (t : fixing_table T) (md : market_data T)
      (gs : list (generator T)) : res (list (report T)) :=
    match f with
    | SelfPricerFactory => let* p := self_pricer_factory nan i t md in calculate nan (self_ops nan cdf) p gs
    | MonteCarloPricerFactory _ d =>
        let* p := mc_pricer_factory nan visit draws d i t md in calculate nan (mc_ops nan cdf visit redraws) p gs
    end.

  (** facade/mod.rs:153-156 [write_results] and 183-193 [serialize_output], up to the printing of JSON values. *)
  Definition write_results (rs : list (report T)) : act T (json T) := write finite (VVec (map val_of_report rs)).

  (** What is in the file of some name, and how a JSON value is printed.  Text is [None] when it is not JSON. *)
  Variable files : string -> res (option (json T)).
  Variable print : json T -> string.
  Definition parsed {A} (f : json T -> act T A) (t : option (json T)) : act T A :=
    match t with Some j => f j | None => lift (Err "expected value at line 1 column 1") end.

  (** facade/mod.rs:36-193.  Pricing does not use the tables for references. *)
  Definition the_facade : @facade (instrument T) (currency T) (market_data T) (fixing_table T) (pricer_factory T) (generator T)
      (report T) (option (json T)) (tolerances T) (tls T) :=
    mkFacade files
      (fun t dc cs di is => parsed (fun j => instrument_from_json j dc cs di is) t)
      (parsed currency_from_json) (parsed pricer_factory_from_json) (parsed fixing_table_from_json)
      (parsed (market_data_from_json nan)) (parsed report_generator_from_json) (parsed reports_from_json)
      (fun f i t md gs s => (calculate_reports f i t md gs, s))
      (fun mine other tol => assert_approx_eq_reports tol mine other)
      (fun rs => let! j := write_results rs in ret (print j)).
End Facade.
