(** Which objects JSON can hold, the parts of an instrument that are shared, and what a JSON text mentions. *)
From Coq Require Import ZArith List String Bool.
From Verif Require Import Prelude Num M_Dates M_Calendar M_Interp M_Curves M_Fixings M_Forward M_Vol M_Black76 M_Instruments
  M_Risk M_Reports M_Schema M_Serde.
Import ListNotations.
Open Scope string_scope.
Open Scope list_scope.

Section Storable.
  Context {T : Type} {N : Num T} {TR : Trans T}.
  Variable finite : T -> bool.
  Variable nan : T.

  Definition fin (x : T) : Prop := finite x = true.
  (** 1900-01-01 to the last date there is (C01). *)
  Definition proper (d : date) : Prop := (0 < d < 73000)%Z.

  Definition storable_ddf (d : ddf T) : Prop := proper (ddf_date d) /\ fin (ddf_frac d).

  Fixpoint storable_calendar (c : calendar T) : Prop :=
    match c with
    | Holidays _ hols => Forall proper hols
    | VolCal _ inner weight => storable_calendar inner /\ fin weight
    | _ => True
    end.

  Definition storable_rule (r : date_rule T) : Prop :=
    match r with
    | NullRule => True
    | BusinessDays cal step _ => storable_calendar cal /\ (-2147483648 <= step <= 2147483647)%Z
    | ModifiedFollowing cal => storable_calendar cal
    end.

  Definition storable_currency (c : currency T) : Prop := storable_rule (cur_settlement c).

  Definition storable_vanilla (v : vanilla T) : Prop :=
    storable_rule (van_settlement v) /\ proper (dt_date (van_expiry v)) /\ storable_ddf (van_expiry_time v) /\
    proper (van_pay_date v).

  Fixpoint storable (i : instrument T) : Prop :=
    match i with
    | ICurrency c => storable_currency c
    | ICreditEntity _ cur s => storable_currency cur /\ storable_rule s
    | IEquity _ _ cur s => storable_currency cur /\ storable_rule s
    | IZeroCoupon _ _ cur ex pay s => storable_currency cur /\ proper (dt_date ex) /\ proper pay /\ storable_rule s
    | IBasket _ _ cur s members =>
        storable_currency cur /\ storable_rule s /\
        (fix go (l : list (T * instrument T)) : Prop :=
           match l with [] => True | (w, u) :: l' => (fin w /\ storable u) /\ go l' end) members
    | ISpotEuropean v strike => storable_vanilla v /\ storable (van_underlying v) /\ fin strike
    | IForwardEuropean v fraction date time =>
        storable_vanilla v /\ storable (van_underlying v) /\ fin fraction /\ proper (dt_date date) /\ storable_ddf time
    end.

  (** The instruments inside an instrument, itself first, and the currencies inside it, wherever one is held by reference. *)
  Fixpoint parts (i : instrument T) : list (instrument T) :=
    i :: match i with
         | IBasket _ _ _ _ members => flat_map (fun m => match m with (_, u) => parts u end) members
         | ISpotEuropean v _ | IForwardEuropean v _ _ _ => parts (van_underlying v)
         | _ => []
         end.
  Fixpoint currencies_in (i : instrument T) : list (currency T) :=
    match i with
    | ICurrency _ => []
    | ICreditEntity _ cur _ | IEquity _ _ cur _ | IZeroCoupon _ _ cur _ _ _ => [cur]
    | IBasket _ _ cur _ members => cur :: flat_map (fun m => match m with (_, u) => currencies_in u end) members
    | ISpotEuropean v _ | IForwardEuropean v _ _ _ => currencies_in (van_underlying v)
    end.

  (** Equal ids mean equal objects, among those that occur and between those and the ones supplied. *)
  Definition identified {A} (id : A -> string) (occurring supplied : list A) : Prop :=
    forall a b, In a occurring -> In b (occurring ++ supplied) -> id a = id b -> a = b.
  Definition supplied {A} (id : A -> string) (occurring given : list A) : Prop :=
    forall a, In a occurring -> In (id a) (map id given).

  Definition storable_linear (l : linear T date) : Prop := Forall (fun p => proper (fst p) /\ fin (snd p)) (lin_points l).

  Fixpoint storable_curve (c : curve T) : Prop :=
    match c with
    | ZeroRateCurve base => proper base
    | RateCurveAct365 base l => proper base /\ storable_linear l
    | AnnualisedFlatBump c' b | ContinuouslyCompoundedFlatBump c' b | RelativeBump c' b => storable_curve c' /\ fin b
    end.

  (** A smile made by the constructor from storable points. *)
  Definition storable_spline (m : smile T) : Prop :=
    match m with
    | FlatSmile _ => False
    | CubicSplineSmile sp =>
        Forall (fun p => fin (fst p) /\ fin (snd p)) (sp_points sp) /\
        spline_load (sp_points sp) (sp_left sp) (sp_right sp) = Ok sp
    end.

  (** Surfaces whose tag can be read; a surface by probability is one made by its constructor. *)
  Fixpoint storable_vol (v : vol_surface T) : Prop :=
    match v with
    | FlatVolSurface vol cal base => fin vol /\ storable_calendar cal /\ storable_ddf base
    | VolByProbability p =>
        Forall (fun s => storable_ddf (fst s) /\ storable_spline (snd s)) (vbp_smiles p) /\
        storable_calendar (vbp_calendar p) /\ storable_ddf (vbp_base p) /\
        storable_linear (vbp_forward p) /\ storable_linear (vbp_fixed_divs p) /\
        vbp_new nan (vbp_smiles p) (vbp_calendar p) (vbp_base p) (vbp_forward p) (vbp_fixed_divs p) (vbp_assumptions p) = Ok p
    | ConstantExpiry b x base | RollingExpiry b x base => storable_vol b /\ fin x /\ storable_ddf base
    | ParallelBumpVol b x => storable_vol b /\ fin x
    | TimeScaledBumpVol b x floor => storable_vol b /\ fin x /\ fin floor
    | StickyDeltaBumpVol _ _ => False
    end.

  Definition storable_stream (s : div_stream T) : Prop :=
    Forall (fun d => fin (cash d) /\ fin (relative d) /\ proper (ex_date d) /\ proper (pay_date d)) (dividends s) /\
    storable_curve (div_yield s) /\ proper (last_cash_ex_date s).

  (** A map has each key once. *)
  Definition storable_map {A} (P : A -> Prop) (m : smap A) : Prop := NoDup (keys m) /\ Forall (fun e => P (snd e)) m.

  Definition storable_market (md : market_data T) : Prop :=
    proper (md_spot_date md) /\ storable_map fin (md_spots md) /\ storable_map storable_curve (md_yields md) /\
    storable_map storable_curve (md_borrows md) /\ storable_map storable_stream (md_divs md) /\
    storable_map storable_vol (md_vols md).

  Definition storable_fixings (f : fixings T) : Prop :=
    NoDup (map fst f) /\ Forall (fun e => proper (dt_date (fst e)) /\ fin (snd e)) f.
  Definition storable_table (t : fixing_table T) : Prop :=
    proper (known_until t) /\ storable_map storable_fixings (by_id t).

  Definition storable_pair (p : T * T) : Prop := fin (fst p) /\ fin (snd p).
  Fixpoint storable_report (r : report T) : Prop :=
    match r with
    | DeltaGammaReport x m | VegaVolgaReport x m => fin x /\ storable_map storable_pair m
    | TimeBumpedReport p th subs =>
        fin p /\ fin th /\
        (fix go (l : list (report T)) : Prop := match l with [] => True | u :: l' => storable_report u /\ go l' end) subs
    end.

  Definition storable_bump_vol (b : bump_vol T) : Prop :=
    match b with FlatAdditive x | ReplaceVol x => fin x | TimeScaled x y => fin x /\ fin y end.
  Fixpoint storable_generator (g : generator T) : Prop :=
    match g with
    | DeltaGammaGenerator x => fin x
    | VegaVolgaGenerator b => storable_bump_vol b
    | TimeBumpedGenerator b subs =>
        proper (bsd_date (bt_spot_date_bump b)) /\ proper (bt_ex_from b) /\
        (fix go (l : list (generator T)) : Prop := match l with [] => True | u :: l' => storable_generator u /\ go l' end) subs
    end.
End Storable.
