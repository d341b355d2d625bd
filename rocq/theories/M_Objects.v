(** The objects of the other model files as serialisation sees them, and back; the readers and writers of src/facade/mod.rs.
    Fields are given in the order of the Rust structs. *)
From Coq Require Import ZArith List String Bool.
From Verif Require Import Prelude Num M_Dates M_Calendar M_Interp M_Curves M_Fixings M_Forward M_Vol M_Black76 M_Instruments
  M_Risk M_Reports M_MonteCarlo M_Schema M_Serde.
Import ListNotations.
Open Scope string_scope.

Section Objects.
  Context {T : Type} {N : Num T} {TR : Trans T}.
  (** [f64::is_finite] and the not-a-number of the interpolators. *)
  Variable finite : T -> bool.
  Variable nan : T.
  Notation val := (val T).

  (** A value that no type of [M_Schema] describes; never met after a successful [read] at the right type. *)
  Definition ill {A} : res A := Err "unreachable".

  (** dates/datetime.rs:21-26, 40-44, 83-87. *)
  Definition tod_name (t : time_of_day) : string := match t with Open_ => "Open" | EDSP => "EDSP" | Close_ => "Close" end.
  Definition tod_of_name (n : string) : res time_of_day :=
    if n =? "Open" then Ok Open_ else if n =? "EDSP" then Ok EDSP else if n =? "Close" then Ok Close_ else ill.
  Definition val_of_datetime (dt : datetime) : val :=
    VStruct [("date", VDate (dt_date dt)); ("time_of_day", VUnit (tod_name (dt_tod dt)))].
  Definition datetime_of_val (v : val) : res datetime :=
    match v with
    | VStruct [(_, VDate d); (_, VUnit n)] => let* t := tod_of_name n in Ok (mkDT d t)
    | _ => ill
    end.
  Definition val_of_ddf (d : ddf T) : val := VStruct [("date", VDate (ddf_date d)); ("day_fraction", VNum (ddf_frac d))].
  Definition ddf_of_val (v : val) : res (ddf T) :=
    match v with VStruct [(_, VDate d); (_, VNum f)] => Ok (mkDDF d f) | _ => ill end.

  (** dates/calendar.rs:115-116, 168-169, 289-294, 483-488. *)
  Fixpoint val_of_calendar (c : calendar T) : val :=
    match c with
    | EveryDay => VTagged TrCalendar (Some "EveryDayCalendar") (VTuple [])
    | Weekday => VTagged TrCalendar (Some "WeekdayCalendar") (VTuple [])
    | Holidays name hols => VTagged TrCalendar (Some "WeekdayAndHolidayCalendar")
        (VStruct [("name", VStr name); ("holidays", VVec (map VDate hols))])
    | VolCal name inner weight => VTagged TrCalendar (Some "VolatilityCalendar")
        (VStruct [("name", VStr name); ("calendar", val_of_calendar inner); ("holiday_weight", VNum weight)])
    end.
  Definition date_of_val (v : val) : res date := match v with VDate d => Ok d | _ => ill end.
  Fixpoint calendar_of_val (v : val) : res (calendar T) :=
    match v with
    | VTagged _ (Some tag) (VTuple []) =>
        if tag =? "EveryDayCalendar" then Ok EveryDay else if tag =? "WeekdayCalendar" then Ok Weekday else ill
    | VTagged _ _ (VStruct [(_, VStr name); (_, VVec l)]) => let* hols := mapM date_of_val l in Ok (Holidays name hols)
    | VTagged _ _ (VStruct [(_, VStr name); (_, c); (_, VNum weight)]) =>
        let* inner := calendar_of_val c in Ok (VolCal name inner weight)
    | _ => ill
    end.

  (** dates/rules.rs:54-55, 74-79, 134-137. *)
  Definition val_of_rule (r : date_rule T) : val :=
    match r with
    | NullRule => VTagged TrDateRule (Some "NullRule") (VStruct [])
    | BusinessDays cal step slip => VTagged TrDateRule (Some "BusinessDays")
        (VStruct [("calendar", val_of_calendar cal); ("step", VInt step); ("slip_forward", VBool slip)])
    | ModifiedFollowing cal => VTagged TrDateRule (Some "ModifiedFollowing") (VStruct [("calendar", val_of_calendar cal)])
    end.
  Definition rule_of_val (v : val) : res (date_rule T) :=
    match v with
    | VTagged _ _ (VStruct []) => Ok NullRule
    | VTagged _ _ (VStruct [(_, c); (_, VInt step); (_, VBool slip)]) =>
        let* cal := calendar_of_val c in Ok (BusinessDays cal step slip)
    | VTagged _ _ (VStruct [(_, c)]) => let* cal := calendar_of_val c in Ok (ModifiedFollowing cal)
    | _ => ill
    end.

  (** instruments/assets.rs:33-37 [Currency]; [RcCurrency]. *)
  Definition val_of_currency (c : currency T) : val :=
    VStruct [("id", VStr (cur_id c)); ("settlement", val_of_rule (cur_settlement c))].
  Definition currency_of_val (v : val) : res (currency T) :=
    match v with
    | VStruct [(_, VStr id); (_, s)] => let* r := rule_of_val s in Ok (mkCurrency id r)
    | _ => ill
    end.
  Definition val_of_rc_currency (c : currency T) : val := VShared ShCurrency (val_of_currency c).
  Definition rc_currency_of_val (v : val) : res (currency T) :=
    match v with VShared ShCurrency u => currency_of_val u | _ => ill end.

  (** instruments/options.rs:30-40. *)
  Definition pc_name (p : put_or_call) : string := match p with Put => "Put" | Call => "Call" end.
  Definition pc_of_name (n : string) : res put_or_call := if n =? "Put" then Ok Put else if n =? "Call" then Ok Call else ill.
  Definition cp_name (c : option_settlement) : string := match c with CashSettled => "Cash" | PhysicalSettled => "Physical" end.
  Definition cp_of_name (n : string) : res option_settlement :=
    if n =? "Cash" then Ok CashSettled else if n =? "Physical" then Ok PhysicalSettled else ill.

  (** instruments/options.rs:44-57: the fields of [VanillaOption], its underlying being an [RcInstrument]. *)
  Definition val_of_vanilla (underlying : val) (v : vanilla T) : list (string * val) :=
    [("id", VStr (van_id v)); ("credit_id", VStr (van_credit_id v)); ("underlying", VShared ShInstrument underlying);
     ("settlement", val_of_rule (van_settlement v)); ("expiry", val_of_datetime (van_expiry v));
     ("put_or_call", VUnit (pc_name (van_put_or_call v))); ("cash_or_physical", VUnit (cp_name (van_cash_or_physical v)));
     ("expiry_time", val_of_ddf (van_expiry_time v)); ("pay_date", VDate (van_pay_date v))].

  (** assets.rs:172-178, 307-311, bonds.rs:24-32, basket.rs:30-37, options.rs:178-183, 203-212 behind their tags. *)
  Fixpoint val_of_instrument (i : instrument T) : val :=
    let tagged tag fs := VTagged TrInstrument (Some tag) (VStruct fs) in
    match i with
    | ICurrency c => VTagged TrInstrument (Some "Currency") (val_of_currency c)
    | ICreditEntity id cur s =>
        tagged "CreditEntity" [("id", VStr id); ("currency", val_of_rc_currency cur); ("settlement", val_of_rule s)]
    | IEquity id credit cur s =>
        tagged "Equity" [("id", VStr id); ("credit_id", VStr credit); ("currency", val_of_rc_currency cur);
                         ("settlement", val_of_rule s)]
    | IZeroCoupon id credit cur ex pay s =>
        tagged "ZeroCoupon" [("id", VStr id); ("credit_id", VStr credit); ("currency", val_of_rc_currency cur);
                             ("ex_date", val_of_datetime ex); ("payment_date", VDate pay); ("settlement", val_of_rule s)]
    | IBasket id credit cur s members =>
        tagged "Basket" [("id", VStr id); ("credit_id", VStr credit); ("currency", val_of_rc_currency cur);
                         ("settlement", val_of_rule s);
                         ("basket", VVec (map (fun m => match m with (w, u) =>
                            VTuple [VNum w; VShared ShInstrument (val_of_instrument u)] end) members))]
    | ISpotEuropean v strike =>
        tagged "SpotStartingEuropean" (val_of_vanilla (val_of_instrument (van_underlying v)) v ++ [("strike", VNum strike)])%list
    | IForwardEuropean v fraction strike_date strike_time =>
        tagged "ForwardStartingEuropean" (val_of_vanilla (val_of_instrument (van_underlying v)) v ++
          [("strike_fraction", VNum fraction); ("strike_date", val_of_datetime strike_date);
           ("strike_time", val_of_ddf strike_time)])%list
    end.
  Definition val_of_rc_instrument (i : instrument T) : val := VShared ShInstrument (val_of_instrument i).

  Fixpoint instrument_of_val (v : val) : res (instrument T) :=
    match v with
    | VTagged _ _ (VStruct [(_, VStr id); (_, s)]) => let* c := currency_of_val (VStruct [("id", VStr id); ("settlement", s)]) in
        Ok (ICurrency c)
    | VTagged _ _ (VStruct [(_, VStr id); (_, c); (_, s)]) =>
        let* cur := rc_currency_of_val c in let* r := rule_of_val s in Ok (ICreditEntity id cur r)
    | VTagged _ _ (VStruct [(_, VStr id); (_, VStr credit); (_, c); (_, s)]) =>
        let* cur := rc_currency_of_val c in let* r := rule_of_val s in Ok (IEquity id credit cur r)
    | VTagged _ _ (VStruct [(_, VStr id); (_, VStr credit); (_, c); (_, s); (_, VVec l)]) =>
        let* cur := rc_currency_of_val c in
        let* r := rule_of_val s in
        let* members :=
          (fix go l := match l with
                       | [] => Ok []
                       | VTuple [VNum w; VShared ShInstrument u] :: l' =>
                           let* i := instrument_of_val u in let* is := go l' in Ok ((w, i) :: is)
                       | _ => ill
                       end) l in
        Ok (IBasket id credit cur r members)
    | VTagged _ _ (VStruct [(_, VStr id); (_, VStr credit); (_, c); (_, ex); (_, VDate pay); (_, s)]) =>
        let* cur := rc_currency_of_val c in
        let* ex' := datetime_of_val ex in
        let* r := rule_of_val s in
        Ok (IZeroCoupon id credit cur ex' pay r)
    | VTagged _ _ (VStruct ((_, VStr id) :: (_, VStr credit) :: (_, VShared ShInstrument u) :: (_, s) :: (_, expiry) ::
                            (_, VUnit pc) :: (_, VUnit cp) :: (_, time) :: (_, VDate pay) :: rest)) =>
        let* u' := instrument_of_val u in
        let* r := rule_of_val s in
        let* expiry' := datetime_of_val expiry in
        let* pc' := pc_of_name pc in
        let* cp' := cp_of_name cp in
        let* time' := ddf_of_val time in
        let v := mkVanilla id credit u' r expiry' pc' cp' time' pay in
        match rest with
        | [(_, VNum strike)] => Ok (ISpotEuropean v strike)
        | [(_, VNum fraction); (_, sd); (_, st)] =>
            let* sd' := datetime_of_val sd in let* st' := ddf_of_val st in Ok (IForwardEuropean v fraction sd' st')
        | _ => ill
        end
    | _ => ill
    end.
  Definition rc_instrument_of_val (v : val) : res (instrument T) :=
    match v with VShared ShInstrument u => instrument_of_val u | _ => ill end.

  (** core/dedup.rs:301-313 [dedup_map_from_slice]: the last of several with the same id stays. *)
  Definition dedup_map_from_slice (l : list val) : smap val := fold_left (fun m v => put (id_of v) v m) l [].

  (** facade/mod.rs:34-52 [instrument_from_json]. *)
  Definition instrument_from_json (source : json T) (ccy_dedup : dedup_control) (currencies : list (currency T))
      (instr_dedup : dedup_control) (instruments : list (instrument T)) : act T (instrument T) :=
    let ccy := mkDedup ccy_dedup (dedup_map_from_slice (map val_of_currency currencies)) in
    let opt := mkDedup instr_dedup (dedup_map_from_slice (map val_of_instrument instruments)) in
    let! v := with_dedup ShCurrency ccy (with_dedup ShInstrument opt (read source (TShared ShInstrument))) in
    lift (rc_instrument_of_val v).

  (** facade/mod.rs:63-70 [currency_from_json]: in whatever state the thread is. *)
  Definition currency_from_json (source : json T) : act T (currency T) :=
    let! v := read source (TShared ShCurrency) in lift (rc_currency_of_val v).

  (** Writing an instrument under the same kind of controls, as core/dedup.rs:303-345 and options.rs:1004-1060 do. *)
  Definition instrument_to_json (i : instrument T) (ccy_dedup : dedup_control) (currencies : list (currency T))
      (instr_dedup : dedup_control) (instruments : list (instrument T)) : act T (json T) :=
    let ccy := mkDedup ccy_dedup (dedup_map_from_slice (map val_of_currency currencies)) in
    let opt := mkDedup instr_dedup (dedup_map_from_slice (map val_of_instrument instruments)) in
    with_dedup ShCurrency ccy (with_dedup ShInstrument opt (write finite (val_of_rc_instrument i))).

  (** math/interpolation.rs:71-78, 223-228 and 269-274: the inputs of either interpolator. *)
  Definition extrap_name (e : extrap) : string :=
    match e with Flat => "Flat" | Natural => "Natural" | NotANumber => "NotANumber" | Zero => "Zero" | Throw => "Throw" end.
  Definition extrap_of_name (n : string) : res extrap :=
    if n =? "Flat" then Ok Flat else if n =? "Natural" then Ok Natural else if n =? "NotANumber" then Ok NotANumber
    else if n =? "Zero" then Ok Zero else if n =? "Throw" then Ok Throw else ill.
  Definition val_of_points {X} (val_of_x : X -> val) (left right : extrap) (points : list (X * T)) : val :=
    VStruct [("left", VUnit (extrap_name left)); ("right", VUnit (extrap_name right));
             ("points", VVec (map (fun p => match p with (x, y) => VTuple [val_of_x x; VNum y] end) points))].
  Definition points_of_val {X} (x_of_val : val -> res X) (v : val) : res (extrap * extrap * list (X * T)) :=
    match v with
    | VStruct [(_, VUnit l); (_, VUnit r); (_, VVec ps)] =>
        let* lx := extrap_of_name l in
        let* rx := extrap_of_name r in
        let* points := mapM (fun p => match p with VTuple [x; VNum y] => let* x' := x_of_val x in Ok (x', y) | _ => ill end) ps in
        Ok (lx, rx, points)
    | _ => ill
    end.
  Definition val_of_linear (l : linear T date) : val := val_of_points VDate (lin_left l) (lin_right l) (lin_points l).
  (** The derived [Deserialize] of interpolation.rs:223: no check of the points. *)
  Definition linear_of_val (v : val) : res (linear T date) :=
    let* (lx, rx, points) := points_of_val date_of_val v in Ok (mkLinear lx rx points).

  (** data/curves.rs:91-94, 129-133, 174-178, 220-224, 255-259 behind their tags. *)
  Fixpoint val_of_curve (c : curve T) : val :=
    match c with
    | ZeroRateCurve base => VTagged TrRateCurve (Some "ZeroRateCurve") (VStruct [("base", VDate base)])
    | RateCurveAct365 base interp => VTagged TrRateCurve (Some "RateCurveAct365")
        (VStruct [("base", VDate base); ("interp", val_of_linear interp)])
    | AnnualisedFlatBump c' b => VTagged TrRateCurve (Some "AnnualisedFlatBump")
        (VStruct [("curve", val_of_curve c'); ("bump", VNum b)])
    | ContinuouslyCompoundedFlatBump c' b => VTagged TrRateCurve (Some "ContinuouslyCompoundedFlatBump")
        (VStruct [("curve", val_of_curve c'); ("bump", VNum b)])
    | RelativeBump c' b => VTagged TrRateCurve (Some "RelativeBump")
        (VStruct [("curve", val_of_curve c'); ("one_plus_bump", VNum b)])
    end.
  Fixpoint curve_of_val (v : val) : res (curve T) :=
    match v with
    | VTagged _ _ (VStruct [(_, VDate base)]) => Ok (ZeroRateCurve base)
    | VTagged _ _ (VStruct [(_, VDate base); (_, l)]) => let* interp := linear_of_val l in Ok (RateCurveAct365 base interp)
    | VTagged _ (Some tag) (VStruct [(_, c); (_, VNum b)]) =>
        let* c' := curve_of_val c in
        if tag =? "AnnualisedFlatBump" then Ok (AnnualisedFlatBump c' b)
        else if tag =? "ContinuouslyCompoundedFlatBump" then Ok (ContinuouslyCompoundedFlatBump c' b)
        else if tag =? "RelativeBump" then Ok (RelativeBump c' b) else ill
    | _ => ill
    end.

  (** data/volsmile.rs:35-38, 66-69. *)
  Definition val_of_smile (s : smile T) : val :=
    match s with
    | FlatSmile vol => VStruct [("vol", VNum vol)]
    | CubicSplineSmile sp => VStruct [("smile", val_of_points VNum (sp_left sp) (sp_right sp) (sp_points sp))]
    end.
  (** interpolation.rs:344-358: the second derivatives are worked out again. *)
  Definition num_of_val (v : val) : res T := match v with VNum x => Ok x | _ => ill end.
  Definition smile_of_val (v : val) : res (smile T) :=
    match v with
    | VStruct [(_, VNum vol)] => Ok (FlatSmile vol)
    | VStruct [(_, ps)] =>
        let* (lx, rx, points) := points_of_val num_of_val ps in
        let* sp := spline_load points lx rx in
        Ok (CubicSplineSmile sp)
    | _ => ill
    end.

  (** data/volsurface.rs:268-302. *)
  Definition assumptions_name (a : div_assumptions) : string :=
    match a with NoCashDivs => "NoCashDivs" | IndependentLogNormals => "IndependentLogNormals"
               | FixedDivs => "FixedDivs" | JumpDivs => "JumpDivs" end.
  Definition assumptions_of_name (n : string) : res div_assumptions :=
    if n =? "NoCashDivs" then Ok NoCashDivs else if n =? "IndependentLogNormals" then Ok IndependentLogNormals
    else if n =? "FixedDivs" then Ok FixedDivs else if n =? "JumpDivs" then Ok JumpDivs else ill.

  Definition is_flat_smile (s : smile T) : bool := match s with FlatSmile _ => true | _ => false end.

  (** data/volsurface.rs:406-411, 498-516, 768-832 and voldecorators.rs:21-26, 90-95, 167-171, 230-235, 299-308.  A surface
      by probability is one of the two that can name their type. *)
  Fixpoint val_of_vol (v : vol_surface T) : val :=
    let tagged tag fs := VTagged TrVolSurface (Some tag) (VStruct fs) in
    match v with
    | FlatVolSurface vol cal base =>
        tagged "FlatVolSurface" [("vol", VNum vol); ("calendar", val_of_calendar cal); ("base_date", val_of_ddf base)]
    | VolByProbability p =>
        tagged (if forallb (fun s => is_flat_smile (snd s)) (vbp_smiles p) then "VolByProbabilityFlatSmile"
                else "VolByProbabilityCubicSplineSmile")
          [("smiles", VVec (map (fun s => match s with (d, m) => VTuple [val_of_ddf d; val_of_smile m] end) (vbp_smiles p)));
           ("calendar", val_of_calendar (vbp_calendar p)); ("base_date", val_of_ddf (vbp_base p));
           ("forward", val_of_linear (vbp_forward p)); ("fixed_divs_after", val_of_linear (vbp_fixed_divs p));
           ("div_assumptions", VUnit (assumptions_name (vbp_assumptions p)))]
    | ConstantExpiry b offset base => tagged "ConstantExpiryTimeEvolution"
        [("base_vol", val_of_vol b); ("vol_time_offset", VNum offset); ("base_date", val_of_ddf base)]
    | RollingExpiry b offset base => tagged "RollingExpiryTimeEvolution"
        [("base_vol", val_of_vol b); ("vol_time_offset", VNum offset); ("base_date", val_of_ddf base)]
    | ParallelBumpVol b x => tagged "ParallelBumpVol" [("base_vol", val_of_vol b); ("bump", VNum x)]
    | TimeScaledBumpVol b x floor => tagged "TimeScaledBumpVol"
        [("base_vol", val_of_vol b); ("bump", VNum x); ("vol_time_floor", VNum floor)]
    | StickyDeltaBumpVol b _ => tagged "StickyDeltaBumpVol" [("base_vol", val_of_vol b)]
    end.
  (** volsurface.rs:852-858: the rest of a surface by probability is worked out again, which can fail. *)
  Fixpoint vol_of_val (v : val) : res (vol_surface T) :=
    match v with
    | VTagged _ type_id (VStruct fs) =>
        match fs with
        | [(_, VNum vol); (_, c); (_, d)] =>
            let* cal := calendar_of_val c in let* base := ddf_of_val d in Ok (FlatVolSurface vol cal base)
        | [(_, VVec l); (_, c); (_, d); (_, f); (_, g); (_, VUnit a)] =>
            let* smiles := mapM (fun p => match p with
                                          | VTuple [d; m] => let* d' := ddf_of_val d in let* m' := smile_of_val m in Ok (d', m')
                                          | _ => ill
                                          end) l in
            let* cal := calendar_of_val c in
            let* base := ddf_of_val d in
            let* fwd := linear_of_val f in
            let* divs := linear_of_val g in
            let* da := assumptions_of_name a in
            let* p := vbp_new nan smiles cal base fwd divs da in
            Ok (VolByProbability p)
        | [(_, b); (_, VNum x)] => let* b' := vol_of_val b in Ok (ParallelBumpVol b' x)
        | [(_, b); (_, VNum x); (_, VNum floor)] => let* b' := vol_of_val b in Ok (TimeScaledBumpVol b' x floor)
        | [(_, b); (_, VNum offset); (_, d)] =>
            let* b' := vol_of_val b in
            let* base := ddf_of_val d in
            match type_id with
            | None => ill
            | Some tag =>
                if tag =? "ConstantExpiryTimeEvolution" then Ok (ConstantExpiry b' offset base)
                else if tag =? "RollingExpiryTimeEvolution" then Ok (RollingExpiry b' offset base) else ill
            end
        | _ => ill
        end
    | _ => ill
    end.

  (** data/divstream.rs:38-45, 79-84. *)
  Definition val_of_dividend (d : dividend T) : val :=
    VStruct [("cash", VNum (cash d)); ("relative", VNum (relative d)); ("ex_date", VDate (ex_date d));
             ("pay_date", VDate (pay_date d))].
  Definition dividend_of_val (v : val) : res (dividend T) :=
    match v with VStruct [(_, VNum c); (_, VNum r); (_, VDate e); (_, VDate p)] => Ok (mkDiv c r e p) | _ => ill end.
  Definition val_of_stream (s : div_stream T) : val :=
    VStruct [("dividends", VVec (map val_of_dividend (dividends s))); ("div_yield", val_of_curve (div_yield s));
             ("last_cash_ex_date", VDate (last_cash_ex_date s))].
  Definition stream_of_val (v : val) : res (div_stream T) :=
    match v with
    | VStruct [(_, VVec l); (_, c); (_, VDate last)] =>
        let* ds := mapM dividend_of_val l in let* y := curve_of_val c in Ok (mkStream ds y last)
    | _ => ill
    end.

  (** A [HashMap<String, _>]. *)
  Definition val_of_map {A} (f : A -> val) (m : smap A) : val := VMap (map (fun e => match e with (n, a) => (n, f a) end) m).
  Definition map_of_val {A} (f : val -> res A) (v : val) : res (smap A) :=
    match v with
    | VMap m => mapM (fun e => match e with (n, u) => let* a := f u in Ok (n, a) end) m
    | _ => ill
    end.

  (** risk/marketdata.rs:40-48. *)
  Definition val_of_market (md : market_data T) : val :=
    VStruct [("spot_date", VDate (md_spot_date md)); ("spots", val_of_map VNum (md_spots md));
             ("yield_curves", val_of_map val_of_curve (md_yields md));
             ("borrow_curves", val_of_map val_of_curve (md_borrows md));
             ("dividends", val_of_map val_of_stream (md_divs md)); ("vol_surfaces", val_of_map val_of_vol (md_vols md))].
  Definition market_of_val (v : val) : res (market_data T) :=
    match v with
    | VStruct [(_, VDate d); (_, s); (_, y); (_, b); (_, ds); (_, vs)] =>
        let* spots := map_of_val num_of_val s in
        let* yields := map_of_val curve_of_val y in
        let* borrows := map_of_val curve_of_val b in
        let* divs := map_of_val stream_of_val ds in
        let* vols := map_of_val vol_of_val vs in
        Ok (mkMarket d spots yields borrows divs vols)
    | _ => ill
    end.

  (** data/fixings.rs:10-14, 155-211. *)
  Definition val_of_fixings (f : fixings T) : val :=
    VStruct [("fixing_by_date", VVec (map (fun e => match e with (d, x) => VTuple [val_of_datetime d; VNum x] end) f))].
  Definition fixings_of_val (v : val) : res (fixings T) :=
    match v with
    | VStruct [(_, VVec l)] =>
        let* ps := mapM (fun p => match p with VTuple [d; VNum x] => let* d' := datetime_of_val d in Ok (d', x) | _ => ill end) l in
        Ok (fixings_load ps)
    | _ => ill
    end.
  Definition val_of_fixing_table (t : fixing_table T) : val :=
    VStruct [("fixings_known_until", VDate (known_until t)); ("fixings_by_id", val_of_map val_of_fixings (by_id t))].
  Definition fixing_table_of_val (v : val) : res (fixing_table T) :=
    match v with
    | VStruct [(_, VDate d); (_, m)] => let* f := map_of_val fixings_of_val m in Ok (mkTable d f)
    | _ => ill
    end.

  (** risk/deltagamma.rs:26-30, 86-90, vegavolga.rs:35-39, 94-98, timebumped.rs:22-27. *)
  Definition val_of_pair (n n' : string) (p : T * T) : val := VStruct [(n, VNum (fst p)); (n', VNum (snd p))].
  Definition pair_of_val (v : val) : res (T * T) :=
    match v with VStruct [(_, VNum x); (_, VNum y)] => Ok (x, y) | _ => ill end.
  Fixpoint val_of_report (r : report T) : val :=
    let tagged tag fs := VTagged TrReport (Some tag) (VStruct fs) in
    match r with
    | DeltaGammaReport size results => tagged "DeltaGammaReport"
        [("bumpsize", VNum size); ("results", val_of_map (val_of_pair "delta" "gamma") results)]
    | VegaVolgaReport size results => tagged "VegaVolgaReport"
        [("bumpsize", VNum size); ("results", val_of_map (val_of_pair "vega" "volga") results)]
    | TimeBumpedReport price theta subs => tagged "TimeBumpedReport"
        [("price", VNum price); ("theta", VNum theta); ("subreports", VVec (map val_of_report subs))]
    end.
  Fixpoint report_of_val (v : val) : res (report T) :=
    match v with
    | VTagged _ (Some tag) (VStruct [(_, VNum size); (_, m)]) =>
        let* results := map_of_val pair_of_val m in
        if tag =? "DeltaGammaReport" then Ok (DeltaGammaReport size results)
        else if tag =? "VegaVolgaReport" then Ok (VegaVolgaReport size results) else ill
    | VTagged _ _ (VStruct [(_, VNum price); (_, VNum theta); (_, VVec l)]) =>
        let* subs := (fix go l := match l with
                                  | [] => Ok []
                                  | u :: l' => let* r := report_of_val u in let* rs := go l' in Ok (r :: rs)
                                  end) l in
        Ok (TimeBumpedReport price theta subs)
    | _ => ill
    end.

  (** data/bumpvol.rs:11-16, bumpspotdate.rs:8-31, risk/bumptime.rs:19-23. *)
  Definition val_of_bump_vol (b : bump_vol T) : val :=
    match b with
    | FlatAdditive size => VVariant "FlatAdditive" (VStruct [("size", VNum size)])
    | TimeScaled size floor => VVariant "TimeScaled" (VStruct [("size", VNum size); ("floor", VNum floor)])
    | ReplaceVol vol => VVariant "Replace" (VStruct [("vol", VNum vol)])
    end.
  Definition bump_vol_of_val (v : val) : res (bump_vol T) :=
    match v with
    | VVariant n (VStruct [(_, VNum x)]) =>
        if n =? "FlatAdditive" then Ok (FlatAdditive x) else if n =? "Replace" then Ok (ReplaceVol x) else ill
    | VVariant _ (VStruct [(_, VNum x); (_, VNum y)]) => Ok (TimeScaled x y)
    | _ => ill
    end.
  Definition dynamics_name (d : spot_dynamics) : string :=
    match d with StickySpot => "StickySpot" | StickyForward => "StickyForward" end.
  Definition dynamics_of_name (n : string) : res spot_dynamics :=
    if n =? "StickySpot" then Ok StickySpot else if n =? "StickyForward" then Ok StickyForward else ill.
  Definition val_of_bump_time (b : bump_time) : val :=
    VStruct [("spot_date_bump", VStruct [("spot_date", VDate (bsd_date (bt_spot_date_bump b)));
                                         ("spot_dynamics", VUnit (dynamics_name (bsd_dynamics (bt_spot_date_bump b))))]);
             ("_ex_from", VDate (bt_ex_from b))].
  Definition bump_time_of_val (v : val) : res bump_time :=
    match v with
    | VStruct [(_, VStruct [(_, VDate d); (_, VUnit n)]); (_, VDate e)] =>
        let* dyn := dynamics_of_name n in Ok (mkBumpTime (mkBumpSpotDate d dyn) e)
    | _ => ill
    end.

  (** risk/deltagamma.rs:118-121, vegavolga.rs:126-129, timebumped.rs:93-97. *)
  Fixpoint val_of_generator (g : generator T) : val :=
    let tagged tag fs := VTagged TrReportGenerator (Some tag) (VStruct fs) in
    match g with
    | DeltaGammaGenerator size => tagged "DeltaGammaReportGenerator" [("bumpsize", VNum size)]
    | VegaVolgaGenerator b => tagged "VegaVolgaReportGenerator" [("bump", val_of_bump_vol b)]
    | TimeBumpedGenerator b subs => tagged "TimeBumpedReportGenerator"
        [("bump", val_of_bump_time b); ("subgenerators", VVec (map val_of_generator subs))]
    end.
  Fixpoint generator_of_val (v : val) : res (generator T) :=
    match v with
    | VTagged _ _ (VStruct [(_, VNum size)]) => Ok (DeltaGammaGenerator size)
    | VTagged _ _ (VStruct [(_, b)]) => let* b' := bump_vol_of_val b in Ok (VegaVolgaGenerator b')
    | VTagged _ _ (VStruct [(_, b); (_, VVec l)]) =>
        let* b' := bump_time_of_val b in
        let* subs := (fix go l := match l with
                                  | [] => Ok []
                                  | u :: l' => let* g := generator_of_val u in let* gs := go l' in Ok (g :: gs)
                                  end) l in
        Ok (TimeBumpedGenerator b' subs)
    | _ => ill
    end.

  (** facade/mod.rs:86-130: the other readers. *)
  Definition fixing_table_from_json (source : json T) : act T (fixing_table T) :=
    let! v := read source ty_fixing_table in lift (fixing_table_of_val v).
  Definition market_data_from_json (source : json T) : act T (market_data T) :=
    let! v := read source ty_market_data in lift (market_of_val v).
  Definition report_generator_from_json (source : json T) : act T (generator T) :=
    let! v := read source (TTagged TrReportGenerator) in lift (generator_of_val v).
  Definition reports_from_json (source : json T) : act T (list (report T)) :=
    let! v := read source (TVec (TTagged TrReport)) in
    lift (match v with VVec l => mapM report_of_val l | _ => ill end).
End Objects.
