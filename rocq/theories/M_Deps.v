(** Model of src/risk/dependencies.rs and of [Instrument::dependencies]. *)
From Coq Require Import ZArith List String Bool.
From Verif Require Import Prelude Num M_Dates M_Calendar M_Instruments.
Import ListNotations.
Open Scope string_scope.

(** dependencies.rs:11-22 [struct DependencyCollector].  Maps and sets keyed by an instrument are keyed by its id
    (mod.rs:211-226: equality and hash of instruments look at the id only) and remember the instrument. *)
Record collector (T : Type) := mkCollector {
  col_spot_date : date;
  col_spots : smap (instrument T);
  col_yield_curves : smap date;
  col_forward_curves : smap (instrument T * date);
  col_vol_surfaces : smap (instrument T * date);
  col_instruments : smap (instrument T);
  col_forward_ids : smap (list string);
  col_fixings : smap (list datetime)
}.
Arguments mkCollector {T}.
Arguments col_spot_date {T} c : rename.
Arguments col_spots {T} c : rename.
Arguments col_yield_curves {T} c : rename.
Arguments col_forward_curves {T} c : rename.
Arguments col_vol_surfaces {T} c : rename.
Arguments col_instruments {T} c : rename.
Arguments col_forward_ids {T} c : rename.
Arguments col_fixings {T} c : rename.

(** dependencies.rs:174-182 [set_hwm_by_str]. *)
Definition set_hwm_by_str (id : string) (hwm : date) (m : smap date) : smap date :=
  match get id m with
  | None => put id hwm m
  | Some old => if (old <? hwm)%Z then put id hwm m else m
  end.

(** dependencies.rs:155-158 and 170: [entry(id).or_insert(Vec::new()).push(x)]. *)
Definition push_entry {A} (id : string) (x : A) (m : smap (list A)) : smap (list A) :=
  match get id m with
  | None => put id [x] m
  | Some l => put id (l ++ [x])%list m
  end.

Section Deps.
  Context {T : Type} {N : Num T}.
  Implicit Types i u : instrument T.
  Implicit Types s : collector T.

  (** dependencies.rs:25-38 [new]. *)
  Definition collector_new (spot_date : date) : collector T := mkCollector spot_date [] [] [] [] [] [] [].

  (** dependencies.rs:184-193 [set_hwm]: [or_insert] keeps the key already there. *)
  Definition set_hwm u (hwm : date) (m : smap (instrument T * date)) : smap (instrument T * date) :=
    match get (instrument_id u) m with
    | None => put (instrument_id u) (u, hwm) m
    | Some (key, old) => if (old <? hwm)%Z then put (instrument_id u) (key, hwm) m else m
    end.

  (** dependencies.rs:92-95 [add_instrument]. *)
  Definition add_instrument u s : collector T :=
    mkCollector (col_spot_date s) (col_spots s) (col_yield_curves s) (col_forward_curves s) (col_vol_surfaces s)
      (put (instrument_id u) u (col_instruments s)) (col_forward_ids s) (col_fixings s).

  (** dependencies.rs:125-127 [yield_curve]. *)
  Definition col_yield (credit : string) (hwm : date) s : collector T :=
    mkCollector (col_spot_date s) (col_spots s) (set_hwm_by_str credit hwm (col_yield_curves s)) (col_forward_curves s)
      (col_vol_surfaces s) (col_instruments s) (col_forward_ids s) (col_fixings s).

  (** dependencies.rs:134-139: HashSet::insert keeps the element already there. *)
  Definition add_spot u s : collector T :=
    add_instrument u
      (mkCollector (col_spot_date s)
        (match get (instrument_id u) (col_spots s) with Some _ => col_spots s | None => put (instrument_id u) u (col_spots s) end)
        (col_yield_curves s) (col_forward_curves s) (col_vol_surfaces s) (col_instruments s) (col_forward_ids s) (col_fixings s)).

  (** dependencies.rs:129-140 [spot], given the dependencies of the instrument. *)
  Definition col_spot (deps : collector T -> res (collector T * spot_requirement)) u s : res (collector T) :=
    let* (s', r) := deps s in
    Ok (match r with NotRequired => s' | _ => add_spot u s' end).

  (** dependencies.rs:142-160 [forward_curve]. *)
  Definition col_forward (deps : collector T -> res (collector T * spot_requirement)) u (hwm : date) s : res (collector T) :=
    col_spot deps u
      (mkCollector (col_spot_date s) (col_spots s) (set_hwm_by_str (credit_id u) hwm (col_yield_curves s))
        (set_hwm u hwm (col_forward_curves s)) (col_vol_surfaces s) (col_instruments s)
        (push_entry (credit_id u) (instrument_id u) (col_forward_ids s)) (col_fixings s)).

  (** dependencies.rs:162-166 [vol_surface]. *)
  Definition col_vol u (hwm : date) s : collector T :=
    add_instrument u
      (mkCollector (col_spot_date s) (col_spots s) (col_yield_curves s) (col_forward_curves s)
        (set_hwm u hwm (col_vol_surfaces s)) (col_instruments s) (col_forward_ids s) (col_fixings s)).

  (** dependencies.rs:168-171 [fixing]. *)
  Definition col_fixing (id : string) (d : datetime) s : collector T :=
    mkCollector (col_spot_date s) (col_spots s) (col_yield_curves s) (col_forward_curves s) (col_vol_surfaces s)
      (col_instruments s) (col_forward_ids s) (push_entry id d (col_fixings s)).

  (** assets.rs:135-145 [dependence_on_spot_discount]. *)
  Definition spot_discount i s : res (collector T) :=
    let* pay := apply_rule (settlement i) (col_spot_date s) in
    Ok (col_yield (credit_id i) pay s).

  Section Members.
    Variable deps : instrument T -> collector T -> res (collector T * spot_requirement).

    (** basket.rs:70-76: a member that needs its spot is asked for its dependencies a second time. *)
    Fixpoint basket_deps (members : holdings T) s : res (collector T) :=
      match members with
      | [] => Ok s
      | (_, u) :: members' =>
          match deps u s with
          | Ok (s', NotRequired) => basket_deps members' s'
          | Ok (s', _) =>
              match col_spot (deps u) u s' with
              | Ok s'' => basket_deps members' s''
              | Err m => Err m
              | Panic m => Panic m
              end
          | Err m => Err m
          | Panic m => Panic m
          end
      end.
  End Members.

  (** options.rs:304-325 [VanillaOption::dependencies]. *)
  Definition vanilla_deps (deps : collector T -> res (collector T * spot_requirement)) (v : vanilla T) s
      : res (collector T * spot_requirement) :=
    let u := van_underlying v in
    let s := col_fixing (instrument_id u) (van_expiry v) s in
    let s := col_yield (van_credit_id v) (van_pay_date v) s in
    let expiry_date := dt_date (van_expiry v) in
    let* s := col_forward deps u expiry_date s in
    Ok (col_vol u expiry_date s, NotRequired).

  (** [Instrument::dependencies] against a collector: assets.rs:74-79, 221-225, 357-362, bonds.rs:82-90, basket.rs:68-78,
      options.rs:304-325, 332, 403-411. *)
  Fixpoint dependencies (i : instrument T) (s : collector T) : res (collector T * spot_requirement) :=
    match i with
    | ICurrency _ | ICreditEntity _ _ _ => let* s := spot_discount i s in Ok (s, NotRequired)
    | IEquity _ _ _ _ => let* s := spot_discount i s in Ok (s, Required)
    | IZeroCoupon _ credit _ _ payment _ => Ok (col_yield credit payment s, NotRequired)
    | IBasket _ _ _ _ members => let* s := basket_deps dependencies members s in Ok (s, NotRequired)
    | ISpotEuropean v _ => vanilla_deps (dependencies (van_underlying v)) v s
    | IForwardEuropean v _ strike_date _ =>
        vanilla_deps (dependencies (van_underlying v)) v (col_fixing (instrument_id (van_underlying v)) strike_date s)
    end.

  (** dependencies.rs:129-140 [spot], the entry point used by the pricers. *)
  Definition collect_spot (i : instrument T) (s : collector T) : res (collector T) := col_spot (dependencies i) i s.

  (** dependencies.rs:142-160 [forward_curve]. *)
  Definition collect_forward (i : instrument T) (hwm : date) (s : collector T) : res (collector T) :=
    col_forward (dependencies i) i hwm s.

  (** dependencies.rs:45-60 [has_spot], [yield_curve_hwm], [forward_curve_hwm], [vol_surface_hwm]. *)
  Definition has_spot u s : bool := contains (instrument_id u) (col_spots s).
  Definition yield_curve_hwm (credit : string) s : option date := get credit (col_yield_curves s).
  Definition forward_curve_hwm u s : option date := option_map snd (get (instrument_id u) (col_forward_curves s)).
  Definition vol_surface_hwm u s : option date := option_map snd (get (instrument_id u) (col_vol_surfaces s)).

  (** dependencies.rs:70-90 [instrument_by_id], [forward_id_by_credit_id] and [fixings]. *)
  Definition instrument_by_id (id : string) s : option (instrument T) := get id (col_instruments s).
  Definition forward_ids_of (credit : string) s : list string :=
    match get credit (col_forward_ids s) with Some l => l | None => [] end.
  Definition fixings_of (id : string) s : list datetime :=
    match get id (col_fixings s) with Some l => l | None => [] end.
End Deps.
