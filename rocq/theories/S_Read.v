(** What the properties of reading arbitrary JSON speak about: the numbers and texts of a JSON value, what a thread's tables may
    hold, and the parts of an object. *)
From Coq Require Import ZArith List String Bool.
From Verif Require Import Prelude Num M_Dates M_Calendar M_Interp M_Curves M_Vol M_Instruments M_Schema M_Serde M_Objects S_Serde.
Import ListNotations.
Open Scope string_scope.
Open Scope list_scope.

Section Read.
  Context {T : Type} {N : Num T}.
  Variable finite : T -> bool.

  (** Every number of the JSON value is finite as a floating-point number. *)
  Fixpoint numbers_finite (j : json T) : Prop :=
    match j with
    | JNum x => finite x = true
    | JInt z => finite (nofZ z) = true
    | JArr l => every numbers_finite l
    | JObj es => every (fun e => match e with (_, j') => numbers_finite j' end) es
    | _ => True
    end.

  (** The integers that are written are finite as floating-point numbers. *)
  Definition whole_numbers : Prop := forall z, (-2147483648 <= z <= 18446744073709551615)%Z -> finite (nofZ z) = true.

  (** The texts of the JSON value, other than the names of fields. *)
  Fixpoint texts (j : json T) : list string :=
    match j with
    | JStr s => [s]
    | JArr l => flat_map texts l
    | JObj es => flat_map (fun e => match e with (_, j') => texts j' end) es
    | _ => []
    end.

  (** One of the texts makes the parser of dates panic. *)
  Definition panicking_text (j : json T) : Prop := exists x m, In x (texts j) /\ from_str x = Panic m.

  (** What the thread knows under its ids are objects of the right types. *)
  Definition known (s : tls T) : Prop :=
    forall k id v, get id (dd_map (slot k s)) = Some v -> conforms finite v (content k).

  (** An object and everything inside it. *)
  Fixpoint pieces (v : val T) : list (val T) :=
    v :: match v with
         | VVariant _ u | VTagged _ _ u | VShared _ u => pieces u
         | VStruct fs | VMap fs => flat_map (fun e => match e with (_, u) => pieces u end) fs
         | VTuple l | VVec l => flat_map pieces l
         | _ => []
         end.

  (** A smile of fewer than two points is in it. *)
  Definition short_smile (v : val T) : Prop := exists l r points,
    In (VStruct [("smile", VStruct [("left", l); ("right", r); ("points", VVec points)])]) (pieces v) /\
    (List.length points < 2)%nat.

  (** A calendar is in it, and two times, between which the calendar cannot count (it runs over the end of all dates). *)
  Definition uncountable (v : val T) : Prop := exists c from to m,
    In (val_of_calendar c) (pieces v) /\ In (val_of_ddf from) (pieces v) /\ In (val_of_ddf to) (pieces v) /\
    year_fraction c from to = Panic m.
End Read.

(** A forward curve is in it, a time and a smile, and the price the curve gives for the date is neither below, above nor equal to
    one of the strikes of the smile: one of them is not a number. *)
Definition incomparable {T} {N : Num T} (nan : T) (v : val T) : Prop := exists fwd time price l r points strike vol,
  In (val_of_linear fwd) (pieces v) /\ In (val_of_ddf time) (pieces v) /\
  In (VStruct [("smile", val_of_points VNum l r points)]) (pieces v) /\
  linear_at nan fwd (ddf_date time) = Ok price /\ In (strike, vol) points /\
  nltb strike price = false /\ nltb price strike = false /\ neqb strike price = false.

(** The constructor of surfaces by probability gives this error, about some inputs. *)
Definition rejected {T} {N : Num T} {TR : Trans T} (nan : T) (e : string) : Prop :=
  exists smiles cal base fwd divs da, vbp_new nan smiles cal base fwd divs da = Err e.

(** What can happen to a thread: it starts, and things are read from JSON, currencies and instruments in the presence of ones that
    were read before.  [s] is the state it has got to, [cs] and [is] are the currencies and instruments it has got. *)
Inductive session {T} {N : Num T} (finite : T -> bool) : tls T -> list (currency T) -> list (instrument T) -> Prop :=
| SStart : session finite tls_initial [] []
| SInstrument s cs is j cd cs' ic is' r s' : session finite s cs is -> numbers_finite finite j -> incl cs' cs -> incl is' is ->
    instrument_from_json j cd cs' ic is' s = (r, s') ->
    session finite s' cs (match r with Ok i => i :: is | _ => is end)
| SCurrency s cs is j r s' : session finite s cs is -> numbers_finite finite j -> currency_from_json j s = (r, s') ->
    session finite s' (match r with Ok c => c :: cs | _ => cs end) is
| SOther s cs is j t r s' : session finite s cs is -> numbers_finite finite j ->
    In t [ty_fixing_table; ty_market_data; TTagged TrReportGenerator; TVec (TTagged TrReport); TTagged TrPricerFactory] ->
    read j t s = (r, s') -> session finite s' cs is.
