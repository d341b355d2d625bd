(** What the properties of the C interface speak about: which handles a call is given and frees, what a client owns, and
    histories of calls. *)
From Coq Require Import NArith List String Bool.
From Verif Require Import Prelude M_Serde M_Handles.
Import ListNotations.
Open Scope string_scope.
Open Scope list_scope.

Inductive kind := KInstrument | KCurrency | KMarketData | KFixingTable | KPricerFactory | KReportGenerator | KReports.
Definition kind_name (k : kind) : string :=
  match k with
  | KInstrument => "Instrument" | KCurrency => "Currency" | KMarketData => "MarketData" | KFixingTable => "FixingTable"
  | KPricerFactory => "PricerFactory" | KReportGenerator => "ReportGenerator" | KReports => "Reports"
  end.

(** The handles and the strings a client has been given and has not freed. *)
Record ledger := mkLedger { l_handles : list addr; l_strings : list addr }.

Definition without (gone l : list addr) : list addr := filter (fun a => negb (existsb (N.eqb a) gone)) l.

Section Handles.
  Context {instr ccy mkt fixt pf gen rep text tol thread : Type}.
  Notation handle := (@handle instr ccy mkt fixt pf gen rep).
  Notation world := (@world instr ccy mkt fixt pf gen rep thread).
  Notation call := (@call text tol).

  Definition is_of (k : kind) (h : handle) : Prop :=
    match k, h with
    | KInstrument, HInstrument _ | KCurrency, HCurrency _ | KMarketData, HMarketData _ | KFixingTable, HFixingTable _
    | KPricerFactory, HPricerFactory _ | KReportGenerator, HReportGenerator _ | KReports, HReports _ => True
    | _, _ => False
    end.

  (** What is wrong with a handle that is not of the kind required: its own error, or its kind. *)
  Definition complaint (k : kind) (h : handle) : string :=
    match h with
    | HErr e => e
    | _ => "Wrong handle type: " ++ kind_name k ++ " required but " ++ handle_name h ++ " supplied"
    end.

  (** The handles that a call requires to be of some kind, in the order of its parameters. *)
  Definition required (c : call) : list (addr * kind) :=
    match c with
    | InstrumentFromJson _ _ cs _ is => map (fun a => (a, KCurrency)) cs ++ map (fun a => (a, KInstrument)) is
    | Calculate p i f m gs =>
        [(p, KPricerFactory); (i, KInstrument); (f, KFixingTable); (m, KMarketData)] ++ map (fun a => (a, KReportGenerator)) gs
    | AssertApproxEqReports a b _ => [(a, KReports); (b, KReports)]
    | _ => []
    end.
  (** The handles a call is given, and those of them that it frees, as documented. *)
  Definition given (c : call) : list addr :=
    match c with
    | ReportsAsJsonString a | IsError a | ErrorString a | Clone a | FreeHandle a => [a]
    | _ => map fst (required c)
    end.
  Definition freed (c : call) : list addr :=
    match c with
    | AssertApproxEqReports a b _ => [a; b]
    | FreeHandle a => [a]
    | _ => []
    end.
  Definition strings_freed (c : call) : list addr := match c with FreeString a => [a] | _ => [] end.

  (** A client calls only with what it owns, and does not have one thing freed twice. *)
  Definition allowed (l : ledger) (c : call) : Prop :=
    incl (given c) (l_handles l) /\ incl (strings_freed c) (l_strings l) /\ NoDup (freed c).
  (** What it owns after the call and the answer. *)
  Definition settle (l : ledger) (c : call) (a : answer) : ledger :=
    mkLedger (match a with AHandle h => [h] | _ => [] end ++ without (freed c) (l_handles l))
             (match a with AString s => [s] | _ => [] end ++ without (strings_freed c) (l_strings l)).

  Variable F : @facade instr ccy mkt fixt pf gen rep text tol thread.
  (** The file of a call, if it names one, can be opened. *)
  Definition opened (c : call) : Prop :=
    match c with InstrumentFromJson (File n) _ _ _ _ => exists t, fc_open F n = Ok t | _ => True end.

  (** What a source gives to be read. *)
  Definition source_text (s : @source text) : res text := match s with File n => fc_open F n | Text t => Ok t end.

  Variable fresh : list addr -> addr.
  (** An allocator gives what is not in use. *)
  Definition allocates : Prop := forall l, ~ In (fresh l) l.

  (** Any history of allowed calls, on threads in any state. *)
  Inductive history : world -> ledger -> Prop :=
  | started t : history (mkWorld [] [] t) (mkLedger [] [])
  | called w l c a w' t : history w l -> allowed l c -> run fresh F c w = Defined (a, w') ->
      history (mkWorld (w_handles w') (w_strings w') t) (settle l c a).

  (** What is behind a handle. *)
  Definition holds (w : world) (a : addr) (h : handle) : Prop := block a (w_handles w) = Some h.

  (** The handle made of a result. *)
  Definition outcome {A} (make : A -> handle) (r : res A) : handle :=
    match r with Ok x => make x | Err e => HErr e | Panic _ => HErr "Caught panic when creating handle" end.
  (** A call answers with a handle behind which there is [h], or with a string [s]. *)
  Definition answers (c : call) (w : world) (h : handle) : Prop := exists a w', run fresh F c w = Defined (AHandle a, w') /\ holds w' a h.
  Definition answers_text (c : call) (w : world) (s : string) : Prop :=
    exists a w', run fresh F c w = Defined (AString a, w') /\ block a (w_strings w') = Some s.
End Handles.
