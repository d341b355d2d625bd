(** The C interface: handles to objects on the heap, over any implementation of the facade. *)
From Coq Require Import NArith List String Bool.
From Verif Require Import Prelude M_Serde.
Import ListNotations.
Open Scope string_scope.
Open Scope list_scope.

(** Handles and C strings are addresses (facade/handle.rs:211-225 and [CString::into_raw]). *)
Definition addr := N.

(** Touching memory that is not there, or freeing it twice, is undefined behaviour. *)
Inductive ub (A : Type) := Defined (a : A) | Undefined (what : string).
Arguments Defined {A} a.
Arguments Undefined {A} what.

(** One block of the heap under its address; freeing removes it. *)
Fixpoint block {A} (a : addr) (h : list (addr * A)) : option A :=
  match h with
  | [] => None
  | (b, x) :: h' => if N.eqb a b then Some x else block a h'
  end.
Fixpoint release {A} (a : addr) (h : list (addr * A)) : list (addr * A) :=
  match h with
  | [] => []
  | (b, x) :: h' => if N.eqb a b then h' else (b, x) :: release a h'
  end.

(** [CString::new] fails on a string with a zero byte. *)
Fixpoint has_nul (s : string) : bool :=
  match s with
  | EmptyString => false
  | String c s' => Ascii.eqb c Ascii.zero || has_nul s'
  end.

Section Handles.
  Context {instr ccy mkt fixt pf gen rep text tol thread : Type}.

  (** What the functions of facade/mod.rs do, as seen from here.  [text] is what [Read] gives, from a file or from memory;
      [thread] is the thread-local state they use (C53). *)
  Record facade := mkFacade {
    fc_open : string -> res text;
    fc_instrument : text -> dedup_control -> list ccy -> dedup_control -> list instr -> thread -> res instr * thread;
    fc_currency : text -> thread -> res ccy * thread;
    fc_pricer_factory : text -> thread -> res pf * thread;
    fc_fixing_table : text -> thread -> res fixt * thread;
    fc_market_data : text -> thread -> res mkt * thread;
    fc_report_generator : text -> thread -> res gen * thread;
    fc_reports : text -> thread -> res (list rep) * thread;
    fc_calculate : pf -> instr -> fixt -> mkt -> list gen -> thread -> res (list rep) * thread;
    fc_approx_eq : list rep -> list rep -> tol -> res unit;
    fc_write : list rep -> thread -> res string * thread }.

  (** facade/handle.rs:12-23 [enum Handle]. *)
  Inductive handle :=
  | HEmpty
  | HInstrument (i : instr)
  | HCurrency (c : ccy)
  | HMarketData (m : mkt)
  | HFixingTable (t : fixt)
  | HPricerFactory (p : pf)
  | HReportGenerator (g : gen)
  | HReports (rs : list rep)
  | HErr (e : string).

  (** handle.rs:157-171 [wrong_type]. *)
  Definition handle_name (h : handle) : string :=
    match h with
    | HEmpty => "Empty"
    | HInstrument _ => "Instrument"
    | HCurrency _ => "Currency"
    | HMarketData _ => "MarketData"
    | HFixingTable _ => "FixingTable"
    | HPricerFactory _ => "PricerFactory"
    | HReportGenerator _ => "ReportGenerator"
    | HReports _ => "Reports"
    | HErr _ => "Error"
    end.
  Definition wrong_type (h : handle) (requested : string) : string :=
    "Wrong handle type: " ++ requested ++ " required but " ++ handle_name h ++ " supplied".

  (** handle.rs:26-80 [from_empty], [from_instrument] and so on. *)
  Definition from_result {A} (make : A -> handle) (r : res A) : res handle :=
    match r with
    | Ok a => Ok (make a)
    | Err e => Ok (HErr e)
    | Panic m => Panic m
    end.

  (** handle.rs:94-141 and 143-149 [as_instrument] and so on. *)
  Definition as_instrument (h : handle) : res instr :=
    match h with HInstrument i => Ok i | HErr e => Err e | _ => Err (wrong_type h "Instrument") end.
  Definition as_currency (h : handle) : res ccy :=
    match h with HCurrency c => Ok c | HErr e => Err e | _ => Err (wrong_type h "Currency") end.
  Definition as_market_data (h : handle) : res mkt :=
    match h with HMarketData m => Ok m | HErr e => Err e | _ => Err (wrong_type h "MarketData") end.
  Definition as_fixing_table (h : handle) : res fixt :=
    match h with HFixingTable t => Ok t | HErr e => Err e | _ => Err (wrong_type h "FixingTable") end.
  Definition as_pricer_factory (h : handle) : res pf :=
    match h with HPricerFactory p => Ok p | HErr e => Err e | _ => Err (wrong_type h "PricerFactory") end.
  Definition as_report_generator (h : handle) : res gen :=
    match h with HReportGenerator g => Ok g | HErr e => Err e | _ => Err (wrong_type h "ReportGenerator") end.
  Definition as_reports (h : handle) : res (list rep) :=
    match h with HReports rs => Ok rs | HErr e => Err e | _ => Err (wrong_type h "Reports") end.
  (** handle.rs:150-155 [as_error]. *)
  Definition as_error (h : handle) : string :=
    match h with HErr e => e | _ => wrong_type h "Error" end.
  (** handle.rs:175-194 [impl Clone for Handle]. *)
  Definition clone (h : handle) : handle :=
    match h with HReports _ => HErr "Reports cannot be cloned" | _ => h end.

  (** The heap, as far as this interface has put things there, and the state of the calling thread. *)
  Record world := mkWorld { w_handles : list (addr * handle); w_strings : list (addr * string); w_thread : thread }.
  (** The allocator: an address not in use, whatever it is. *)
  Variable fresh : list addr -> addr.
  Definition in_use (w : world) : list addr := map fst (w_handles w) ++ map fst (w_strings w).

  (** The functions of the interface (c_interface.rs:30-396), with C arrays as lists. *)
  Inductive source := File (name : string) | Text (t : text).
  Inductive call :=
  | InstrumentFromJson (s : source) (dedup_ccy : dedup_control) (currencies : list addr)
                       (dedup_instr : dedup_control) (instruments : list addr)
  | CurrencyFromJson (s : source)
  | PricerFactoryFromJson (s : source)
  | FixingTableFromJson (s : source)
  | MarketDataFromJson (s : source)
  | ReportGeneratorFromJson (s : source)
  | ReportsFromJson (s : source)
  | ReportsAsJsonString (h : addr)
  | Calculate (pricer_factory instrument fixing_table market_data : addr) (report_generators : list addr)
  | AssertApproxEqReports (reports_freed expected_freed : addr) (t : tol)
  | IsError (h : addr)
  | ErrorString (h : addr)
  | FreeString (s : addr)
  | Clone (h : addr)
  | FreeHandle (h : addr).
  Inductive answer := AHandle (h : addr) | AString (s : addr) | ABool (b : bool) | ANothing.

  (** Inside [return_handle]: a result, or undefined behaviour. *)
  Definition inner (A : Type) := world -> ub (res A * world).
  Definition and_then {A B} (m : inner A) (f : A -> inner B) : inner B := fun w =>
    match m w with
    | Undefined what => Undefined what
    | Defined (Ok a, w') => f a w'
    | Defined (Err e, w') => Defined (Err e, w')
    | Defined (Panic e, w') => Defined (Panic e, w')
    end.
  Notation "'let?' x := e 'in' f" := (and_then e (fun x => f)) (at level 200, x pattern, e at level 100, f at level 200).
  Definition now {A} (r : res A) : inner A := fun w => Defined (r, w).

  (** handle.rs:306-312 [handle_from_ext]. *)
  Definition look_at {A} (a : addr) (f : handle -> res A) : inner A := fun w =>
    match block a (w_handles w) with
    | Some h => Defined (f h, w)
    | None => Undefined "dangling handle"
    end.
  (** handle.rs:259-264 [extern_handle::as_reports]: the handle is freed whatever it was. *)
  Definition take_reports (a : addr) : world -> ub (res (list rep) * world) := fun w =>
    match block a (w_handles w) with
    | Some h => Defined (as_reports h, mkWorld (release a (w_handles w)) (w_strings w) (w_thread w))
    | None => Undefined "dangling handle"
    end.
  (** A call of the facade on this thread. *)
  Definition on_thread {A} (f : thread -> res A * thread) : inner A := fun w =>
    let '(r, t) := f (w_thread w) in Defined (r, mkWorld (w_handles w) (w_strings w) t).
  Fixpoint look_at_all {A} (l : list addr) (f : handle -> res A) : inner (list A) :=
    match l with
    | [] => now (Ok [])
    | a :: l' => let? x := look_at a f in let? xs := look_at_all l' f in now (Ok (x :: xs))
    end.

  (** handle.rs:211-216 [from_handle]. *)
  Definition from_handle (r : res handle) (w : world) : answer * world :=
    let a := fresh (in_use w) in
    let h := match r with Ok h => h | Err e => HErr e | Panic _ => HErr "Caught panic when creating handle" end in
    (AHandle a, mkWorld ((a, h) :: w_handles w) (w_strings w) (w_thread w)).
  (** c_interface.rs:409-419 [return_handle]. *)
  Definition return_handle (f : inner handle) : world -> ub (answer * world) := fun w =>
    match f w with
    | Undefined what => Undefined what
    | Defined (r, w') => Defined (from_handle r w')
    end.
  (** c_interface.rs:263-273 and 356-366: a string for C, with a message when [CString::new] or what makes it panics. *)
  Definition return_string (r : res string) (otherwise : string) (w : world) : answer * world :=
    let a := fresh (in_use w) in
    let s := match r with Ok s => if has_nul s then otherwise else s | _ => otherwise end in
    (AString a, mkWorld (w_handles w) ((a, s) :: w_strings w) (w_thread w)).

  Variable F : facade.
  (** c_interface.rs:398-407: a file name that is not UTF-8, or a file that cannot be opened, is an error; text is taken as it is. *)
  Definition open_source (s : source) : inner text :=
    match s with File n => now (fc_open F n) | Text t => now (Ok t) end.
  (** c_interface.rs:104-253: open, read, wrap. *)
  Definition from_json {A} (s : source) (read : text -> thread -> res A * thread) (make : A -> handle) : inner handle :=
    let? t := open_source s in fun w =>
    match on_thread (read t) w with
    | Undefined what => Undefined what
    | Defined (r, w') => Defined (from_result make r, w')
    end.
  (** handle.rs:266-283 [reports_as_string].  What the writing of reports leaves in the thread's state is kept. *)
  Definition reports_as_string (h : handle) (w : world) : res string * world :=
    match h with
    | HReports rs =>
        let '(r, t) := fc_write F rs (w_thread w) in
        (match r with Ok s => Ok s | Err e => Panic e | Panic e => Panic e end, mkWorld (w_handles w) (w_strings w) t)
    | HErr e => (Ok e, w)
    | _ => (Ok "reports_as_string: not a report handle", w)
    end.

  Definition run (c : call) (w : world) : ub (answer * world) :=
    match c with
    | InstrumentFromJson s dc cs di is =>   (* c_interface.rs:38-92 *)
        return_handle (
          let? t := open_source s in
          let? ccys := look_at_all cs as_currency in
          let? instrs := look_at_all is as_instrument in fun w =>
          match on_thread (fc_instrument F t dc ccys di instrs) w with
          | Undefined what => Undefined what
          | Defined (r, w') => Defined (from_result HInstrument r, w')
          end) w
    | CurrencyFromJson s => return_handle (from_json s (fc_currency F) HCurrency) w   (* 104-121 *)
    | PricerFactoryFromJson s => return_handle (from_json s (fc_pricer_factory F) HPricerFactory) w   (* 131-148 *)
    | FixingTableFromJson s => return_handle (from_json s (fc_fixing_table F) HFixingTable) w   (* 156-173 *)
    | MarketDataFromJson s => return_handle (from_json s (fc_market_data F) HMarketData) w   (* 181-198 *)
    | ReportGeneratorFromJson s => return_handle (from_json s (fc_report_generator F) HReportGenerator) w   (* 208-225 *)
    | ReportsFromJson s => return_handle (from_json s (fc_reports F) HReports) w   (* 236-253 *)
    | ReportsAsJsonString a =>   (* 262-273 *)
        match block a (w_handles w) with
        | None => Undefined "dangling handle"
        | Some h => let '(r, w') := reports_as_string h w in
                    Defined (return_string r "Caught panic when converting result string" w')
        end
    | Calculate p i f m gs =>   (* 290-308 *)
        return_handle (
          let? pf := look_at p as_pricer_factory in
          let? instr := look_at i as_instrument in
          let? table := look_at f as_fixing_table in
          let? mkt := look_at m as_market_data in
          let? gen := look_at_all gs as_report_generator in fun w =>
          match on_thread (fc_calculate F pf instr table mkt gen) w with
          | Undefined what => Undefined what
          | Defined (r, w') => Defined (from_result HReports r, w')
          end) w
    | AssertApproxEqReports a b t =>   (* 327-340: both are freed before either is looked at *)
        return_handle (fun w =>
          match take_reports a w with
          | Undefined what => Undefined what
          | Defined (reports, w1) =>
              match take_reports b w1 with
              | Undefined what => Undefined what
              | Defined (expected, w2) =>
                  Defined (let* rs := reports in let* es := expected in
                           from_result (fun _ => HEmpty) (fc_approx_eq F rs es t), w2)
              end
          end) w
    | IsError a =>   (* 342-348 *)
        match block a (w_handles w) with
        | None => Undefined "dangling handle"
        | Some h => Defined (ABool (match h with HErr _ => true | _ => false end), w)
        end
    | ErrorString a =>   (* 355-366 *)
        match block a (w_handles w) with
        | None => Undefined "dangling handle"
        | Some h => Defined (return_string (Ok (as_error h)) "Caught panic when converting error string" w)
        end
    | FreeString a =>   (* 370-373 *)
        match block a (w_strings w) with
        | None => Undefined "dangling string"
        | Some _ => Defined (ANothing, mkWorld (w_handles w) (release a (w_strings w)) (w_thread w))
        end
    | Clone a =>   (* 378-384 with handle.rs:218-225 *)
        match block a (w_handles w) with
        | None => Undefined "dangling handle"
        | Some h => Defined (from_handle (Ok (clone h)) w)
        end
    | FreeHandle a =>   (* 390-396: a panic while dropping is not represented *)
        match block a (w_handles w) with
        | None => Undefined "dangling handle"
        | Some _ => Defined (ANothing, mkWorld (release a (w_handles w)) (w_strings w) (w_thread w))
        end
    end.
End Handles.
