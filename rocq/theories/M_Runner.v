(** The command line program of the repository: a C++ client of the C interface. *)
From Coq Require Import NArith List String Ascii Bool.
From Verif Require Import Prelude M_Serde M_Handles.
Import ListNotations.
Open Scope string_scope.
Open Scope list_scope.

(** What the program writes: lines on standard error and on standard output, in order. *)
Inductive written := OnErr (line : string) | OnOut (line : string).

(** cpp-test/quantmath_runner.cpp:99-104: the six vectors of file names. *)
Record sections := mkSections {
  s_currencies : list string; s_instruments : list string; s_market_data : list string;
  s_fixings : list string; s_pricers : list string; s_reports : list string }.
(** The vector that [files] points to (quantmath_runner.cpp:107). *)
Inductive section_kind := Currencies | Instruments | MarketDataFiles | FixingFiles | Pricers | Reports.

(** [std::string::back]. *)
Fixpoint last_char (s : string) : option ascii :=
  match s with
  | EmptyString => None
  | String c EmptyString => Some c
  | String _ s' => last_char s'
  end.

(** quantmath_runner.cpp:110: blank lines and comments. *)
Definition skipped (line : string) : bool :=
  match line with EmptyString => true | String c _ => Ascii.eqb c "#" end.
(** quantmath_runner.cpp:113. *)
Definition ends_with_colon (line : string) : bool :=
  match last_char line with Some c => Ascii.eqb c ":" | None => false end.
(** quantmath_runner.cpp:114-128. *)
Definition section_of (line : string) : option section_kind :=
  if line =? "Currencies:" then Some Currencies
  else if line =? "Instruments:" then Some Instruments
  else if line =? "Market Data:" then Some MarketDataFiles
  else if line =? "Fixings:" then Some FixingFiles
  else if line =? "Pricer:" then Some Pricers
  else if line =? "Reports:" then Some Reports
  else None.
(** quantmath_runner.cpp:130 [files->push_back(line)]. *)
Definition push (k : section_kind) (line : string) (s : sections) : sections :=
  let 'mkSections c i m f p r := s in
  match k with
  | Currencies => mkSections (c ++ [line]) i m f p r
  | Instruments => mkSections c (i ++ [line]) m f p r
  | MarketDataFiles => mkSections c i (m ++ [line]) f p r
  | FixingFiles => mkSections c i m (f ++ [line]) p r
  | Pricers => mkSections c i m f (p ++ [line]) r
  | Reports => mkSections c i m f p (r ++ [line])
  end.

(** quantmath_runner.cpp:109-133: the loop over the lines of the file; an unknown section ends the program, and a file name before
    the first section goes through a null pointer. *)
Fixpoint parse (lines : list string) (files : option section_kind) (s : sections) : ub (string + sections) :=
  match lines with
  | [] => Defined (inr s)
  | line :: rest =>
      if skipped line then parse rest files s
      else if ends_with_colon line then
        match section_of line with
        | Some k => parse rest (Some k) s
        | None => Defined (inl line)
        end
      else
        match files with
        | Some k => parse rest files (push k line s)
        | None => Undefined "null pointer"
        end
  end.

Section Runner.
  Context {instr ccy mkt fixt pf gen rep text tol thread : Type}.
  Variable F : @facade instr ccy mkt fixt pf gen rep text tol thread.
  Variable fresh : list addr -> addr.
  Notation world := (@world instr ccy mkt fixt pf gen rep thread).
  Notation call := (@call text tol).

  (** A part of the program: it calls the interface and writes. *)
  Definition io (A : Type) := world -> ub (A * world * list written).
  Definition ret {A} (a : A) : io A := fun w => Defined (a, w, []).
  Definition seq {A B} (m : io A) (f : A -> io B) : io B := fun w =>
    match m w with
    | Undefined what => Undefined what
    | Defined (a, w', o) =>
        match f a w' with
        | Undefined what => Undefined what
        | Defined (b, w'', o') => Defined (b, w'', o ++ o')
        end
    end.
  Notation "'do' x := e 'in' f" := (seq e (fun x => f)) (at level 200, x pattern, e at level 100, f at level 200).
  Definition write (l : written) : io unit := fun w => Defined (tt, w, [l]).
  Definition qm (c : call) : io answer := fun w =>
    match run fresh F c w with Undefined what => Undefined what | Defined (a, w') => Defined (a, w', []) end.

  (** The number in the answer; the functions called here give handles, or strings, as declared in quantmath.h. *)
  Definition number_of (a : answer) : addr := match a with AHandle h => h | AString s => s | _ => 0%N end.
  Definition flag_of (a : answer) : bool := match a with ABool b => b | _ => false end.

  (** quantmath_runner.cpp:15-51 [class Handle]: destructor, copy constructor and assignment. A [Handle] is its number. *)
  Definition handle_drop (h : addr) : io unit := if N.eqb h 0 then ret tt else do _ := qm (FreeHandle h) in ret tt.
  Definition handle_copy (that : addr) : io addr := do a := qm (Clone that) in ret (number_of a).
  Definition handle_assign (this that : addr) : io addr :=
    do _ := handle_drop this in
    if N.eqb that 0 then ret 0%N else handle_copy that.
  (** quantmath_runner.cpp:54-78 [class Str]: destructor, and printing what [get] gives. *)
  Definition str_drop (s : addr) : io unit := if N.eqb s 0 then ret tt else do _ := qm (FreeString s) in ret tt.
  Definition str_print (stream : string -> written) (s : addr) : io unit := fun w =>
    match block s (w_strings w) with
    | Some t => Defined (tt, w, [stream t])
    | None => Undefined "dangling string"
    end.

  (** quantmath_runner.cpp:86-90 [handle_error]. *)
  Definition handle_error (h : addr) : io bool :=
    do s := qm (ErrorString h) in
    do _ := str_print OnErr (number_of s) in
    do _ := str_drop (number_of s) in ret false.

  (** The end of the scope of a [std::list<Handle>]. *)
  Fixpoint drop_all (l : list addr) : io unit :=
    match l with
    | [] => ret tt
    | h :: l' => do _ := handle_drop h in drop_all l'
    end.

  (** quantmath_runner.cpp:136-204: one of the six loops over files. [make] has the handles so far; [shown]: the names of the files
      are written. The result is the list of handles and whether all is well. *)
  Fixpoint read_files (shown : bool) (make : list addr -> string -> call) (files : list string) (handles : list addr) : io (list addr * bool) :=
    match files with
    | [] => ret (handles, true)
    | file :: files' =>
        do _ := if shown then write (OnErr file) else ret tt in
        do a := qm (make handles file) in
        let h := number_of a in
        do e := qm (IsError h) in
        if flag_of e then do _ := handle_error h in ret (handles ++ [h], false)
        else read_files shown make files' (handles ++ [h])
    end.

  (** A list of handles in scope for the rest of the function. *)
  Definition scope (m : io (list addr * bool)) (k : list addr -> io bool) : io bool :=
    do r := m in
    do b := (if snd r then k (fst r) else ret false) in
    do _ := drop_all (fst r) in ret b.

  (** [back] of a list, which has to have an element. *)
  Definition back (l : list addr) : io addr := fun w =>
    match rev l with h :: _ => Defined (h, w, []) | [] => Undefined "back of an empty list" end.

  (** quantmath_runner.cpp:212-225: nothing frees the reports. *)
  Definition calculate_and_print (ps is fs ms gs : list addr) : io bool :=
    do _ := write (OnErr "calculate") in
    do p := back ps in do i := back is in do f := back fs in do m := back ms in
    do reports := qm (Calculate p i f m gs) in
    do _ := write (OnErr "write reports") in
    do s := qm (ReportsAsJsonString (number_of reports)) in
    do _ := str_print OnOut (number_of s) in
    do _ := str_drop (number_of s) in ret true.

  Definition one (l : list addr) : bool := match l with [_] => true | _ => false end.

  (** quantmath_runner.cpp:136-226. *)
  Definition process_sections (s : sections) : io bool :=
    do _ := write (OnErr "read currencies:") in
    scope (read_files true (fun _ n => CurrencyFromJson (File n)) (s_currencies s) []) (fun ccys =>
    do _ := write (OnErr "read instruments:") in
    scope (read_files true (fun is n => InstrumentFromJson (File n) WriteOnce ccys WriteOnce is) (s_instruments s) []) (fun is =>
    do _ := write (OnErr "read market data") in
    scope (read_files false (fun _ n => MarketDataFromJson (File n)) (s_market_data s) []) (fun ms =>
    do _ := write (OnErr "read fixings") in
    scope (read_files false (fun _ n => FixingTableFromJson (File n)) (s_fixings s) []) (fun fs =>
    do _ := write (OnErr "read pricers") in
    scope (read_files false (fun _ n => PricerFactoryFromJson (File n)) (s_pricers s) []) (fun ps =>
    do _ := write (OnErr "read report generators") in
    scope (read_files false (fun _ n => ReportGeneratorFromJson (File n)) (s_reports s) []) (fun gs =>
    if one fs && one ms && one ps then calculate_and_print ps is fs ms gs
    else do _ := write (OnErr "Require exactly one each of the pricer factories, market data, and fixings") in ret false)))))).

  (** quantmath_runner.cpp:92-134 [process_file]; [None] is a file that cannot be opened. *)
  Definition process_file (name : string) (file : option (list string)) : io bool :=
    match file with
    | None => do _ := write (OnErr ("unable to open file " ++ name)) in ret false
    | Some lines => fun w =>
        match parse lines None (mkSections [] [] [] [] [] []) with
        | Undefined what => Undefined what
        | Defined (inl line) => (do _ := write (OnErr ("Unknown section: """ ++ line ++ """")) in ret false) w
        | Defined (inr s) => process_sections s w
        end
    end.

  (** quantmath_runner.cpp:80-84 and 228-233: the files in order up to the first that fails; true is exit status zero. *)
  Fixpoint main (argv0 : string) (files : list (string * option (list string))) : io bool :=
    match files with
    | [] => ret true
    | (name, file) :: files' =>
        do ok := process_file name file in
        if (ok : bool) then main argv0 files'
        else
          do _ := write (OnErr ("usage: " ++ argv0 ++ " [files-to-execute]*")) in
          do _ := write (OnErr "sections: Currencies, Instruments, Market Data, Fixings, Pricer, Reports") in ret false
    end.
End Runner.
