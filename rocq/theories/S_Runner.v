(** What the properties of the command line program speak about. *)
From Coq Require Import NArith List String Bool.
From Verif Require Import Prelude M_Serde M_Handles M_Runner.
Import ListNotations.
Open Scope string_scope.
Open Scope list_scope.

(** ** The file that names the inputs *)

Definition comment (line : string) : bool := (line =? "") || String.prefix "#" line.
Definition heading (line : string) : bool := negb (comment line) && (String.substring (String.length line - 1) 1 line =? ":").
Definition names_file (line : string) : bool := negb (comment line) && negb (heading line).
Definition headings : list string := ["Currencies:"; "Instruments:"; "Market Data:"; "Fixings:"; "Pricer:"; "Reports:"].

(** The files under the heading [h], when [current] is the heading above the first of the lines. *)
Fixpoint filed (h : string) (current : option string) (lines : list string) : list string :=
  match lines with
  | [] => []
  | l :: rest =>
      if heading l then filed h (Some l) rest
      else (if names_file l && match current with Some c => c =? h | None => false end then [l] else []) ++ filed h current rest
  end.
Definition config (lines : list string) : sections :=
  let under h := filed h None lines in
  mkSections (under "Currencies:") (under "Instruments:") (under "Market Data:") (under "Fixings:") (under "Pricer:") (under "Reports:").

(** A file is named before the first heading. *)
Definition orphan (lines : list string) : Prop :=
  exists before f after, lines = before ++ f :: after /\ names_file f = true /\ forall l, In l before -> comment l = true.
(** A heading that is none of the six, and no trouble before it. *)
Definition unknown (h : string) (lines : list string) : Prop :=
  exists before after, lines = before ++ h :: after /\ heading h = true /\ ~ In h headings /\ ~ orphan before /\
    forall l, In l before -> heading l = true -> In l headings.

(** The lines on standard output. *)
Definition outs (o : list written) : list string := flat_map (fun x => match x with OnOut s => [s] | OnErr _ => [] end) o.

(** ** Reading, calculating, showing *)

Section Runner.
  Context {instr ccy mkt fixt pf gen rep text tol thread : Type}.
  Variable F : @facade instr ccy mkt fixt pf gen rep text tol thread.

  (** The file [n] is read as [x], on some thread; or is not. *)
  Definition read_as {A} (rd : text -> thread -> res A * thread) (n : string) (x : A) : Prop :=
    exists t th, fc_open F n = Ok t /\ fst (rd t th) = Ok x.
  Definition refused {A} (rd : text -> thread -> res A * thread) (n : string) : Prop :=
    exists th, forall x, (let* t := fc_open F n in fst (rd t th)) <> Ok x.

  (** Instruments are read one by one, each with the currencies and the instruments before it. *)
  Definition reading_instrument (ccys : list ccy) (before : list instr) (t : text) : thread -> res instr * thread :=
    fc_instrument F t WriteOnce ccys WriteOnce before.
  Fixpoint read_instruments (ccys : list ccy) (before : list instr) (files : list string) (is : list instr) : Prop :=
    match files, is with
    | [], [] => True
    | n :: files', i :: is' => read_as (reading_instrument ccys before) n i /\ read_instruments ccys (before ++ [i]) files' is'
    | _, _ => False
    end.

  (** A string for C, or what is there in its place if it has a zero character. *)
  Definition for_c (s otherwise : string) : string := if has_nul s then otherwise else s.
  (** The reports as text, or what comes in their place. *)
  Definition shown (p : pf) (i : instr) (f : fixt) (m : mkt) (gs : list gen) (s : string) : Prop :=
    exists th th', s = match fst (fc_calculate F p i f m gs th) with
      | Ok rs => match fst (fc_write F rs th') with
                 | Ok s => for_c s "Caught panic when converting result string"
                 | _ => "Caught panic when converting result string"
                 end
      | Err e => for_c e "Caught panic when converting result string"
      | Panic _ => "Caught panic when creating handle"
      end.

  (** Everything named was read, and the last instrument priced with the one pricer, fixing table and market. *)
  Definition completed (s : sections) (t : string) : Prop :=
    exists ccys is i m f p gs, Forall2 (read_as (fc_currency F)) (s_currencies s) ccys /\
      read_instruments ccys [] (s_instruments s) (is ++ [i]) /\
      Forall2 (read_as (fc_market_data F)) (s_market_data s) [m] /\ Forall2 (read_as (fc_fixing_table F)) (s_fixings s) [f] /\
      Forall2 (read_as (fc_pricer_factory F)) (s_pricers s) [p] /\ Forall2 (read_as (fc_report_generator F)) (s_reports s) gs /\
      shown p i f m gs t.
  (** Everything named was read, one market, fixing table and pricer among it, but no instrument is named. *)
  Definition stuck (s : sections) : Prop :=
    s_instruments s = [] /\ exists ccys m f p gs, Forall2 (read_as (fc_currency F)) (s_currencies s) ccys /\
      Forall2 (read_as (fc_market_data F)) (s_market_data s) [m] /\ Forall2 (read_as (fc_fixing_table F)) (s_fixings s) [f] /\
      Forall2 (read_as (fc_pricer_factory F)) (s_pricers s) [p] /\ Forall2 (read_as (fc_report_generator F)) (s_reports s) gs.
  (** A file was not read, or there were not the right number. *)
  Definition failed (s : sections) : Prop :=
    (exists n, In n (s_currencies s) /\ refused (fc_currency F) n) \/
    (exists n ccys before, In n (s_instruments s) /\ refused (reading_instrument ccys before) n) \/
    (exists n, In n (s_market_data s) /\ refused (fc_market_data F) n) \/
    (exists n, In n (s_fixings s) /\ refused (fc_fixing_table F) n) \/
    (exists n, In n (s_pricers s) /\ refused (fc_pricer_factory F) n) \/
    (exists n, In n (s_reports s) /\ refused (fc_report_generator F) n) \/
    List.length (s_market_data s) <> 1 \/ List.length (s_fixings s) <> 1 \/ List.length (s_pricers s) <> 1.
End Runner.
