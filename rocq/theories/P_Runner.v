(** C63: the command line program, a client of the C interface.  [history] and the ledger of what a client owns are those of C54. *)
From Coq Require Import ZArith NArith List String Bool.
From Verif Require Import Prelude Num M_Serde M_Schema M_Objects M_Instruments M_Reports M_Handles M_Facade M_Runner S_Handles S_Runner
  L_Handles L_HandlesCases L_Runner L_RunnerCases.
Import ListNotations.
Open Scope string_scope.
Open Scope list_scope.

(** The six lists of files are what stands under the six headings, in order; the first heading that is none of them stops the reading;
    a file named before any heading has no place to go. *)
Theorem C63_config : forall lines,
  match parse lines None (mkSections [] [] [] [] [] []) with
  | Undefined _ => orphan lines
  | Defined (inl h) => ~ orphan lines /\ unknown h lines
  | Defined (inr s) => ~ orphan lines /\ (forall l, In l lines -> heading l = true -> In l headings) /\ s = config lines
  end.
Proof. exact parse_config. Qed.
Print Assumptions C63_config.

(** One file: true only if everything it names was read, with exactly one market, fixing table and pricer, and the last instrument
    was given to the calculation, with one line on standard output for it; false only for a reason, and then nothing is on standard
    output and nothing is left behind.  The handle to the reports is never freed. *)
Theorem C63_file : forall (instr ccy mkt fixt pf gen rep text tol thread : Type)
    (F : @facade instr ccy mkt fixt pf gen rep text tol thread) fresh, allocates fresh -> (forall l, fresh l <> 0%N) ->
  forall name file w l, history F fresh w l ->
    match process_file F fresh name file w with
    | Undefined _ => exists lines, file = Some lines /\ (orphan lines \/ stuck F (config lines))
    | Defined (true, w', o) => exists lines r t, file = Some lines /\ ~ orphan lines /\ (forall h, ~ unknown h lines) /\
        outs o = [t] /\ completed F (config lines) t /\ history F fresh w' (mkLedger (r :: l_handles l) (l_strings l))
    | Defined (false, w', o) => outs o = [] /\ history F fresh w' l /\
        (file = None \/ exists lines, file = Some lines /\ ~ orphan lines /\ ((exists h, unknown h lines) \/ failed F (config lines)))
    end.
Proof. exact @file_sound. Qed.
Print Assumptions C63_file.

(** All files: they are done in order up to the first that fails, each with its line of output and one handle left behind; the exit
    status is zero exactly if none is left. *)
Theorem C63_program : forall (instr ccy mkt fixt pf gen rep text tol thread : Type)
    (F : @facade instr ccy mkt fixt pf gen rep text tol thread) fresh, allocates fresh -> (forall l, fresh l <> 0%N) ->
  forall argv0 files w l, history F fresh w l ->
    match main F fresh argv0 files w with
    | Undefined _ => exists name lines, In (name, Some lines) files /\ (orphan lines \/ stuck F (config lines))
    | Defined (ok, w', o) => exists done rest left,
        files = done ++ rest /\ (ok = true <-> rest = []) /\ Forall2 (fun f t => exists lines, snd f = Some lines /\ completed F (config lines) t) done (outs o) /\
        List.length left = List.length done /\ history F fresh w' (mkLedger (left ++ l_handles l) (l_strings l)) /\
        forall f rest', rest = f :: rest' -> snd f = None \/ exists lines, snd f = Some lines /\ ((exists h, unknown h lines) \/ failed F (config lines))
    end.
Proof. exact @main_sound. Qed.
Print Assumptions C63_program.

(** A file named before the first heading goes through a null pointer, whatever else is in the file. *)
Theorem C63_orphan : forall (instr ccy mkt fixt pf gen rep text tol thread : Type)
    (F : @facade instr ccy mkt fixt pf gen rep text tol thread) fresh name lines w,
  orphan lines -> process_file F fresh name (Some lines) w = Undefined "null pointer".
Proof. exact @orphan_undefined. Qed.
Print Assumptions C63_orphan.

(** With no instrument the program takes the last of an empty list. *)
Theorem C63_no_instrument_refuted : forall T (N : Num T) (TR : Trans T) (finite : T -> bool) (nan : T) (cdf : T -> T) visit draws redraws (print : json T -> string),
  let F := the_facade finite nan cdf visit draws redraws disk print in
  s_instruments (config (lines "# none")) = [] /\
  process_file F next "x" (Some (lines "# none")) world_0 = Undefined "back of an empty list".
Proof. intros. split; [reflexivity|apply stuck_case]. Qed.
Print Assumptions C63_no_instrument_refuted.

(** That the calculation fails does not show in the exit status: its message is on standard output where the reports should be. *)
Theorem C63_failure_refuted : forall T (N : Num T) (TR : Trans T) (finite : T -> bool) (nan : T) (cdf : T -> T) visit draws redraws (print : json T -> string),
  let F := the_facade finite nan cdf visit draws redraws disk print in
  exists w' o, main F next "run" [("x", Some (lines "bp.json"))] world_0 = Defined (true, w', o) /\
    outs o = ["Spot not found: 'BP.L'"] /\ w_handles w' = [(7%N, HErr "Spot not found: 'BP.L'")].
Proof. intros. apply failed_case. Qed.
Print Assumptions C63_failure_refuted.

(** The class that owns a handle.  A copy is a new handle to the same thing, and the original is kept; but reports cannot be copied,
    and the copy of an empty one dereferences null. *)
Theorem C63_copy : forall (instr ccy mkt fixt pf gen rep text tol thread : Type)
    (F : @facade instr ccy mkt fixt pf gen rep text tol thread) fresh, allocates fresh -> (forall l, fresh l <> 0%N) ->
  forall h x w l, history F fresh w l -> In h (l_handles l) -> holds w h x ->
    exists h' w', handle_copy F fresh h w = Defined (h', w', []) /\ ~ In h' (l_handles l) /\ h' <> 0%N /\
      history F fresh w' (mkLedger (h' :: l_handles l) (l_strings l)) /\
      holds w' h' (match x with HReports _ => HErr "Reports cannot be cloned" | _ => x end) /\
      forall a y, In a (l_handles l) -> (holds w' a y <-> holds w a y).
Proof. exact @copy_step. Qed.
Print Assumptions C63_copy.

Theorem C63_copy_empty_refuted : forall (instr ccy mkt fixt pf gen rep text tol thread : Type)
    (F : @facade instr ccy mkt fixt pf gen rep text tol thread) fresh, allocates fresh -> (forall l, fresh l <> 0%N) ->
  forall w l, history F fresh w l -> handle_copy F fresh 0%N w = Undefined "dangling handle".
Proof. exact @copy_empty. Qed.
Print Assumptions C63_copy_empty_refuted.

(** Assignment frees what was there and has a copy of the other. *)
Theorem C63_assign : forall (instr ccy mkt fixt pf gen rep text tol thread : Type)
    (F : @facade instr ccy mkt fixt pf gen rep text tol thread) fresh, allocates fresh -> (forall l, fresh l <> 0%N) ->
  forall this that x w l, history F fresh w l -> In this (l_handles l) -> In that (l_handles l) -> this <> that -> holds w that x ->
    exists h w', handle_assign F fresh this that w = Defined (h, w', []) /\
      holds w' h (match x with HReports _ => HErr "Reports cannot be cloned" | _ => x end) /\
      history F fresh w' (mkLedger (h :: without [this] (l_handles l)) (l_strings l)).
Proof. exact @assign_step. Qed.
Print Assumptions C63_assign.

(** The file in the repository; an allocator; a file that is done and one that is not, with one handle left behind. *)
Example C63_first_test : config first_test = mkSections ["inputs/usd.json"; "inputs/gbp.json"]
  ["inputs/bt.json"; "inputs/az.json"; "inputs/european.json"] ["inputs/market.json"] ["inputs/fixings.json"] ["inputs/pricer.json"]
  ["inputs/delta_gamma.json"].
Proof. exact first_config. Qed.
Example C63_allocator : allocates next /\ forall l, next l <> 0%N.
Proof. split; [exact next_allocates|exact next_nonnull]. Qed.
Example C63_case : forall T (N : Num T) (TR : Trans T) (finite : T -> bool) (nan : T) (cdf : T -> T) visit draws redraws (print : json T -> string),
  let F := the_facade finite nan cdf visit draws redraws disk print in history F next world_0 (mkLedger [] []) /\
  exists w' o, main F next "run" [("x", Some (lines "cash.json")); ("y", Some (lines "none.json"))] world_0 = Defined (false, w', o) /\
    List.length (outs o) = 1%nat /\ w_handles w' = [(7%N, HReports [DeltaGammaReport (nofZ 1%Z) []])].
Proof. intros. split; [constructor|apply done_case]. Qed.
