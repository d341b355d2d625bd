(** Worked cases: runs of the command line program over the facade. *)
From Coq Require Import ZArith NArith List String Bool.
From Verif Require Import Prelude Num M_Dates M_Calendar M_Interp M_Curves M_Fixings M_Forward M_Vol M_Instruments M_Deps M_Risk
  M_Reports M_MonteCarlo M_Schema M_Serde M_Objects M_Handles M_Facade M_Runner S_Handles S_Runner L_Handles L_HandlesCases.
Import ListNotations.
Open Scope string_scope.
Open Scope list_scope.

Section Session.
  Context {T : Type} {N : Num T} {TR : Trans T}.
  Variable finite : T -> bool.
  Variable nan : T.
  Variable cdf : T -> T.
  Variable visit : smap (instrument T * list (ddf T)) -> smap (instrument T * list (ddf T)).
  Variable draws : nat -> nat -> T.
  Variable redraws : bump_time -> mc_pricer T -> nat -> nat -> T.
  Variable print : json T -> string.

  Definition bp : json T := JObj [("Equity", JObj [("id", JStr "BP.L"); ("credit_id", JStr "OPT"); ("currency", JStr "GBP");
    ("settlement", JObj [("NullRule", JObj [])])])].
  Definition disk (name : string) : res (option (json T)) :=
    if name =? "gbp.json" then Ok (Some gbp)
    else if name =? "cash.json" then Ok (Some (JObj [("Currency", gbp)]))
    else if name =? "bp.json" then Ok (Some bp)
    else if name =? "market.json" then Ok (Some market_json)
    else if name =? "fixings.json" then Ok (Some fixings_json)
    else if name =? "pricer.json" then Ok (Some (JObj [("SelfPricerFactory", JObj [])]))
    else if name =? "delta.json" then Ok (Some (JObj [("DeltaGammaReportGenerator", JObj [("bumpsize", JInt 1)])]))
    else Err "No such file or directory (os error 2)".
  Definition lines (instrument : string) : list string :=
    ["# comment"; ""; "Currencies:"; "gbp.json"; ""; "Instruments:"; instrument; "Market Data:"; "market.json"; "Fixings:"; "fixings.json";
     "Pricer:"; "pricer.json"; "Reports:"; "delta.json"].
  Notation F := (the_facade finite nan cdf visit draws redraws disk print).

  Lemma failed_case : exists w' o, main F next "run" [("x", Some (lines "bp.json"))] world_0 = Defined (true, w', o) /\
    outs o = ["Spot not found: 'BP.L'"] /\ w_handles w' = [(7%N, HErr "Spot not found: 'BP.L'")].
  Proof. eexists _, _. split; [vm_compute; reflexivity|]. split; reflexivity. Qed.

  Lemma done_case : exists w' o, main F next "run" [("x", Some (lines "cash.json")); ("y", Some (lines "none.json"))] world_0 = Defined (false, w', o) /\
    List.length (outs o) = 1%nat /\ w_handles w' = [(7%N, HReports [DeltaGammaReport (nofZ 1) []])].
  Proof. eexists _, _. split; [vm_compute; reflexivity|]. split; reflexivity. Qed.

  Lemma stuck_case : process_file F next "x" (Some (lines "# none")) world_0 = Undefined "back of an empty list".
  Proof. vm_compute. reflexivity. Qed.
End Session.

Lemma next_nonnull l : next l <> 0%N.
Proof. apply N.neq_succ_0. Qed.

(** The file in the repository (cpp-test/first_test.txt). *)
Definition first_test : list string :=
  ["# lines beginning with # are ignored, as are blank lines"; ""; "# each section starts with a title, ending with a colon"; "Currencies:";
   "inputs/usd.json"; "inputs/gbp.json"; ""; "Instruments:"; "inputs/bt.json"; "inputs/az.json"; "inputs/european.json"; "";
   "Market Data:"; "inputs/market.json"; ""; "Fixings:"; "inputs/fixings.json"; ""; "Pricer:"; "inputs/pricer.json"; "";
   "Reports:"; "inputs/delta_gamma.json"].
Lemma first_config : config first_test = mkSections ["inputs/usd.json"; "inputs/gbp.json"] ["inputs/bt.json"; "inputs/az.json"; "inputs/european.json"]
  ["inputs/market.json"] ["inputs/fixings.json"] ["inputs/pricer.json"] ["inputs/delta_gamma.json"].
Proof. reflexivity. Qed.
