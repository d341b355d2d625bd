(** Worked case: a whole session with the C interface, over the facade. *)
From Coq Require Import ZArith NArith Lia List String Bool.
From Verif Require Import Prelude Num M_Dates M_Calendar M_Interp M_Curves M_Fixings M_Forward M_Vol M_Instruments M_Deps M_Risk
  M_Reports M_MonteCarlo M_Schema M_Serde M_Objects M_Handles M_Facade S_Handles L_Handles.
Import ListNotations.
Open Scope string_scope.
Open Scope list_scope.

(** An allocator: one more than the largest in use. *)
Definition next (l : list addr) : addr := N.succ (fold_right N.max 0%N l).
Lemma next_allocates : allocates next.
Proof.
  intros l. enough (H : forall a, In a l -> (a < next l)%N) by (intros I; apply H in I; lia).
  unfold next. induction l as [|b l IH]; intros a []; cbn [fold_right].
  - subst. lia.
  - apply IH in H. lia.
Qed.

Section Play.
  Context {instr ccy mkt fixt pf gen rep text tol thread : Type}.
  Variable F : @facade instr ccy mkt fixt pf gen rep text tol thread.
  Variable fresh : list addr -> addr.

  Definition memb (a : addr) (l : list addr) : bool := existsb (N.eqb a) l.
  Fixpoint distinctb (l : list addr) : bool := match l with [] => true | a :: l' => negb (memb a l') && distinctb l' end.
  Definition allowedb (l : ledger) (c : @call text tol) : bool :=
    forallb (fun a => memb a (l_handles l)) (given c) && forallb (fun a => memb a (l_strings l)) (strings_freed c) &&
    distinctb (freed c).
  Lemma memb_in a l : memb a l = true -> In a l.
  Proof. unfold memb. rewrite existsb_exists. intros (b & I & E). apply N.eqb_eq in E. subst. exact I. Qed.
  Lemma in_memb a l : In a l -> memb a l = true.
  Proof. unfold memb. rewrite existsb_exists. intros I. exists a. split; [exact I | apply N.eqb_refl]. Qed.
  Lemma distinctb_nodup l : distinctb l = true -> NoDup l.
  Proof.
    induction l as [|a l IH]; intros E; [constructor|]. cbn [distinctb] in E. apply andb_true_iff in E. destruct E as [E1 E2].
    constructor; [|exact (IH E2)]. intros I. rewrite (in_memb _ _ I) in E1. discriminate.
  Qed.
  Lemma allowedb_allowed l c : allowedb l c = true -> allowed l c.
  Proof.
    unfold allowedb. rewrite !andb_true_iff, !forallb_forall. intros [[A B] C]. repeat split.
    - intros a I. apply memb_in, A, I.
    - intros a I. apply memb_in, B, I.
    - apply distinctb_nodup, C.
  Qed.

  Fixpoint play (cs : list (@call text tol)) w l : option (_ * ledger) :=
    match cs with
    | [] => Some (w, l)
    | c :: cs' =>
        if allowedb l c then
          match run fresh F c w with Defined (a, w') => play cs' w' (settle l c a) | Undefined _ => None end
        else None
    end.
  Lemma play_history cs : forall w l w' l', history F fresh w l -> play cs w l = Some (w', l') -> history F fresh w' l'.
  Proof.
    induction cs as [|c cs IH]; cbn [play]; intros w l w' l' H E; [injection E as <- <-; exact H|].
    destruct (allowedb l c) eqn:A; [|discriminate]. destruct (run fresh F c w) as [[a w1]|] eqn:R; [|discriminate].
    apply (IH _ _ _ _) in E; [exact E|].
    replace w1 with (mkWorld (w_handles w1) (w_strings w1) (w_thread w1)) by (destruct w1; reflexivity).
    apply (called F fresh w l c a w1); [exact H | apply allowedb_allowed, A | exact R].
  Qed.
End Play.

Section Session.
  Context {T : Type} {N : Num T} {TR : Trans T}.
  Variable finite : T -> bool.
  Variable nan : T.
  Variable cdf : T -> T.
  Variable visit : smap (instrument T * list (ddf T)) -> smap (instrument T * list (ddf T)).
  Variable draws : nat -> nat -> T.
  Variable redraws : bump_time -> mc_pricer T -> nat -> nat -> T.
  Variable files : string -> res (option (json T)).
  Variable print : json T -> string.
  Let F := the_facade finite nan cdf visit draws redraws files print.

  Definition gbp : json T := JObj [("id", JStr "GBP"); ("settlement", JObj [("NullRule", JObj [])])].
  Definition market_json : json T :=
    JObj [("spot_date", JStr "2018-12-24"); ("spots", JObj []); ("yield_curves", JObj []); ("borrow_curves", JObj []);
          ("dividends", JObj []); ("vol_surfaces", JObj [])].
  Definition fixings_json : json T := JObj [("fixings_known_until", JStr "2018-12-24"); ("fixings_by_id", JObj [])].
  Definition opening : list (@call (option (json T)) (tolerances T)) := [
    CurrencyFromJson (Text (Some gbp));
    InstrumentFromJson (Text (Some (JObj [("Currency", gbp)]))) Inline [1%N] Inline [];
    PricerFactoryFromJson (Text (Some (JObj [("SelfPricerFactory", JObj [])])));
    FixingTableFromJson (Text (Some fixings_json));
    MarketDataFromJson (Text (Some market_json));
    ReportGeneratorFromJson (Text (Some (JObj [("DeltaGammaReportGenerator", JObj [("bumpsize", JInt 1)])])));
    Calculate 3%N 2%N 4%N 5%N [6%N];
    ReportsFromJson (Text None) ].
  Definition world_0 := mkWorld [] [] (@tls_initial T) : @world (instrument T) (currency T) (market_data T) (fixing_table T)
    (pricer_factory T) (generator T) (report T) (tls T).
  Definition dated : date := 18477%Z.
  Definition opened_world : @world (instrument T) (currency T) (market_data T) (fixing_table T)
    (pricer_factory T) (generator T) (report T) (tls T) :=
    mkWorld [(8%N, HErr "expected value at line 1 column 1"); (7%N, HReports [DeltaGammaReport (nofZ 1) []]);
             (6%N, HReportGenerator (DeltaGammaGenerator (nofZ 1))); (5%N, HMarketData (mkMarket dated [] [] [] [] []));
             (4%N, HFixingTable (mkTable dated [])); (3%N, HPricerFactory SelfPricerFactory);
             (2%N, HInstrument (ICurrency (mkCurrency "GBP" NullRule))); (1%N, HCurrency (mkCurrency "GBP" NullRule))]
            [] tls_initial.
  Definition opened_ledger := mkLedger [8; 7; 6; 5; 4; 3; 2; 1]%N [].
  Lemma opening_played : play F next opening world_0 (mkLedger [] []) = Some (opened_world, opened_ledger).
  Proof. reflexivity. Qed.
  Lemma opened_history : history F next opened_world opened_ledger.
  Proof. exact (play_history F next opening _ _ _ _ (started F next _) opening_played). Qed.

  (** Look at the error, compare the reports with it (which frees both), clone a currency, and free the rest. *)
  Definition closing : list (@call (option (json T)) (tolerances T)) :=
    [ErrorString 8%N; IsError 7%N; AssertApproxEqReports 7%N 8%N (mkTol n0 n0 n0); Clone 1%N] ++
    [FreeString 9%N] ++ map FreeHandle [11; 10; 6; 5; 4; 3; 2; 1]%N.
  Lemma closing_played : play F next closing opened_world opened_ledger = Some (world_0, mkLedger [] []).
  Proof. reflexivity. Qed.
  Lemma closed_history : history F next world_0 (mkLedger [] []).
  Proof. exact (play_history F next closing _ _ _ _ opened_history closing_played). Qed.
End Session.
