(** C54: the C interface.  A client owns the handles and strings it was given and has not had freed; [allowed] says that it
    calls only with what it owns and has nothing freed twice.  [history] is any sequence of such calls over any facade. *)
From Coq Require Import ZArith NArith List String Bool Reals.
From Verif Require Import Prelude Num M_Dates M_Calendar M_Fixings M_Instruments M_Risk M_Reports M_MonteCarlo M_Schema M_Serde
  M_Objects M_Handles M_Facade S_Serde S_Handles S_Facade L_Handles L_HandlesCases L_Facade.
Import ListNotations.
Open Scope string_scope.
Open Scope list_scope.

(** An allowed call touches nothing that is not there: it is defined, whatever the handles are. *)
Theorem C54_safe : forall (instr ccy mkt fixt pf gen rep text tol thread : Type)
    (F : @facade instr ccy mkt fixt pf gen rep text tol thread) fresh, allocates fresh ->
  forall w l c, history F fresh w l -> allowed l c -> exists a w', run fresh F c w = Defined (a, w').
Proof. exact @history_defined. Qed.
Print Assumptions C54_safe.

(** What the client owns is what is on the heap, each under its own address: nothing is lost and nothing is left over. *)
Theorem C54_owned : forall (instr ccy mkt fixt pf gen rep text tol thread : Type)
    (F : @facade instr ccy mkt fixt pf gen rep text tol thread) fresh, allocates fresh ->
  forall w l, history F fresh w l ->
    NoDup (l_handles l) /\ (forall a, In a (l_handles l) <-> exists h, holds w a h) /\
    NoDup (l_strings l) /\ (forall a, In a (l_strings l) <-> exists s, block a (w_strings w) = Some s).
Proof. exact @history_owned. Qed.
Print Assumptions C54_owned.

(** When the client has freed all its handles the heap has none. *)
Theorem C54_all_freed : forall (instr ccy mkt fixt pf gen rep text tol thread : Type)
    (F : @facade instr ccy mkt fixt pf gen rep text tol thread) fresh, allocates fresh ->
  forall w s, history F fresh w (mkLedger [] s) -> w_handles w = [].
Proof. exact @history_empty. Qed.
Print Assumptions C54_all_freed.

(** A call changes no handle that it does not free, whatever else it does, and a handle it gives out is none of those. *)
Theorem C54_kept : forall (instr ccy mkt fixt pf gen rep text tol thread : Type)
    (F : @facade instr ccy mkt fixt pf gen rep text tol thread) fresh, allocates fresh ->
  forall w l c a w', history F fresh w l -> allowed l c -> run fresh F c w = Defined (a, w') ->
    (forall h x, In h (l_handles l) -> ~ In h (freed c) -> (holds w' h x <-> holds w h x)) /\
    (forall h, a = AHandle h -> ~ In h (without (freed c) (l_handles l))).
Proof. exact @history_frame. Qed.
Print Assumptions C54_kept.

(** The first handle that is not of the kind the call requires decides the answer: the error it holds, if it is an error, and
    otherwise a complaint about its kind.  Nothing of the wrong kind is used. *)
Theorem C54_first_wrong : forall (instr ccy mkt fixt pf gen rep text tol thread : Type)
    (F : @facade instr ccy mkt fixt pf gen rep text tol thread) fresh, allocates fresh ->
  forall w l c before a k after h, history F fresh w l -> allowed l c -> opened F c ->
    required c = before ++ (a, k) :: after -> (forall b k', In (b, k') before -> exists h', holds w b h' /\ is_of k' h') ->
    holds w a h -> ~ is_of k h ->
    exists r w', run fresh F c w = Defined (AHandle r, w') /\ holds w' r (HErr (complaint k h)).
Proof. exact @first_wrong. Qed.
Print Assumptions C54_first_wrong.

(** A handle of the wrong kind, in any position and whatever else is wrong, makes the answer an error. *)
Theorem C54_any_wrong : forall (instr ccy mkt fixt pf gen rep text tol thread : Type)
    (F : @facade instr ccy mkt fixt pf gen rep text tol thread) fresh, allocates fresh ->
  forall w l c a k h, history F fresh w l -> allowed l c -> In (a, k) (required c) -> holds w a h -> ~ is_of k h ->
    exists r w' e, run fresh F c w = Defined (AHandle r, w') /\ holds w' r (HErr e).
Proof. exact @any_wrong. Qed.
Print Assumptions C54_any_wrong.

(** With the right kinds the answer holds what the facade makes of them: its result, its error, or a note that it panicked. *)
Theorem C54_calculate : forall (instr ccy mkt fixt pf gen rep text tol thread : Type)
    (F : @facade instr ccy mkt fixt pf gen rep text tol thread) fresh w p i f m gs p' i' f' m' gs',
  holds w p (HPricerFactory p') -> holds w i (HInstrument i') -> holds w f (HFixingTable f') -> holds w m (HMarketData m') ->
  Forall2 (fun a x => holds w a (HReportGenerator x)) gs gs' ->
  exists r w', run fresh F (Calculate p i f m gs) w = Defined (AHandle r, w') /\
    holds w' r (match fst (fc_calculate F p' i' f' m' gs' (w_thread w)) with
                | Ok reports => HReports reports
                | Err e => HErr e
                | Panic _ => HErr "Caught panic when creating handle"
                end).
Proof. exact @calculate_right. Qed.
Print Assumptions C54_calculate.

Theorem C54_instrument : forall (instr ccy mkt fixt pf gen rep text tol thread : Type)
    (F : @facade instr ccy mkt fixt pf gen rep text tol thread) fresh w t dc cs di is cs' is',
  Forall2 (fun a x => holds w a (HCurrency x)) cs cs' -> Forall2 (fun a x => holds w a (HInstrument x)) is is' ->
  exists r w', run fresh F (InstrumentFromJson (Text t) dc cs di is) w = Defined (AHandle r, w') /\
    holds w' r (match fst (fc_instrument F t dc cs' di is' (w_thread w)) with
                | Ok i => HInstrument i
                | Err e => HErr e
                | Panic _ => HErr "Caught panic when creating handle"
                end).
Proof. exact @instrument_right. Qed.
Print Assumptions C54_instrument.

Theorem C54_compare : forall (instr ccy mkt fixt pf gen rep text tol thread : Type)
    (F : @facade instr ccy mkt fixt pf gen rep text tol thread) fresh w a b t mine other,
  a <> b -> holds w a (HReports mine) -> holds w b (HReports other) ->
  exists r w', run fresh F (AssertApproxEqReports a b t) w = Defined (AHandle r, w') /\
    holds w' r (match fc_approx_eq F mine other t with
                | Ok _ => HEmpty
                | Err e => HErr e
                | Panic _ => HErr "Caught panic when creating handle"
                end).
Proof. exact @compare_right. Qed.
Print Assumptions C54_compare.

(** Reading from a file or from text. *)
Theorem C54_read : forall (instr ccy mkt fixt pf gen rep text tol thread : Type)
    (F : @facade instr ccy mkt fixt pf gen rep text tol thread) fresh w s,
  answers F fresh (CurrencyFromJson s) w (outcome HCurrency (let* t := source_text F s in fst (fc_currency F t (w_thread w)))) /\
  answers F fresh (PricerFactoryFromJson s) w (outcome HPricerFactory (let* t := source_text F s in fst (fc_pricer_factory F t (w_thread w)))) /\
  answers F fresh (FixingTableFromJson s) w (outcome HFixingTable (let* t := source_text F s in fst (fc_fixing_table F t (w_thread w)))) /\
  answers F fresh (MarketDataFromJson s) w (outcome HMarketData (let* t := source_text F s in fst (fc_market_data F t (w_thread w)))) /\
  answers F fresh (ReportGeneratorFromJson s) w (outcome HReportGenerator (let* t := source_text F s in fst (fc_report_generator F t (w_thread w)))) /\
  answers F fresh (ReportsFromJson s) w (outcome HReports (let* t := source_text F s in fst (fc_reports F t (w_thread w)))).
Proof. exact @read_right. Qed.
Print Assumptions C54_read.

(** The text of an error is the error; of anything else, a complaint. *)
Theorem C54_error_string : forall (instr ccy mkt fixt pf gen rep text tol thread : Type)
    (F : @facade instr ccy mkt fixt pf gen rep text tol thread) fresh w a h, holds w a h ->
  answers_text F fresh (ErrorString a) w
    (let s := match h with HErr e => e | _ => ("Wrong handle type: Error required but " ++ handle_name h ++ " supplied")%string end in
     if has_nul s then "Caught panic when converting error string" else s).
Proof. exact @error_string_right. Qed.
Print Assumptions C54_error_string.

Theorem C54_reports_string : forall (instr ccy mkt fixt pf gen rep text tol thread : Type)
    (F : @facade instr ccy mkt fixt pf gen rep text tol thread) fresh w a h, holds w a h ->
  answers_text F fresh (ReportsAsJsonString a) w
    (match (match h with
            | HReports rs => fst (fc_write F rs (w_thread w))
            | HErr e => Ok e
            | _ => Ok "reports_as_string: not a report handle"
            end) with
     | Ok s => if has_nul s then "Caught panic when converting result string" else s
     | _ => "Caught panic when converting result string"
     end).
Proof. exact @reports_string_right. Qed.
Print Assumptions C54_reports_string.

(** The strings that cannot be passed to C are those with a zero character. *)
Theorem C54_nul : forall s, has_nul s = true <-> exists n, String.get n s = Some Ascii.zero.
Proof. exact nul_is. Qed.
Print Assumptions C54_nul.

(** A clone holds the same as the original, except that reports cannot be cloned. *)
Theorem C54_clone : forall (instr ccy mkt fixt pf gen rep text tol thread : Type)
    (F : @facade instr ccy mkt fixt pf gen rep text tol thread) fresh w a h, holds w a h ->
  exists r w', run fresh F (Clone a) w = Defined (AHandle r, w') /\
    match h with HReports _ => exists e, holds w' r (HErr e) | _ => holds w' r h end.
Proof. exact @clone_right. Qed.
Print Assumptions C54_clone.

Theorem C54_is_error : forall (instr ccy mkt fixt pf gen rep text tol thread : Type)
    (F : @facade instr ccy mkt fixt pf gen rep text tol thread) fresh w a h, holds w a h ->
  run fresh F (IsError a) w = Defined (ABool (match h with HErr _ => true | _ => false end), w).
Proof. exact @is_error_right. Qed.
Print Assumptions C54_is_error.

(** Ownership matters: a handle the client does not own, because it was freed or never was, must not be used or freed. *)
Theorem C54_misuse : forall (instr ccy mkt fixt pf gen rep text tol thread : Type)
    (F : @facade instr ccy mkt fixt pf gen rep text tol thread) fresh, allocates fresh ->
  forall w l c a, history F fresh w l -> ~ In a (l_handles l) ->
    In c [ReportsAsJsonString a; IsError a; ErrorString a; Clone a; FreeHandle a] ->
    exists what, run fresh F c w = Undefined what.
Proof. exact @misuse. Qed.
Print Assumptions C54_misuse.

(** Comparing a handle with itself frees it twice, although the client owns it. *)
Theorem C54_twice_refuted : forall (instr ccy mkt fixt pf gen rep text tol thread : Type)
    (F : @facade instr ccy mkt fixt pf gen rep text tol thread) fresh, allocates fresh ->
  forall w l a t, history F fresh w l -> In a (l_handles l) ->
    exists what, run fresh F (AssertApproxEqReports a a t) w = Undefined what.
Proof. exact @same_twice. Qed.
Print Assumptions C54_twice_refuted.

(** A session with the real facade: objects of every kind read from JSON, reports calculated, an error; then everything freed. *)
Example C54_case : forall T (N : Num T) (TR : Trans T) finite nan cdf visit draws redraws files print,
  let F := the_facade finite nan cdf visit draws redraws files print in
  allocates next /\
  play F next opening world_0 (mkLedger [] []) = Some (opened_world, opened_ledger) /\
  history F next opened_world opened_ledger /\
  holds (@opened_world T N) 7%N (HReports [DeltaGammaReport (nofZ 1) []]) /\
  holds (@opened_world T N) 8%N (HErr "expected value at line 1 column 1") /\
  allowed opened_ledger (@Calculate (option (json T)) (tolerances T) 3 2 4 8 [6])%N /\
  play F next closing opened_world opened_ledger = Some (world_0, mkLedger [] []).
Proof.
  intros. split; [exact next_allocates|]. split; [apply opening_played|]. split; [apply opened_history|].
  split; [reflexivity|]. split; [reflexivity|]. split; [|apply closing_played].
  apply allowedb_allowed. reflexivity.
Qed.

(** C52: pricer factories can be written and read. *)
Theorem C52_pricer_factories : forall T (N : Num T) finite (f : pricer_factory T) s, storable_factory finite f ->
  exists j s', write finite (val_of_factory f) s = (Ok j, s) /\ pricer_factory_from_json j s = (Ok f, s') /\ same_state s s'.
Proof. exact @factory_round_trip. Qed.
Print Assumptions C52_pricer_factories.

Example C52_pricer_factories_case : storable_factory (fun _ : R => true) (MonteCarloPricerFactory 20 (mkFactory 1%R 5)).
Proof. repeat split; cbn; easy. Qed.
