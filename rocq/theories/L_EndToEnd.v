(** Proofs: calculations from end to end. *)
From Coq Require Import ZArith NArith List String Bool Reals Lia Lra Permutation.
From Verif Require Import Prelude Num M_Dates M_Calendar M_Interp M_Curves M_Fixings M_Forward M_Vol M_Black76 M_Instruments M_Deps M_Risk
  M_Reports M_MonteCarlo M_Schema M_Serde M_Objects M_Handles M_Facade S_Serde S_Objects S_Handles S_Facade S_EndToEnd
  L_Num L_Reports L_SelfPricer L_Compare L_Diffusion L_Serde L_RoundTrip L_Handles L_Facade L_ReadTop L_Stateless S_Reports S_Handles.
Import ListNotations.
Open Scope string_scope.
Open Scope list_scope.

(** ** One report for each generator *)

Section Reports.
  Context {T : Type} {N : Num T} {TR : Trans T} {P : Type}.
  Variable nan : T.
  Variable ops : pricer_ops T P.

  Lemma each_for (gen : generator T -> P -> saveable T -> T -> res (report T) * P * saveable T) gs :
    Forall (fun g => forall p sv u r p' sv', gen g p sv u = (Ok r, p', sv') -> report_for nan g r) gs ->
    forall p sv u rs p' sv', generate_each gen gs p sv u = (Ok rs, p', sv') -> Forall2 (report_for nan) gs rs.
  Proof.
    induction 1 as [|g gs G _ IH]; cbn [generate_each]; intros p sv u rs p' sv' E; [inversion E; constructor|].
    destruct (gen g p sv u) as [[[r|m|m] q] s'] eqn:Q; try discriminate.
    destruct (generate_each gen gs q s' u) as [[[rs'|m|m] q'] s''] eqn:Q'; try discriminate. inversion E; subst. constructor; eauto.
  Qed.
  Lemma generated_for g : forall p sv u r p' sv', generate nan ops g p sv u = (Ok r, p', sv') -> report_for nan g r.
  Proof.
    induction g as [h|b|bt gs IH] using generator_nested; cbn [generate]; intros p sv u r p' sv' E.
    - destruct (op_dependencies ops p); try discriminate. destruct (delta_loop _ _ _ _ _ _ _) as [[[x|m|m] q] s'] eqn:Q; try discriminate.
      inversion E; subst. constructor.
    - destruct (op_dependencies ops p); try discriminate. destruct (vega_loop _ _ _ _ _ _ _ _) as [[[x|m|m] q] s'] eqn:Q; try discriminate.
      inversion E; subst. constructor.
    - destruct (op_bump_time ops bt p) as [[x|m|m] q]; try discriminate. destruct (op_price ops q); try discriminate.
      match type of E with context [generate_each ?g ?a ?b ?c ?d] => destruct (generate_each g a b c d) as [[[rs|m|m] q'] s'] eqn:Q end; try discriminate.
      inversion E; subst. constructor. eapply each_for; [|exact Q]. exact IH.
  Qed.
  Lemma calculated_for p gs rs : calculate nan ops p gs = Ok rs -> Forall2 (report_for nan) gs rs.
  Proof.
    unfold calculate. destruct (op_price ops p); try discriminate. cbn [bind].
    match goal with |- context [generate_each ?g ?a ?b ?c ?d] => destruct (generate_each g a b c d) as [[r q] s'] eqn:Q end. intros ->.
    eapply each_for; [|exact Q]. apply Forall_forall. intros g _. apply generated_for.
  Qed.
End Reports.

Open Scope R_scope.

(** ** Reports agree with themselves *)

Lemma vega_self tol h m : 0 < tol_currency_risk tol -> 0 < h -> agree tol (VegaVolgaReport h m) (VegaVolgaReport h m).
Proof.
  intros H P. pose proof (Rdiv_lt_0_compat _ _ H P). constructor. apply tables_self; [assumption|]. now apply Rdiv_lt_0_compat.
Qed.

Lemma report_self tol nan g : positive_tolerances tol -> positive_sizes nan g -> forall r, report_for nan g r -> agree tol r r.
Proof.
  intros (P1 & P2 & P3). induction g as [h|b|bt gs IH] using generator_nested; intros PS r RF; inversion PS; subst; inversion RF; subst.
  - now apply delta_self.
  - now apply vega_self.
  - constructor; [now apply close_self..|].
    match goal with F : Forall2 _ gs _, Q : Forall (positive_sizes nan) gs |- _ => revert Q IH; clear -F; induction F as [|g r gs rs X _ IHF] end.
    + constructor.
    + intros Q IH. inversion Q; subst. inversion IH; subst. constructor; auto.
Qed.

Lemma reports_self tol nan gs rs : positive_tolerances tol -> Forall (positive_sizes nan) gs -> Forall2 (report_for nan) gs rs ->
  Forall2 (agree tol) rs rs.
Proof.
  intros PT PS F. induction F as [|g r gs rs X _ IH]; constructor; inversion PS; subst; eauto using report_self.
Qed.

Section Calculations.
  Context {T : Type} {N : Num T} {TR : Trans T}.
  Variables (nan : T) (cdf : T -> T) (visit : smap (instrument T * list (ddf T)) -> smap (instrument T * list (ddf T)))
    (draws : nat -> nat -> T) (redraws : bump_time -> mc_pricer T -> nat -> nat -> T).
  Notation calculated := (calculate_reports nan cdf visit draws redraws).

  Lemma facade_for f i t md gs rs : calculated f i t md gs = Ok rs -> Forall2 (report_for nan) gs rs.
  Proof. destruct f as [|c d]; cbn [calculate_reports]; intros E; inv_bind E; eapply calculated_for; eassumption. Qed.

  Lemma facade_proper f i t md gs rs : calculated f i t md gs = Ok rs -> Forall proper rs.
  Proof. destruct f as [|c d]; cbn [calculate_reports]; intros E; inv_bind E; eapply calculated_proper; eassumption. Qed.

  Lemma priced {P} (ops : pricer_ops T P) p gs rs : calculate nan ops p gs = Ok rs -> exists u, op_price ops p = Ok u.
  Proof. unfold calculate. destruct (op_price ops p); [eauto|discriminate..]. Qed.
  Lemma priced_nil {P} (ops : pricer_ops T P) p : calculate nan ops p [] = Ok [] <-> exists u, op_price ops p = Ok u.
  Proof. unfold calculate. destruct (op_price ops p); cbn; split; try discriminate; try (intros [? ?]; discriminate); eauto. Qed.

  Lemma each_alone {P} (ops : pricer_ops T P) new p gs rs : well_behaved ops new ->
    calculate nan ops p gs = Ok rs <-> calculate nan ops p [] = Ok [] /\ Forall2 (fun g r => calculate nan ops p [g] = Ok [r]) gs rs.
  Proof.
    intros WB. rewrite priced_nil. split.
    - intros E. destruct (priced _ _ _ _ E) as [u U]. split; [eauto|]. now apply (calculate_separately nan ops new WB p u gs rs U).
    - intros [[u U] F]. now apply (calculate_separately nan ops new WB p u gs rs U).
  Qed.

  Lemma facade_each f i t md gs rs : calculated f i t md gs = Ok rs <->
    calculated f i t md [] = Ok [] /\ Forall2 (fun g r => calculated f i t md [g] = Ok [r]) gs rs.
  Proof.
    destruct f as [|c d]; cbn [calculate_reports].
    - destruct (self_pricer_factory nan i t md) as [p|m|m]; cbn [bind].
      + apply (each_alone _ _ _ _ _ (self_well_behaved nan cdf)).
      + split; [discriminate | intros [? _]; discriminate].
      + split; [discriminate | intros [? _]; discriminate].
    - destruct (mc_pricer_factory nan visit draws d i t md) as [p|m|m]; cbn [bind].
      + apply (each_alone _ _ _ _ _ (mc_well_behaved nan cdf visit redraws)).
      + split; [discriminate | intros [? _]; discriminate].
      + split; [discriminate | intros [? _]; discriminate].
  Qed.

  Lemma facade_permuted f i t md gs gs' rs : Permutation gs gs' -> calculated f i t md gs = Ok rs ->
    exists rs', calculated f i t md gs' = Ok rs' /\ Permutation (combine gs rs) (combine gs' rs').
  Proof.
    intros PM E. destruct f as [|c d]; cbn [calculate_reports] in *; inv_bind E; rewrite E0; cbn [bind].
    - exact (calculate_permuted nan _ _ (self_well_behaved nan cdf) _ _ _ _ PM E).
    - exact (calculate_permuted nan _ _ (mc_well_behaved nan cdf visit redraws) _ _ _ _ PM E).
  Qed.

End Calculations.

Section Results.
  Variables (nan : R) (cdf : R -> R) (visit : smap (instrument R * list (ddf R)) -> smap (instrument R * list (ddf R)))
    (draws : nat -> nat -> R) (redraws : bump_time -> mc_pricer R -> nat -> nat -> R).
  Notation calculated := (calculate_reports nan cdf visit draws redraws).

  (** Results written, read and compared. *)
  Lemma facade_results finite tol f i t md gs rs s : calculated f i t md gs = Ok rs -> Forall (storable_report finite) rs ->
    positive_tolerances tol -> Forall (positive_sizes nan) gs ->
    exists j s', write_results finite rs s = (Ok j, s) /\ reports_from_json j s = (Ok rs, s') /\
      assert_approx_eq_reports tol rs rs = Ok tt.
  Proof.
    intros E S PT PS. destruct (reports_round_trip finite rs s S) as (j & s' & W & R & _). exists j, s'. split; [exact W|]. split; [exact R|].
    pose proof (facade_proper _ _ _ _ _ _ _ _ _ _ _ E) as Pr. apply all_spec; [exact Pr..|]. exact (reports_self tol nan gs rs PT PS (facade_for _ _ _ _ _ _ _ _ _ _ _ E)).
  Qed.
End Results.

(** ** A client of the C interface *)

Section Client.
  Context {instr ccy mkt fixt pf gen rep text tol thread : Type}.
  Variable F : @facade instr ccy mkt fixt pf gen rep text tol thread.
  Variable fresh : list addr -> addr.
  Hypothesis Fresh : allocates fresh.
  Notation world := (@world instr ccy mkt fixt pf gen rep thread).
  Notation handle := (@handle instr ccy mkt fixt pf gen rep).

  Definition kept (w w' : world) : Prop := forall a h, holds w a h -> holds w' a h.

  Lemma kept_new (w : world) x s t : kept w (mkWorld ((fresh (in_use w), x) :: w_handles w) s t).
  Proof.
    intros a h H. unfold holds in *. cbn [w_handles block]. destruct (N.eqb_spec a (fresh (in_use w))) as [->|ne]; [|exact H].
    exfalso. apply (Fresh (in_use w)). unfold in_use. apply in_or_app. left. apply block_in. eauto.
  Qed.

  Lemma ask_text {A} t (rd : text -> thread -> res A * thread) (make : A -> handle) x (w : world) : (forall s, rd t s = (Ok x, s)) ->
    exists a w', return_handle fresh (from_json F (Text t) rd make) w = Defined (AHandle a, w') /\ holds w' a (make x) /\ kept w w'.
  Proof.
    intros H. destruct w as [hs ss th]. unfold return_handle, from_json, and_then, open_source, now, on_thread. rewrite H. do 2 eexists. split; [reflexivity|].
    split; [|exact (kept_new (mkWorld hs ss th) _ _ _)]. unfold holds. cbn [w_handles block]. now rewrite N.eqb_refl.
  Qed.
  Lemma ask_instrument t x (w : world) : (forall s, fc_instrument F t Inline [] Inline [] s = (Ok x, s)) ->
    exists a w', run fresh F (InstrumentFromJson (Text t) Inline [] Inline []) w = Defined (AHandle a, w') /\
      holds w' a (HInstrument x) /\ kept w w'.
  Proof.
    intros H. destruct w as [hs ss th]. cbn [run]. unfold return_handle, and_then, open_source, look_at_all, now, on_thread. rewrite H. do 2 eexists. split; [reflexivity|].
    split; [|exact (kept_new (mkWorld hs ss th) _ _ _)]. unfold holds. cbn [w_handles block]. now rewrite N.eqb_refl.
  Qed.
  Lemma ask_generators ts xs : Forall2 (fun t x => forall s, fc_report_generator F t s = (Ok x, s)) ts xs -> forall w : world,
    exists l w', asks F fresh w (map (fun t => ReportGeneratorFromJson (Text t)) ts) l w' /\
      Forall2 (fun a x => holds w' a (HReportGenerator x)) l xs /\ kept w w'.
  Proof.
    induction 1 as [|t x ts xs H _ IH]; intros w.
    - exists [], w. split; [constructor|]. split; [constructor | intros a h; auto].
    - destruct (ask_text t (fc_report_generator F) HReportGenerator x w H) as (a & w1 & R & Ha & K).
      destruct (IH w1) as (l & w' & A & L & K'). exists (a :: l), w'. split; [cbn [map]; econstructor; [exact R | exact A]|].
      split; [constructor; auto | intros b h Hb; auto].
  Qed.
End Client.

Section Whole.
  Context {T : Type} {N : Num T} {TR : Trans T}.
  Variable finite : T -> bool.
  Variables (nan : T) (cdf : T -> T) (visit : smap (instrument T * list (ddf T)) -> smap (instrument T * list (ddf T)))
    (draws : nat -> nat -> T) (redraws : bump_time -> mc_pricer T -> nat -> nat -> T)
    (files : string -> res (option (json T))) (print : json T -> string).
  Notation F := (the_facade finite nan cdf visit draws redraws files print).
  Variable fresh : list addr -> addr.
  Hypothesis Fresh : allocates fresh.

  Lemma any_state {A} (f : json T -> act T A) j a s s' : (exists r, forall s, f j s = (r, s)) -> f j s = (Ok a, s') -> forall s, f j s = (Ok a, s).
  Proof. intros [r H] E s0. rewrite H in *. injection E as -> _. reflexivity. Qed.

  Lemma texts_for gs : Forall (storable_generator finite) gs -> exists js,
    Forall2 (fun g j => write finite (val_of_generator g) tls_initial = (Ok j, tls_initial)) gs js /\
    Forall2 (fun t x => forall s, fc_report_generator F t s = (Ok x, s)) (map Some js) gs.
  Proof.
    induction 1 as [|g gs H _ IH]; [exists []; split; constructor|]. destruct IH as (js & W & R).
    destruct (generator_round_trip finite g tls_initial H) as (j & s' & Wj & Rj & _). exists (j :: js). split; [constructor; assumption|].
    cbn [map]. constructor; [|exact R]. exact (any_state report_generator_from_json j g _ _ (generator_stateless j) Rj).
  Qed.

  Lemma client f i t md gs : storable_factory finite f -> storable finite i -> storable_table finite t -> storable_market finite nan md ->
    Forall (storable_generator finite) gs ->
    exists jf ji jt jm js,
      write finite (val_of_factory f) tls_initial = (Ok jf, tls_initial) /\
      instrument_to_json finite i Inline [] Inline [] tls_initial = (Ok ji, tls_initial) /\
      write finite (val_of_fixing_table t) tls_initial = (Ok jt, tls_initial) /\
      write finite (val_of_market md) tls_initial = (Ok jm, tls_initial) /\
      Forall2 (fun g j => write finite (val_of_generator g) tls_initial = (Ok j, tls_initial)) gs js /\
      forall w, exists af ai at_ am ags w',
        asks F fresh w ([PricerFactoryFromJson (Text (Some jf)); InstrumentFromJson (Text (Some ji)) Inline [] Inline [];
                         FixingTableFromJson (Text (Some jt)); MarketDataFromJson (Text (Some jm))] ++
                        map (fun j => ReportGeneratorFromJson (Text (Some j))) js) ([af; ai; at_; am] ++ ags) w' /\
        answers F fresh (Calculate af ai at_ am ags) w' (outcome HReports (calculate_reports nan cdf visit draws redraws f i t md gs)).
  Proof.
    intros Hf Hi Ht Hm Hg.
    destruct (factory_round_trip finite f tls_initial Hf) as (jf & sf & Wf & Rf & _).
    destruct (instrument_again finite i tls_initial Hi) as (ji & Wi & Ri).
    destruct (fixings_round_trip finite t tls_initial Ht) as (jt & st & Wt & Rt & _).
    destruct (market_round_trip finite nan md tls_initial Hm) as (jm & sm & Wm & Rm & _).
    destruct (texts_for gs Hg) as (js & Wg & Rg).
    exists jf, ji, jt, jm, js. repeat (split; [assumption|]). intros w.
    pose proof (any_state pricer_factory_from_json jf f _ _ (factory_stateless jf) Rf) as Af.
    pose proof (any_state fixing_table_from_json jt t _ _ (fixings_stateless jt) Rt) as At.
    pose proof (any_state (market_data_from_json nan) jm md _ _ (market_stateless nan jm) Rm) as Am.
    assert (Ai : forall s, instrument_from_json ji Inline [] Inline [] s = (Ok i, s)).
    { destruct (instrument_stateless ji Inline [] Inline []) as [r H]. intros s. destruct (H tls_initial) as [E _]. rewrite Ri in E. cbn [fst] in E.
      subst r. destruct (H s) as [E1 E2]. destruct (instrument_from_json ji Inline [] Inline [] s) as [r s1]. cbn [fst snd] in *. now subst. }
    destruct (ask_text F fresh Fresh (Some jf) (fc_pricer_factory F) HPricerFactory f w Af) as (af & w1 & R1 & H1 & K1).
    destruct (ask_instrument F fresh Fresh (Some ji) i w1 Ai) as (ai & w2 & R2 & H2 & K2).
    destruct (ask_text F fresh Fresh (Some jt) (fc_fixing_table F) HFixingTable t w2 At) as (at_ & w3 & R3 & H3 & K3).
    destruct (ask_text F fresh Fresh (Some jm) (fc_market_data F) HMarketData md w3 Am) as (am & w4 & R4 & H4 & K4).
    destruct (ask_generators F fresh Fresh _ _ Rg w4) as (ags & w' & Ag & L & K5).
    exists af, ai, at_, am, ags, w'. split.
    - cbn [app]. rewrite map_map in Ag. eapply asks_more; [exact R1|]. eapply asks_more; [exact R2|]. eapply asks_more; [exact R3|].
      eapply asks_more; [exact R4|]. exact Ag.
    - destruct (calculate_right F fresh w' af ai at_ am ags f i t md gs) as (r & w'' & R & H);
        [apply K5, K4, K3, K2, H1 | apply K5, K4, K3, H2 | apply K5, K4, H3 | apply K5, H4 | exact L|].
      exists r, w''. split; [exact R | exact H].
  Qed.
End Whole.
