(** Proofs: what the readers of the facade give for arbitrary JSON. *)
From Coq Require Import ZArith List String Bool Lia.
From Verif Require Import Prelude Num M_Dates M_Calendar M_Interp M_Curves M_Fixings M_Forward M_Vol M_Black76 M_Instruments
  M_Risk M_Reports M_MonteCarlo M_Schema M_Serde M_Objects M_Facade S_Serde S_Objects S_Facade S_Read
  L_Fixings L_Serde L_Objects L_Market L_RoundTrip L_Facade L_Read L_ReadObjects L_ReadMarket.
Import ListNotations.
Open Scope string_scope.
Open Scope list_scope.

Section Top.
  Context {T : Type} {N : Num T} {TR : Trans T}.
  Variable finite : T -> bool.

  (** ** Fixing tables *)

  Lemma dt_put_keys (k : datetime) (x : T) m : NoDup (map fst m) -> NoDup (map fst (dt_put k x m)).
  Proof.
    assert (K : forall m, incl (map fst (dt_put k x m)) (k :: map fst m)).
    { clear m. induction m as [|[k' y] m IH]; cbn [dt_put map fst]; [apply incl_refl|].
      destruct (dt_eqb k k'); cbn [map fst]; [apply incl_tl, incl_refl|].
      intros a [<-|I]; [right; left; reflexivity|]. destruct (IH a I) as [<-|I']; [left; reflexivity | right; right; exact I']. }
    induction m as [|[k' y] m IH]; cbn [dt_put map fst]; intros H; [constructor; [easy | constructor]|].
    inversion H as [|? ? NI ND]; subst. destruct (dt_eqb k k') eqn:E; cbn [map fst]; [constructor; assumption|].
    constructor; [|apply IH, ND]. intros I. destruct (K m _ I) as [<-|I']; [|exact (NI I')].
    rewrite dt_eqb_refl in E. discriminate.
  Qed.
  Lemma dt_put_values (P : datetime * T -> Prop) k x m : P (k, x) -> Forall P m -> Forall P (dt_put k x m).
  Proof.
    intros Px H. induction H as [|[k' y] m Py F IH]; cbn [dt_put]; [repeat constructor; exact Px|].
    destruct (dt_eqb k k') eqn:E; [|constructor; assumption]. apply dt_eqb_iff in E as ->. constructor; assumption.
  Qed.
  Lemma load_storable (l : list (datetime * T)) : Forall (fun e => proper (dt_date (fst e)) /\ fin finite (snd e)) l ->
    storable_fixings finite (fixings_load l).
  Proof.
    unfold fixings_load. assert (S : storable_fixings finite (@nil (datetime * T))) by (split; constructor).
    revert S. generalize (@nil (datetime * T)). induction l as [|[k x] l IH]; cbn [fold_left fst snd]; intros m [ND F] H; [split; assumption|].
    inversion H as [|? ? Px H']; subst. apply IH; [|exact H']. split; [apply dt_put_keys, ND | apply dt_put_values; assumption].
  Qed.

  Definition settled {A} (P : A -> Prop) (r : res A) : Prop := exists a, r = Ok a /\ P a.

  Lemma settled_fixings v : conforms finite v (TStruct false [("fixing_by_date", TVec (TTuple [ty_date_time; TF64]))]) -> settled (storable_fixings finite) (fixings_of_val v).
  Proof.
    intros H. apply is_struct in H as (fs & -> & H). apply is_field in H as (l & fs1 & -> & C & H). apply is_end in H as ->.
    apply is_vec in C as (l' & -> & C). cbn [fixings_of_val].
    assert (E : settled (Forall (fun e => proper (dt_date (fst e)) /\ fin finite (snd e)))
      (mapM (fun p => match p with VTuple [d; VNum x] => let* d' := datetime_of_val d in Ok (d', x) | _ => ill end) l')).
    { induction C as [|u l' C _ IH]; cbn [mapM]; [eexists; split; [reflexivity | constructor]|].
      apply is_pair in C as (d & x & -> & Cd & Cx). apply made_datetime in Cd as (d' & -> & Pd). apply is_num in Cx as (x' & -> & Px).
      rewrite back_datetime. cbn [bind]. destruct IH as (a & -> & F). cbn [bind]. eexists. split; [reflexivity|]. constructor; auto. }
    destruct E as (a & -> & F). cbn [bind]. eexists. split; [reflexivity|]. apply load_storable, F.
  Qed.

  Lemma settled_entries {A} (g : val T -> res A) (P : A -> Prop) t v : (forall u, conforms finite u t -> settled P (g u)) ->
    conforms finite v (TMap t) -> settled (storable_map P) (map_of_val g v).
  Proof.
    intros G H. apply is_map in H as (m & -> & ND & H). unfold map_of_val.
    assert (E : settled (fun m' => keys m' = keys m /\ Forall (fun e => P (snd e)) m')
      (mapM (fun e : string * val T => match e with (n, u) => let* a := g u in Ok (n, a) end) m)).
    { clear ND. induction H as [|[n u] m C _ IH]; cbn [mapM]; [eexists; split; [reflexivity | split; [reflexivity | constructor]]|].
      destruct (G u C) as (a & -> & Pa). cbn [bind]. destruct IH as (m' & -> & K & F). cbn [bind].
      eexists. split; [reflexivity|]. split; [unfold keys in *; cbn [map fst]; rewrite K; reflexivity | constructor; assumption]. }
    destruct E as (m' & -> & K & F). eexists. split; [reflexivity|]. split; [rewrite K; exact ND | exact F].
  Qed.

  Lemma settled_table v : conforms finite v ty_fixing_table -> settled (storable_table finite) (fixing_table_of_val v).
  Proof.
    intros H. apply is_struct in H as (fs & -> & H). apply is_field in H as (d & fs1 & -> & C & H).
    apply is_field in H as (m & fs2 & -> & Cm & H). apply is_end in H as ->.
    apply is_date in C as (d' & -> & Pd). cbn [fixing_table_of_val].
    destruct (settled_entries fixings_of_val _ _ m settled_fixings Cm) as (f & -> & S). cbn [bind].
    eexists. split; [reflexivity | split; assumption].
  Qed.

  (** ** Any reader *)

  Lemma settled_made {A} (f : A -> val T) (P : A -> Prop) g v : made f P v -> (forall a, P a -> g (f a) = Ok a) -> settled P (g v).
  Proof. intros (a & -> & Pa) G. exists a. auto. Qed.

  Lemma read_then {A} j t (f : val T -> res A) P E (B : val T -> Prop) s :
    numbers_finite finite j -> tidy t -> known finite s -> (forall v, conforms finite v t -> comes P E (B v) (f v)) ->
    comes P (fun e => (exists s', read j t s = (Err e, s')) \/ E e)
      (panicking_text j \/ exists v s', read j t s = (Ok v, s') /\ B v)
      (fst (bind_act (read j t) (fun v => lift (f v)) s)).
  Proof.
    intros F TD K H. unfold bind_act, lift. destruct (read j t s) as [[v|e|e] s1] eqn:R; cbn [fst comes].
    - destruct (read_conforms finite j t s v s1 F TD K R) as [C _]. specialize (H v C).
      eapply comes_weaken; [| | |exact H]; eauto.
    - left. eauto.
    - left. exact (reads_safely_all j t s e s1 R).
  Qed.

  Lemma read_settled {A} j t (f : val T -> res A) P s :
    numbers_finite finite j -> tidy t -> known finite s -> (forall v, conforms finite v t -> settled P (f v)) ->
    comes P (fun e => exists s', read j t s = (Err e, s')) (panicking_text j)
      (fst (bind_act (read j t) (fun v => lift (f v)) s)).
  Proof.
    intros F TD K H. assert (C := read_then j t f P (fun _ => False) (fun _ => False) s F TD K).
    eapply comes_weaken; [| | |apply C]; [auto | intros e [R|[]]; exact R | intros [p|(v & s' & _ & [])]; exact p |].
    intros v Cv. destruct (H v Cv) as (a & -> & Pa). exact Pa.
  Qed.

  (** ** Sessions *)

  Lemma supplied_known cd cs ic is : Forall (storable_currency finite) cs -> Forall (storable finite) is ->
    known finite (mkTls (mkDedup cd (dedup_map_from_slice (map val_of_currency cs)))
                        (mkDedup ic (dedup_map_from_slice (map val_of_instrument is)))).
  Proof.
    intros Hc Hi k id v. rewrite Forall_forall in Hc, Hi.
    destruct k; cbn [slot dd_map content]; intros G; apply slice_get in G as [I _]; apply in_map_iff in I as (a & <- & I).
    - destruct (fits_currency finite a (Hc a I)) as [C _]. exact C.
    - destruct (suits_instrument finite a (Hi a I)) as [C _]. exact C.
  Qed.

  Lemma known_set k d s : known finite s -> (forall id v, get id (dd_map d) = Some v -> conforms finite v (content k)) ->
    known finite (set_slot k d s).
  Proof.
    intros K H k' id v G. destruct (shared_dec k' k) as [->|ne].
    - rewrite slot_set_same in G. exact (H id v G).
    - rewrite slot_set_other in G by exact ne. exact (K k' id v G).
  Qed.

  Lemma initial_known : known finite (@tls_initial T).
  Proof. intros [|] id v; discriminate. Qed.

  Lemma gives_with {A} (Q : A -> Prop) k d m : (forall id v, get id (dd_map d) = Some v -> conforms finite v (content k)) ->
    gives finite Q m -> gives finite Q (with_dedup k d m).
  Proof.
    intros D H s K. assert (G := H _ (known_set k d s K D)). unfold with_dedup.
    destruct (m (set_slot k d s)) as [[a|e|e] s1]; [destruct G as [Qa K1]; split; [exact Qa|] | | exact G];
      (apply known_set; [assumption | intros id v; apply (K k)]).
  Qed.

  Lemma shared_tidy k : tidy (TShared k).
  Proof. exact I. Qed.

  Lemma gives_instrument j cd cs ic is : numbers_finite finite j -> Forall (storable_currency finite) cs -> Forall (storable finite) is ->
    gives finite (storable finite) (instrument_from_json j cd cs ic is).
  Proof.
    intros F Hc Hi. unfold instrument_from_json. pose proof (supplied_known cd cs ic is Hc Hi) as K.
    eapply gives_bind.
    - apply gives_with; [intros id v; apply (K ShCurrency)|]. apply gives_with; [intros id v; apply (K ShInstrument)|].
      exact (reads_all finite j F _ (shared_tidy ShInstrument)).
    - intros v C. apply gives_lift. intros i E. apply is_shared in C as (u & -> & C).
      apply made_instrument in C as (i' & -> & S). cbn [rc_instrument_of_val] in E. rewrite back_instrument in E. congruence.
  Qed.

  Lemma gives_currency j : numbers_finite finite j -> gives finite (storable_currency finite) (currency_from_json j).
  Proof.
    intros F. unfold currency_from_json. eapply gives_bind; [exact (reads_all finite j F _ (shared_tidy ShCurrency))|].
    intros v C. apply gives_lift. intros c E. apply made_rc_currency in C as (c' & -> & S). rewrite back_rc_currency in E. congruence.
  Qed.

  Lemma session_sound s cs is : session finite s cs is ->
    known finite s /\ Forall (storable_currency finite) cs /\ Forall (storable finite) is.
  Proof.
    induction 1 as [|s cs is j cd cs' ic is' r s' _ (K & Hc & Hi) F Ic Ii E|s cs is j r s' _ (K & Hc & Hi) F E
                    |s cs is j t r s' _ (K & Hc & Hi) F I E].
    - split; [exact initial_known | split; constructor].
    - assert (G := gives_instrument j cd cs' ic is' F (incl_Forall Ic Hc) (incl_Forall Ii Hi) s K). rewrite E in G.
      destruct r; [destruct G as [S K']; auto | auto | auto].
    - assert (G := gives_currency j F s K). rewrite E in G. destruct r; [destruct G as [S K']; auto | auto | auto].
    - assert (TD : tidy t).
      { cbn [In] in I. decompose [or] I; try tauto; subst t; cbn; repeat split; repeat constructor; cbn; intuition congruence. }
      assert (G := reads_all finite j F t TD s K). rewrite E in G. destruct r; [destruct G as [_ K']; auto | auto | auto].
  Qed.

  (** ** The readers *)

  Lemma instrument_read s cs is j cd cs' ic is' : session finite s cs is -> numbers_finite finite j -> incl cs' cs -> incl is' is ->
    match fst (instrument_from_json j cd cs' ic is' s) with
    | Ok i => storable finite i
    | Err e => exists s1 s2, read j (TShared ShInstrument) s1 = (Err e, s2)
    | Panic _ => panicking_text j
    end.
  Proof.
    intros H F Ic Ii. apply session_sound in H as (K & Hc & Hi).
    apply (incl_Forall Ic) in Hc. apply (incl_Forall Ii) in Hi. pose proof (supplied_known cd cs' ic is' Hc Hi) as K'.
    unfold instrument_from_json, bind_act, with_dedup. rewrite nested_inside.
    set (inner := mkTls _ _) in *.
    destruct (read j (TShared ShInstrument) inner) as [[v|e|e] s1] eqn:R; cbn [fst lift].
    - destruct (read_conforms finite j _ _ _ _ F (shared_tidy ShInstrument) K' R) as [C _].
      apply is_shared in C as (u & -> & C). apply made_instrument in C as (i & -> & S).
      cbn [rc_instrument_of_val]. rewrite back_instrument. exact S.
    - eauto.
    - exact (reads_safely_all j _ _ _ _ R).
  Qed.

  Lemma currency_read s cs is j : session finite s cs is -> numbers_finite finite j ->
    match fst (currency_from_json j s) with
    | Ok c => storable_currency finite c
    | Err e => exists s', read j (TShared ShCurrency) s = (Err e, s')
    | Panic _ => panicking_text j
    end.
  Proof.
    intros H F. apply session_sound in H as (K & _ & _). apply (read_settled j (TShared ShCurrency) rc_currency_of_val); [exact F | exact I | exact K|].
    intros v C. apply made_rc_currency in C. apply (settled_made _ _ _ _ C). intros a _. apply back_rc_currency.
  Qed.

  Lemma fixings_read s cs is j : session finite s cs is -> numbers_finite finite j ->
    match fst (fixing_table_from_json j s) with
    | Ok t => storable_table finite t
    | Err e => exists s', read j ty_fixing_table s = (Err e, s')
    | Panic _ => panicking_text j
    end.
  Proof.
    intros H F. apply session_sound in H as (K & _ & _).
    apply (read_settled j ty_fixing_table fixing_table_of_val); [exact F | | exact K | exact settled_table].
    cbn; repeat split; repeat constructor; cbn; intuition congruence.
  Qed.

  Lemma generator_read s cs is j : session finite s cs is -> numbers_finite finite j ->
    match fst (report_generator_from_json j s) with
    | Ok g => storable_generator finite g
    | Err e => exists s', read j (TTagged TrReportGenerator) s = (Err e, s')
    | Panic _ => panicking_text j
    end.
  Proof.
    intros H F. apply session_sound in H as (K & _ & _).
    apply (read_settled j _ generator_of_val); [exact F | exact I | exact K |].
    intros v C. apply made_generator in C. apply (settled_made _ _ _ _ C). intros a _. apply back_generator.
  Qed.

  Lemma reports_read s cs is j : session finite s cs is -> numbers_finite finite j ->
    match fst (reports_from_json j s) with
    | Ok rs => Forall (storable_report finite) rs
    | Err e => exists s', read j (TVec (TTagged TrReport)) s = (Err e, s')
    | Panic _ => panicking_text j
    end.
  Proof.
    intros H F. apply session_sound in H as (K & _ & _).
    apply (read_settled j _ (fun v => match v with VVec l => mapM report_of_val l | _ => ill end)); [exact F | exact I | exact K |].
    intros v C. apply is_vec in C as (l & -> & C).
    assert (M : Forall (made val_of_report (storable_report finite)) l).
    { eapply Forall_impl; [|exact C]. intros u. apply made_report. }
    apply made_list in M as (l' & -> & S). exists l'. split; [|exact S]. apply mapM_back. intros a _. apply back_report.
  Qed.

  Lemma factory_read s cs is j : session finite s cs is -> numbers_finite finite j ->
    match fst (pricer_factory_from_json j s) with
    | Ok f => storable_factory finite f
    | Err e => exists s', read j (TTagged TrPricerFactory) s = (Err e, s')
    | Panic _ => panicking_text j
    end.
  Proof.
    intros H F. apply session_sound in H as (K & _ & _).
    apply (read_settled j _ factory_of_val); [exact F | exact I | exact K |].
    intros v C. apply made_factory in C. apply (settled_made _ _ _ _ C). intros a _. apply back_factory.
  Qed.

  Lemma market_read nan s cs is j : session finite s cs is -> numbers_finite finite j ->
    match fst (market_data_from_json nan j s) with
    | Ok md => storable_market finite nan md
    | Err e => (exists s', read j ty_market_data s = (Err e, s')) \/ rejected nan e
    | Panic _ => panicking_text j \/ exists v s', read j ty_market_data s = (Ok v, s') /\ (short_smile v \/ uncountable v \/ incomparable nan v)
    end.
  Proof.
    intros H F. apply session_sound in H as (K & _ & _).
    apply (read_then j ty_market_data (market_of_val nan) _ _ (bad nan)); [exact F | | exact K | exact (comes_market finite nan)].
    cbn; repeat split; repeat constructor; cbn; intuition congruence.
  Qed.

  (** ** Written again *)

  Lemma instrument_again i s : storable finite i -> exists j,
    instrument_to_json finite i Inline [] Inline [] s = (Ok j, s) /\ instrument_from_json j Inline [] Inline [] s = (Ok i, s).
  Proof.
    intros S. destruct (instrument_written finite i Inline [] Inline [] s) as (j & W); try discriminate. exists j. split; [exact W|].
    apply (instrument_round_trip finite Inline Inline [] [] i s j s S) in W; try congruence. apply W.
  Qed.

  (** ** What can be read is what can be stored *)

  Lemma each_finite {A} (f : A -> act T (json T)) l : (forall a s j s', In a l -> f a s = (Ok j, s') -> numbers_finite finite j) ->
    forall s js s', each f l s = (Ok js, s') -> every (numbers_finite finite) js.
  Proof.
    induction l as [|a l IH]; cbn [each]; intros H s js s' E; [injection E as <- <-; exact I|].
    inv_act E. inv_act E. injection E as <- <-. split; [apply (H a s a0 s0 (in_eq _ _) E0)|].
    apply (IH (fun a s j s' M => H a s j s' (in_cons _ _ _ M)) _ _ _ E1).
  Qed.
  Lemma entries_finite (fs : list (string * val T)) :
    (forall n u s j s', In (n, u) fs -> write finite u s = (Ok j, s') -> numbers_finite finite j) ->
    forall s es s', each (fun e : string * val T => match e with (n, u) => let! j := write finite u in ret (n, j) end) fs s = (Ok es, s') ->
    every (fun e : string * json T => match e with (_, j') => numbers_finite finite j' end) es.
  Proof.
    induction fs as [|[n u] fs IH]; cbn [each]; intros H s es s' E; [injection E as <- <-; exact I|].
    inv_act E. inv_act E0. injection E0 as <- <-. inv_act E. injection E as <- <-.
    split; [exact (H n u _ _ _ (in_eq _ _) E1)|]. exact (IH (fun n u s j s' M => H n u s j s' (in_cons _ _ _ M)) _ _ _ E0).
  Qed.

  Lemma written_finite v : whole_numbers finite -> forall t s j s', conforms finite v t -> write finite v s = (Ok j, s') -> numbers_finite finite j.
  Proof.
    intros W. induction v as [x|x|z|b|d|n|n u IH|fs IH|l IH|l IH|m IH|tr id u IH|k u IH] using val_induction;
      intros t s j s' C E; cbn [write] in E.
    - injection E as <- <-. exact I.
    - injection E as <- <-. destruct (finite x) eqn:F; [exact F | exact I].
    - injection E as <- <-. destruct t; cbn [conforms] in C; try tauto; apply W; lia.
    - injection E as <- <-. exact I.
    - injection E as <- <-. exact I.
    - injection E as <- <-. exact I.
    - inv_act E. injection E as <- <-. destruct t; cbn [conforms] in C; try tauto. destruct C as (t' & _ & C).
      split; [exact (IH _ _ _ _ C E0) | exact I].
    - inv_act E. injection E as <- <-. destruct t as [| | | | | |?|? fts|?|?|?|?|?]; cbn [conforms] in C; try tauto. destruct C as [_ C].
      refine (entries_finite _ _ _ _ _ E0). clear E0. intros n0 u s2 j2 s3 M W1. rewrite Forall_forall in IH.
      assert (Cu : exists t', conforms finite u t').
      { clear - C M. revert fts C M. induction fs as [|[n1 u1] fs IHf]; intros ts C M; [destruct M|].
        destruct ts as [|[n2 t2] ts]; cbn [fields_conform] in C; [tauto|]. destruct C as (_ & C1 & C2).
        destruct M as [M|M]; [injection M as _ <-; eauto | exact (IHf ts C2 M)]. }
      destruct Cu as (t' & Cu). exact (IH _ M _ _ _ _ Cu W1).
    - inv_act E. injection E as <- <-. destruct t as [| | | | | |?|?|ts|?|?|?|?]; cbn [conforms] in C; try tauto.
      refine (each_finite _ _ _ _ _ _ E0). clear E0. intros u s2 j2 s3 M W1. rewrite Forall_forall in IH.
      assert (Cu : exists t', conforms finite u t').
      { clear - C M. revert ts C M. induction l as [|u1 l IHl]; intros ts C M; [destruct M|].
        destruct ts as [|t2 ts]; cbn [tuple_conforms] in C; [tauto|]. destruct C as (C1 & C2).
        destruct M as [->|M]; [eauto | exact (IHl ts C2 M)]. }
      destruct Cu as (t' & Cu). exact (IH _ M _ _ _ _ Cu W1).
    - inv_act E. injection E as <- <-. destruct t; cbn [conforms] in C; try tauto.
      refine (each_finite _ _ _ _ _ _ E0). clear E0. intros u s2 j2 s3 M W1. rewrite Forall_forall in IH.
      assert (Cu : conforms finite u t).
      { clear - C M. induction l as [|u1 l IHl]; [destruct M|]. destruct C as (C1 & C2).
        destruct M as [->|M]; [exact C1 | exact (IHl C2 M)]. }
      exact (IH _ M _ _ _ _ Cu W1).
    - inv_act E. injection E as <- <-. destruct t; cbn [conforms] in C; try tauto. destruct C as [_ C].
      refine (entries_finite _ _ _ _ _ E0). clear E0. intros n0 u s2 j2 s3 M W1. rewrite Forall_forall in IH.
      assert (Cu : conforms finite u t).
      { clear - C M. induction m as [|[n1 u1] m IHl]; [destruct M|]. destruct C as (C1 & C2).
        destruct M as [M|M]; [injection M as _ <-; exact C1 | exact (IHl C2 M)]. }
      exact (IH _ M _ _ _ _ Cu W1).
    - destruct id as [tag|]; [|discriminate E]. inv_act E. injection E as <- <-.
      destruct t; cbn [conforms] in C; try tauto. destruct C as (_ & tg & t' & _ & _ & C).
      split; [exact (IH _ _ _ _ C E0) | exact I].
    - destruct t; cbn [conforms] in C; try tauto. destruct C as [_ C]. unfold serialize_with_dedup in E.
      destruct (dd_control (slot k s)).
      + destruct (contains _ _); [injection E as <- <-; exact I | discriminate E].
      + exact (IH _ _ _ _ C E).
      + destruct (contains _ _); [injection E as <- <-; exact I | exact (IH _ _ _ _ C E)].
  Qed.

  Lemma initial : session finite (@tls_initial T) [] [].
  Proof. exact (SStart finite). Qed.

  Lemma instruments_exactly i : whole_numbers finite -> storable finite i <->
    exists j, numbers_finite finite j /\ instrument_from_json j Inline [] Inline [] tls_initial = (Ok i, tls_initial).
  Proof.
    intros W. split.
    - intros S. destruct (instrument_again i tls_initial S) as (j & E & R). exists j. split; [|exact R].
      unfold instrument_to_json in E. apply with_dedup_inv in E as (s1 & E & _). apply with_dedup_inv in E as (s2 & E & _).
      destruct (suits_instrument finite i S) as [C _].
      exact (written_finite (val_of_rc_instrument i) W (TShared ShInstrument) _ _ _ (conj eq_refl C) E).
    - intros (j & F & R). assert (K := instrument_read _ _ _ j Inline [] Inline [] initial F (incl_refl _) (incl_refl _)).
      rewrite R in K. exact K.
  Qed.

  Lemma currency_again c s : storable_currency finite c -> dd_control (slot ShCurrency s) = Inline -> exists j s',
    write finite (val_of_rc_currency c) s = (Ok j, s) /\ currency_from_json j s = (Ok c, s').
  Proof.
    intros S D. destruct (fits_currency finite c S) as (C & Sh & L).
    destruct (plain_round_trip finite _ _ s C Sh (named_currency c)) as (j & r & E & R & _).
    exists j, r. split; [cbn [write val_of_rc_currency]; unfold serialize_with_dedup; rewrite D; exact E|].
    destruct (content_object finite ShCurrency _ s j s C E) as (es & ->).
    unfold currency_from_json, bind_act. rewrite read_shared_object. unfold deserialize_with_dedup. rewrite D. unfold bind_act.
    change (read (JObj es) (content ShCurrency) s) with (read (JObj es) ty_currency s). rewrite R, L.
    unfold ret, lift. cbn [rc_currency_of_val]. rewrite back_currency. reflexivity.
  Qed.

  Lemma currencies_exactly c : whole_numbers finite -> storable_currency finite c <->
    exists j s', numbers_finite finite j /\ currency_from_json j tls_initial = (Ok c, s').
  Proof.
    intros W. split.
    - intros S. destruct (currency_again c tls_initial S eq_refl) as (j & s' & E & R). exists j, s'. split; [|exact R].
      destruct (fits_currency finite c S) as [C _]. exact (written_finite (val_of_rc_currency c) W (TShared ShCurrency) _ _ _ (conj eq_refl C) E).
    - intros (j & s' & F & R). assert (K := currency_read _ _ _ j initial F). rewrite R in K. exact K.
  Qed.

  Lemma fixings_exactly t : whole_numbers finite -> storable_table finite t <->
    exists j s', numbers_finite finite j /\ fixing_table_from_json j tls_initial = (Ok t, s').
  Proof.
    intros W. split.
    - intros S. destruct (fixings_round_trip finite t tls_initial S) as (j & s' & E & R & _). exists j, s'. split; [|exact R].
      destruct (fits_fixing_table finite t S) as [C _]. exact (written_finite _ W _ _ _ _ C E).
    - intros (j & s' & F & R). assert (K := fixings_read _ _ _ j initial F). rewrite R in K. exact K.
  Qed.

  Lemma generators_exactly g : whole_numbers finite -> storable_generator finite g <->
    exists j s', numbers_finite finite j /\ report_generator_from_json j tls_initial = (Ok g, s').
  Proof.
    intros W. split.
    - intros S. destruct (generator_round_trip finite g tls_initial S) as (j & s' & E & R & _). exists j, s'. split; [|exact R].
      destruct (fits_generator finite g S) as [C _]. exact (written_finite _ W _ _ _ _ C E).
    - intros (j & s' & F & R). assert (K := generator_read _ _ _ j initial F). rewrite R in K. exact K.
  Qed.

  Lemma reports_exactly rs : whole_numbers finite -> Forall (storable_report finite) rs <->
    exists j s', numbers_finite finite j /\ reports_from_json j tls_initial = (Ok rs, s').
  Proof.
    intros W. split.
    - intros S. destruct (reports_round_trip finite rs tls_initial S) as (j & s' & E & R & _). exists j, s'. split; [|exact R].
      assert (C : fits finite (VVec (map val_of_report rs)) (TVec (TTagged TrReport))).
      { apply fits_vec. intros r M. rewrite Forall_forall in S. apply fits_report, S, M. }
      destruct C as [C _]. exact (written_finite _ W _ _ _ _ C E).
    - intros (j & s' & F & R). assert (K := reports_read _ _ _ j initial F). rewrite R in K. exact K.
  Qed.

  Lemma factories_exactly f : whole_numbers finite -> storable_factory finite f <->
    exists j s', numbers_finite finite j /\ pricer_factory_from_json j tls_initial = (Ok f, s').
  Proof.
    intros W. split.
    - intros S. destruct (factory_round_trip finite f tls_initial S) as (j & s' & E & R & _). exists j, s'. split; [|exact R].
      destruct (fits_factory finite f S) as [C _]. exact (written_finite _ W _ _ _ _ C E).
    - intros (j & s' & F & R). assert (K := factory_read _ _ _ j initial F). rewrite R in K. exact K.
  Qed.

  Lemma markets_exactly nan md : whole_numbers finite -> storable_market finite nan md <->
    exists j s', numbers_finite finite j /\ market_data_from_json nan j tls_initial = (Ok md, s').
  Proof.
    intros W. split.
    - intros S. destruct (market_round_trip finite nan md tls_initial S) as (j & s' & E & R & _). exists j, s'. split; [|exact R].
      destruct (stored_market finite nan md S) as [C _]. exact (written_finite _ W _ _ _ _ C E).
    - intros (j & s' & F & R). assert (K := market_read nan _ _ _ j initial F). rewrite R in K. exact K.
  Qed.
End Top.
