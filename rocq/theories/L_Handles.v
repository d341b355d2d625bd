(** Proofs: handles. *)
From Coq Require Import NArith List String Bool Lia.
From Verif Require Import Prelude M_Serde M_Handles S_Handles.
Import ListNotations.
Open Scope string_scope.
Open Scope list_scope.

(** ** Blocks *)
Section Blocks.
  Context {A : Type}.
  Implicit Types (h : list (addr * A)) (a b : addr).

  Lemma block_in a h : In a (map fst h) <-> exists x, block a h = Some x.
  Proof.
    induction h as [|[b x] h IH]; cbn [map fst In block].
    - split; [intros [] | intros (x & E); discriminate].
    - destruct (N.eqb_spec a b) as [->|ne].
      + split; [eauto | auto].
      + rewrite <- IH. split; [intros [E|I]; [congruence|exact I] | auto].
  Qed.
  Lemma release_in a b h : NoDup (map fst h) -> (In b (map fst (release a h)) <-> In b (map fst h) /\ b <> a).
  Proof.
    induction h as [|[c x] h IH]; cbn [map fst In release]; intros ND; [tauto|]. inversion ND as [|? ? NI ND']; subst.
    destruct (N.eqb_spec a c) as [->|ne].
    - split; [intros I; split; [auto|intros ->; contradiction] | intros [[E|I] ne]; [congruence|exact I]].
    - cbn [map fst In]. rewrite (IH ND'). intuition congruence.
  Qed.
  Lemma release_nodup a h : NoDup (map fst h) -> NoDup (map fst (release a h)).
  Proof.
    induction h as [|[c x] h IH]; cbn [map fst release]; intros ND; [constructor|]. inversion ND as [|? ? NI ND']; subst.
    destruct (N.eqb_spec a c); [exact ND'|]. cbn [map fst]. constructor; [|apply IH, ND'].
    rewrite release_in by exact ND'. tauto.
  Qed.
  Lemma block_release a b h : b <> a -> block b (release a h) = block b h.
  Proof.
    intros ne. induction h as [|[c x] h IH]; [reflexivity|]. cbn [release block]. destruct (N.eqb_spec a c) as [->|ne'].
    - destruct (N.eqb_spec b c); [contradiction|reflexivity].
    - cbn [block]. rewrite IH. reflexivity.
  Qed.
End Blocks.

Lemma without_in gone l a : In a (without gone l) <-> In a l /\ ~ In a gone.
Proof.
  unfold without. rewrite filter_In. split; intros [I H]; (split; [exact I|]).
  - intros G. apply negb_true_iff in H. assert (existsb (N.eqb a) gone = true) as E; [|congruence].
    apply existsb_exists. exists a. split; [exact G | apply N.eqb_refl].
  - apply negb_true_iff. destruct (existsb (N.eqb a) gone) eqn:E; [|reflexivity]. exfalso. apply H.
    apply existsb_exists in E. destruct E as (b & Ib & Eb). apply N.eqb_eq in Eb. subst. exact Ib.
Qed.
Lemma without_nodup gone l : NoDup l -> NoDup (without gone l).
Proof. apply NoDup_filter. Qed.

Section Handles.
  Context {instr ccy mkt fixt pf gen rep text tol thread : Type}.
  Notation handle := (@handle instr ccy mkt fixt pf gen rep).
  Notation world := (@world instr ccy mkt fixt pf gen rep thread).
  Notation call := (@call text tol).
  Notation inner := (@inner instr ccy mkt fixt pf gen rep thread).
  Variable F : @facade instr ccy mkt fixt pf gen rep text tol thread.
  Variable fresh : list addr -> addr.
  Hypothesis Fresh : allocates fresh.

  (** ** Functions that only look *)

  Definition same_heap (w w' : world) : Prop := w_handles w' = w_handles w /\ w_strings w' = w_strings w.
  (** Defined wherever the handles [need] are there, and the heap stays as it is. *)
  Definition looks {A} (need : list addr) (m : inner A) : Prop :=
    forall w, incl need (map fst (w_handles w)) -> exists r w', m w = Defined (r, w') /\ same_heap w w'.

  Lemma looks_now {A} (r : res A) need : looks need (now r).
  Proof. intros w _. exists r, w. repeat split. Qed.
  Lemma looks_bind {A B} n1 n2 (m : inner A) (f : A -> inner B) : looks n1 m -> (forall a, looks n2 (f a)) ->
    looks (n1 ++ n2) (and_then m f).
  Proof.
    intros Hm Hf w I. unfold and_then. destruct (Hm w) as (r & w1 & E & H1 & H2); [intros a Ia; apply I, in_or_app; auto|].
    rewrite E. destruct r as [a|e|e]; [|do 2 eexists; repeat split; eassumption..].
    destruct (Hf a w1) as (r & w2 & E2 & H3 & H4); [rewrite H1; intros b Ib; apply I, in_or_app; auto|].
    exists r, w2. split; [exact E2|]. split; congruence.
  Qed.
  Lemma looks_more {A} n1 n2 (m : inner A) : incl n1 n2 -> looks n1 m -> looks n2 m.
  Proof. intros I H w I2. apply H. intros a Ia. apply I2, I, Ia. Qed.
  Lemma looks_at {A} a (f : handle -> res A) : looks [a] (look_at a f).
  Proof.
    intros w I. unfold look_at. destruct (proj1 (block_in a (w_handles w)) (I a (or_introl eq_refl))) as (h & ->).
    do 2 eexists. repeat split.
  Qed.
  Lemma looks_at_all {A} l (f : handle -> res A) : looks l (look_at_all l f).
  Proof.
    induction l as [|a l IH]; cbn [look_at_all]; [apply looks_now|].
    apply (looks_bind [a] l); [apply looks_at|]. intros x.
    apply (looks_more (l ++ [])); [rewrite app_nil_r; apply incl_refl|].
    apply looks_bind; [exact IH|]. intros xs. apply looks_now.
  Qed.
  Lemma looks_thread {A B} (f : thread -> res A * thread) (g : res A -> res B) :
    looks [] (fun w => match on_thread f w with Undefined what => Undefined what | Defined (r, w') => Defined (g r, w') end).
  Proof. intros w _. unfold on_thread. destruct (f (w_thread w)) as [r t]. do 2 eexists. repeat split. Qed.
  Lemma looks_open s : looks [] (open_source F s).
  Proof. destruct s; apply looks_now. Qed.
  Lemma looks_from_json {A} s (rd : text -> thread -> res A * thread) (mk : A -> handle) : looks [] (from_json F s rd mk).
  Proof. apply (looks_bind [] []); [apply looks_open|]. intros t. apply looks_thread. Qed.

  (** ** One call *)

  (** What the client owns is what is there. *)
  Record tallies (w : world) (l : ledger) : Prop := {
    ta_handles : forall a, In a (l_handles l) <-> In a (map fst (w_handles w));
    ta_strings : forall a, In a (l_strings l) <-> In a (map fst (w_strings w));
    ta_once : NoDup (map fst (w_handles w)) /\ NoDup (map fst (w_strings w)) /\ NoDup (l_handles l) /\ NoDup (l_strings l) }.

  (** The call is defined, the tally stays right, handles that are not freed keep what they hold and a handle that is
      given out is not one of those. *)
  Definition settles (c : call) (w : world) (l : ledger) : Prop :=
    exists a w', run fresh F c w = Defined (a, w') /\ tallies w' (settle l c a) /\
      (forall h, In h (l_handles l) -> ~ In h (freed c) -> block h (w_handles w') = block h (w_handles w)) /\
      (forall s, In s (l_strings l) -> ~ In s (strings_freed c) -> block s (w_strings w') = block s (w_strings w)) /\
      match a with
      | AHandle h => ~ In h (without (freed c) (l_handles l))
      | AString s => ~ In s (l_strings l)
      | _ => True
      end.

  Lemma without_nil l : without [] l = l.
  Proof. unfold without. induction l as [|a l IH]; [reflexivity|]. cbn. f_equal. exact IH. Qed.

  Lemma new_handle (w : world) : ~ In (fresh (in_use w)) (map fst (w_handles w)).
  Proof. intros I. apply (Fresh (in_use w)). apply in_or_app. auto. Qed.
  Lemma new_string (w : world) : ~ In (fresh (in_use w)) (map fst (w_strings w)).
  Proof. intros I. apply (Fresh (in_use w)). apply in_or_app. auto. Qed.

  Lemma tallies_handle w l h t : tallies w l -> let a := fresh (in_use w) in
    tallies (mkWorld ((a, h) :: w_handles w) (w_strings w) t) (mkLedger (a :: l_handles l) (l_strings l)).
  Proof.
    intros [Th Ts (N1 & N2 & N3 & N4)] a. split; cbn [w_handles w_strings l_handles l_strings map fst In].
    - intros b. rewrite Th. tauto.
    - exact Ts.
    - repeat split; try assumption; constructor; try assumption; [apply new_handle | rewrite Th; apply new_handle].
  Qed.
  Lemma tallies_string w l s t : tallies w l -> let a := fresh (in_use w) in
    tallies (mkWorld (w_handles w) ((a, s) :: w_strings w) t) (mkLedger (l_handles l) (a :: l_strings l)).
  Proof.
    intros [Th Ts (N1 & N2 & N3 & N4)] a. split; cbn [w_handles w_strings l_handles l_strings map fst In].
    - exact Th.
    - intros b. rewrite Ts. tauto.
    - repeat split; try assumption; constructor; try assumption; [apply new_string | rewrite Ts; apply new_string].
  Qed.
  Lemma tallies_same w w' l : same_heap w w' -> tallies w l -> tallies w' l.
  Proof. intros [E1 E2] [A B C]. split; rewrite ?E1, ?E2; assumption. Qed.
  Lemma tallies_release w l a t : tallies w l ->
    tallies (mkWorld (release a (w_handles w)) (w_strings w) t) (mkLedger (without [a] (l_handles l)) (l_strings l)).
  Proof.
    intros [Th Ts (N1 & N2 & N3 & N4)]. split; cbn [w_handles w_strings l_handles l_strings].
    - intros b. rewrite without_in, release_in, Th by exact N1. cbn [In]. intuition congruence.
    - exact Ts.
    - repeat split; try assumption; [apply release_nodup, N1 | apply without_nodup, N3].
  Qed.

  (** A function that only looks and returns a handle. *)
  Lemma settles_looking c w l (m : inner handle) need : tallies w l -> incl need (l_handles l) -> looks need m ->
    freed c = [] -> strings_freed c = [] -> run fresh F c w = return_handle fresh m w -> settles c w l.
  Proof.
    intros Ta I L Fr Sf E. destruct (L w) as (r & w1 & Em & S).
    { intros a Ia. apply (ta_handles _ _ Ta), I, Ia. }
    unfold settles. rewrite E. unfold return_handle. rewrite Em. unfold from_handle.
    pose proof (tallies_same _ _ _ S Ta) as Ta1.
    do 2 eexists. split; [reflexivity|]. unfold settle. rewrite ?Fr, ?Sf, ?without_nil. cbn [app]. split; [apply tallies_handle, Ta1|].
    destruct S as [S1 S2]. cbn [w_handles w_strings]. split; [|split].
    - intros h Ih _. cbn [block]. rewrite S1. destruct (N.eqb_spec h (fresh (in_use w1))) as [Eh|_]; [|reflexivity].
      exfalso. apply (new_handle w1). rewrite <- Eh. apply (ta_handles _ _ Ta1), Ih.
    - intros s _ _. rewrite S2. reflexivity.
    - intros Ih. apply (new_handle w1). apply (ta_handles _ _ Ta1), Ih.
  Qed.

  (** One that returns a string. *)
  Lemma settles_string c w l w1 r o : tallies w l -> same_heap w w1 -> freed c = [] -> strings_freed c = [] ->
    run fresh F c w = Defined (return_string fresh r o w1) -> settles c w l.
  Proof.
    intros Ta S Fr Sf E. unfold settles. rewrite E. unfold return_string.
    pose proof (tallies_same _ _ _ S Ta) as Ta1.
    do 2 eexists. split; [reflexivity|]. unfold settle. rewrite ?Fr, ?Sf, ?without_nil. cbn [app]. split; [apply tallies_string, Ta1|].
    destruct S as [S1 S2]. cbn [w_handles w_strings]. split; [|split].
    - intros h _ _. rewrite S1. reflexivity.
    - intros s Is _. cbn [block]. rewrite S2. destruct (N.eqb_spec s (fresh (in_use w1))) as [Eh|_]; [|reflexivity].
      exfalso. apply (new_string w1). rewrite <- Eh. apply (ta_strings _ _ Ta1), Is.
    - intros Is. apply (new_string w1). apply (ta_strings _ _ Ta1), Is.
  Qed.

  Lemma owned_block w l a : tallies w l -> In a (l_handles l) -> exists h, block a (w_handles w) = Some h.
  Proof. intros Ta I. apply block_in, (ta_handles _ _ Ta), I. Qed.

  Lemma settles_compare w l a b t : tallies w l -> allowed l (@AssertApproxEqReports text tol a b t) -> settles (AssertApproxEqReports a b t) w l.
  Proof.
    intros Ta (G & _ & ND). cbn [given required map fst freed] in G, ND.
    assert (ne : b <> a). { intros ->. inversion ND as [|? ? NI _]; subst. apply NI. left. reflexivity. }
    destruct (owned_block w l a Ta (G a (or_introl eq_refl))) as (ha & Ba).
    destruct (owned_block w l b Ta (G b (or_intror (or_introl eq_refl)))) as (hb & Bb).
    unfold settles. cbn [run]. unfold return_handle, take_reports. rewrite Ba. cbn [w_handles].
    rewrite (block_release a b _ ne), Bb. unfold from_handle.
    pose proof (tallies_release w l a (w_thread w) Ta) as Ta1.
    pose proof (tallies_release _ _ b (w_thread w) Ta1) as Ta2. cbn [w_handles w_strings l_handles l_strings] in Ta2.
    do 2 eexists. split; [reflexivity|]. unfold settle. cbn [freed strings_freed app]. rewrite without_nil.
    assert (W : forall x, In x (without [b] (without [a] (l_handles l))) <-> In x (without [a; b] (l_handles l))).
    { intros x. rewrite !without_in. cbn [In]. intuition congruence. }
    split; [|split; [|split]].
    - match goal with |- tallies (mkWorld ((_, ?h) :: _) _ _) _ => pose proof (tallies_handle _ _ h (w_thread w) Ta2) as [Th Ts (N1 & N2 & N3 & N4)] end.
      cbn [w_handles w_strings l_handles l_strings] in *. split; [| exact Ts |].
      + intros x. cbn [In map fst l_handles w_handles app]. rewrite <- W. exact (Th x).
      + cbn [l_handles l_strings w_handles w_strings app] in *. repeat split; [exact N1 | exact N2 | | exact N4].
        inversion N3 as [|? ? NI N3']; subst. constructor; [rewrite <- W; exact NI|]. apply without_nodup, (ta_once _ _ Ta).
    - intros h Ih Nh. cbn [w_handles block]. cbn [freed In] in Nh.
      match goal with |- context [fresh ?u] => set (new := fresh u) in * end.
      destruct (N.eqb_spec h new) as [Eh|_].
      + exfalso. apply (new_handle (mkWorld (release b (release a (w_handles w))) (w_strings w) (w_thread w))). refine (eq_ind _ (fun x => In x _) _ _ Eh).
        apply (ta_handles _ _ Ta2). cbn [l_handles]. apply W, without_in. split; [exact Ih|exact Nh].
      + rewrite !block_release by intuition. reflexivity.
    - intros s _ _. reflexivity.
    - intros Ih. apply (new_handle (mkWorld (release b (release a (w_handles w))) (w_strings w) (w_thread w))).
      apply (ta_handles _ _ Ta2). apply W, Ih.
  Qed.

  Lemma settles_all c w l : tallies w l -> allowed l c -> settles c w l.
  Proof.
    intros Ta Al. destruct c as [s dc cs di is|s|s|s|s|s|s|a|p i f m gs|a b t|a|a|a|a|a].
    - eapply (settles_looking _ w l _ (given (InstrumentFromJson s dc cs di is)) Ta (proj1 Al)); [|reflexivity..].
      cbn [given required]. rewrite map_app, !map_map. cbn [fst]. rewrite !map_id.
      apply (looks_bind [] (cs ++ is)); [apply looks_open|]. intros t0.
      apply looks_bind; [apply looks_at_all|]. intros xs.
      apply (looks_more (is ++ [])); [rewrite app_nil_r; apply incl_refl|].
      apply looks_bind; [apply looks_at_all|]. intros ys. apply looks_thread.
    - eapply (settles_looking _ w l _ [] Ta (incl_nil_l _)); [|reflexivity..]; apply looks_from_json.
    - eapply (settles_looking _ w l _ [] Ta (incl_nil_l _)); [|reflexivity..]; apply looks_from_json.
    - eapply (settles_looking _ w l _ [] Ta (incl_nil_l _)); [|reflexivity..]; apply looks_from_json.
    - eapply (settles_looking _ w l _ [] Ta (incl_nil_l _)); [|reflexivity..]; apply looks_from_json.
    - eapply (settles_looking _ w l _ [] Ta (incl_nil_l _)); [|reflexivity..]; apply looks_from_json.
    - eapply (settles_looking _ w l _ [] Ta (incl_nil_l _)); [|reflexivity..]; apply looks_from_json.
    - destruct (owned_block w l a Ta (proj1 Al a (or_introl eq_refl))) as (h & B).
      destruct (reports_as_string F h w) as [r w1] eqn:E.
      apply (settles_string _ w l w1 r "Caught panic when converting result string" Ta); [|reflexivity..|].
      + unfold reports_as_string in E. destruct h; try (injection E as <- <-; split; reflexivity).
        destruct (fc_write F rs (w_thread w)) as [r' t]. injection E as <- <-. split; reflexivity.
      + cbn [run]. rewrite B, E. reflexivity.
    - eapply (settles_looking _ w l _ (given (Calculate p i f m gs)) Ta (proj1 Al)); [|reflexivity..].
      cbn [given required app map fst]. rewrite map_map. cbn [fst]. rewrite map_id.
      apply (looks_bind [p] (i :: f :: m :: gs)); [apply looks_at|]. intros x1.
      apply (looks_bind [i] (f :: m :: gs)); [apply looks_at|]. intros x2.
      apply (looks_bind [f] (m :: gs)); [apply looks_at|]. intros x3.
      apply (looks_bind [m] gs); [apply looks_at|]. intros x4.
      apply (looks_more (gs ++ [])); [rewrite app_nil_r; apply incl_refl|].
      apply looks_bind; [apply looks_at_all|]. intros ys. apply looks_thread.
    - apply settles_compare; assumption.
    - destruct (owned_block w l a Ta (proj1 Al a (or_introl eq_refl))) as (h & B).
      unfold settles. cbn [run]. rewrite B. do 2 eexists. split; [reflexivity|].
      unfold settle. cbn [freed strings_freed app]. rewrite !without_nil. split; [destruct l; exact Ta|]. repeat split.
    - destruct (owned_block w l a Ta (proj1 Al a (or_introl eq_refl))) as (h & B).
      apply (settles_string _ w l w (Ok (as_error h)) "Caught panic when converting error string" Ta); [split; reflexivity|reflexivity..|].
      cbn [run]. rewrite B. reflexivity.
    - destruct Al as (_ & Is & _). pose proof (Is a (or_introl eq_refl)) as Ia.
      destruct (proj1 (block_in a (w_strings w)) (proj1 (ta_strings _ _ Ta a) Ia)) as (x & B).
      unfold settles. cbn [run]. rewrite B. do 2 eexists. split; [reflexivity|].
      unfold settle. cbn [freed strings_freed app]. rewrite without_nil. destruct Ta as [Th Ts (N1 & N2 & N3 & N4)].
      split; [|split; [|split; [|exact I]]].
      + split; cbn [w_handles w_strings l_handles l_strings].
        * exact Th.
        * intros b. rewrite without_in, release_in, Ts by exact N2. cbn [In]. intuition congruence.
        * repeat split; try assumption; [apply release_nodup, N2 | apply without_nodup, N4].
      + intros h _ _. reflexivity.
      + intros s Ib Nb. cbn [w_strings]. apply block_release. cbn [In] in Nb. intuition.
    - destruct (owned_block w l a Ta (proj1 Al a (or_introl eq_refl))) as (h & B).
      apply (settles_looking _ w l (now (Ok (clone h))) [] Ta (incl_nil_l _) (looks_now _ _)); [reflexivity..|].
      cbn [run]. rewrite B. reflexivity.
    - destruct (owned_block w l a Ta (proj1 Al a (or_introl eq_refl))) as (h & B).
      unfold settles. cbn [run]. rewrite B. do 2 eexists. split; [reflexivity|].
      unfold settle. cbn [freed strings_freed app]. rewrite without_nil. split; [apply tallies_release, Ta|].
      split; [|split; [|exact I]].
      + intros b Ib Nb. cbn [w_handles]. apply block_release. cbn [In] in Nb. intuition.
      + intros s _ _. reflexivity.
  Qed.

  (** ** Histories *)

  Lemma history_tallies w l : history F fresh w l -> tallies w l.
  Proof.
    induction 1 as [t|w l c a w' t H IH Al R].
    - split; cbn; try tauto. repeat split; constructor.
    - destruct (settles_all c w l IH Al) as (a' & w2 & R' & Ta & _). rewrite R in R'. injection R' as <- <-.
      apply (tallies_same w'); [split; reflexivity | exact Ta].
  Qed.

  Lemma history_defined w l c : history F fresh w l -> allowed l c -> exists a w', run fresh F c w = Defined (a, w').
  Proof.
    intros H Al. destruct (settles_all c w l (history_tallies w l H) Al) as (a & w' & R & _). eauto.
  Qed.
  Lemma history_owned w l : history F fresh w l ->
    NoDup (l_handles l) /\ (forall a, In a (l_handles l) <-> exists h, holds w a h) /\
    NoDup (l_strings l) /\ (forall a, In a (l_strings l) <-> exists s, block a (w_strings w) = Some s).
  Proof.
    intros H. destruct (history_tallies w l H) as [Th Ts (N1 & N2 & N3 & N4)].
    repeat split; try assumption; intros I; try (apply block_in, Th, I); try (apply block_in, Ts, I);
      [apply Th, block_in, I | apply Ts, block_in, I].
  Qed.
  Lemma history_empty w s : history F fresh w (mkLedger [] s) -> w_handles w = [].
  Proof.
    intros H. destruct (history_tallies _ _ H) as [Th _ _]. destruct (w_handles w) as [|[a h] l] eqn:E; [reflexivity|].
    exfalso. apply (Th a). cbn. auto.
  Qed.
  Lemma history_frame w l c a w' : history F fresh w l -> allowed l c -> run fresh F c w = Defined (a, w') ->
    (forall h x, In h (l_handles l) -> ~ In h (freed c) -> (holds w' h x <-> holds w h x)) /\
    (forall h, a = AHandle h -> ~ In h (without (freed c) (l_handles l))).
  Proof.
    intros H Al R. destruct (settles_all c w l (history_tallies w l H) Al) as (a' & w2 & R' & _ & K & _ & Nw).
    rewrite R in R'. injection R' as <- <-. split.
    - intros h x I Nf. unfold holds. rewrite (K h I Nf). tauto.
    - intros h ->. exact Nw.
  Qed.

  (** ** Wrong handles *)

  Definition is_ofb (k : kind) (h : handle) : bool :=
    match k, h with
    | KInstrument, HInstrument _ | KCurrency, HCurrency _ | KMarketData, HMarketData _ | KFixingTable, HFixingTable _
    | KPricerFactory, HPricerFactory _ | KReportGenerator, HReportGenerator _ | KReports, HReports _ => true
    | _, _ => false
    end.
  Lemma is_of_spec k h : is_of k h <-> is_ofb k h = true.
  Proof. destruct k, h; cbn; intuition discriminate. Qed.

  Fixpoint fault (w : world) (l : list (addr * kind)) : option string :=
    match l with
    | [] => None
    | (a, k) :: l' =>
        match block a (w_handles w) with
        | Some h => if is_ofb k h then fault w l' else Some (complaint k h)
        | None => fault w l'
        end
    end.
  Lemma fault_app w l l' : fault w (l ++ l') = match fault w l with Some e => Some e | None => fault w l' end.
  Proof.
    induction l as [|[a k] l IH]; [reflexivity|]. cbn [app fault]. destruct (block a (w_handles w)); [|exact IH].
    destruct (is_ofb k h); [exact IH|reflexivity].
  Qed.
  Lemma fault_first w before a k after h : (forall b k', In (b, k') before -> exists h', holds w b h' /\ is_of k' h') ->
    holds w a h -> ~ is_of k h -> fault w (before ++ (a, k) :: after) = Some (complaint k h).
  Proof.
    intros B H N. rewrite fault_app.
    assert (E : fault w before = None).
    { induction before as [|[b k'] before IH]; [reflexivity|]. cbn [fault].
      destruct (B b k' (or_introl eq_refl)) as (h' & Hh & Ih). rewrite Hh. apply is_of_spec in Ih. rewrite Ih.
      apply IH. intros b0 k0 I0. apply B. right. exact I0. }
    rewrite E. cbn [fault]. rewrite H. destruct (is_ofb k h) eqn:E'; [|reflexivity]. exfalso. apply N, is_of_spec, E'.
  Qed.
  Lemma fault_some w l a k h : In (a, k) l -> holds w a h -> ~ is_of k h -> exists e, fault w l = Some e.
  Proof.
    intros I H N. induction l as [|[b k'] l IH]; [destruct I|]. cbn [fault]. destruct I as [E|I].
    - injection E as -> ->. rewrite H. destruct (is_ofb k h) eqn:E'; [exfalso; apply N, is_of_spec, E'|eauto].
    - destruct (block b (w_handles w)); [|exact (IH I)]. destruct (is_ofb k' h0); [exact (IH I)|eauto].
  Qed.

  (** [f] is the accessor for handles of kind [k]. *)
  Definition accessor {A} (k : kind) (f : handle -> res A) : Prop :=
    forall h, if is_ofb k h then exists x, f h = Ok x else f h = Err (complaint k h).
  Ltac access := intros h; destruct h; cbn; eauto.
  Lemma acc_instrument : accessor KInstrument as_instrument. Proof. access. Qed.
  Lemma acc_currency : accessor KCurrency as_currency. Proof. access. Qed.
  Lemma acc_market : accessor KMarketData as_market_data. Proof. access. Qed.
  Lemma acc_fixing : accessor KFixingTable as_fixing_table. Proof. access. Qed.
  Lemma acc_pricer : accessor KPricerFactory as_pricer_factory. Proof. access. Qed.
  Lemma acc_generator : accessor KReportGenerator as_report_generator. Proof. access. Qed.
  Lemma acc_reports : accessor KReports as_reports. Proof. access. Qed.

  (** Looking through the required handles [l] and then doing [m]. *)
  Definition screens {A} (w : world) (l : list (addr * kind)) (m : inner A) : Prop :=
    forall e, fault w l = Some e -> m w = Defined (Err e, w).

  Lemma screens_at {A B} w a k l (f : handle -> res A) (g : A -> inner B) : accessor k f -> In a (map fst (w_handles w)) ->
    (forall x, screens w l (g x)) -> screens w ((a, k) :: l) (and_then (look_at a f) g).
  Proof.
    intros Ac I G e E. cbn [fault] in E. unfold and_then, look_at. apply block_in in I. destruct I as (h & Bl). rewrite Bl in *.
    specialize (Ac h). destruct (is_ofb k h).
    - destruct Ac as (x & ->). apply (G x), E.
    - injection E as <-. rewrite Ac. reflexivity.
  Qed.
  Lemma look_all {A} w k l (f : handle -> res A) : accessor k f -> incl l (map fst (w_handles w)) ->
    match fault w (map (fun a => (a, k)) l) with
    | Some e => look_at_all l f w = Defined (Err e, w)
    | None => exists xs, look_at_all l f w = Defined (Ok xs, w)
    end.
  Proof.
    intros Ac. induction l as [|a l IH]; intros I; cbn [map fault look_at_all]; [exists []; reflexivity|].
    destruct (proj1 (block_in a (w_handles w)) (I a (or_introl eq_refl))) as (h & B). unfold and_then at 1, look_at. rewrite B.
    pose proof (Ac h) as Ah. destruct (is_ofb k h).
    - destruct Ah as (x & Fx). rewrite ?Fx. specialize (IH (fun b Ib => I b (or_intror Ib))). cbv beta iota. unfold and_then.
      destruct (fault w (map (fun a => (a, k)) l)) as [e|]; [rewrite IH; reflexivity|].
      destruct IH as (xs & Ex). exists (x :: xs). rewrite ?B, ?Fx, Ex. reflexivity.
    - rewrite Ah. reflexivity.
  Qed.
  Lemma screens_all {A B} w k l l' (f : handle -> res A) (g : list A -> inner B) : accessor k f -> incl l (map fst (w_handles w)) ->
    (forall xs, screens w l' (g xs)) -> screens w (map (fun a => (a, k)) l ++ l') (and_then (look_at_all l f) g).
  Proof.
    intros Ac I G e E. rewrite fault_app in E. pose proof (look_all w k l f Ac I) as L. unfold and_then.
    destruct (fault w (map (fun a => (a, k)) l)) as [e'|].
    - injection E as ->. rewrite L. reflexivity.
    - destruct L as (xs & ->). apply (G xs), E.
  Qed.
  Lemma screens_nil {A} w (m : inner A) : screens w [] m.
  Proof. intros e E. discriminate. Qed.

  Lemma opened_source s dc cs di is : opened F (InstrumentFromJson s dc cs di is) ->
    exists t, forall w : world, open_source F s w = Defined (Ok t, w).
  Proof.
    destruct s as [n|t]; cbn [opened open_source]; [intros (t & ->) | intros _]; exists t; reflexivity.
  Qed.

  Lemma run_fault w l c e : tallies w l -> allowed l c -> opened F c -> fault w (required c) = Some e ->
    exists a w', run fresh F c w = Defined (AHandle a, w') /\ holds w' a (HErr e).
  Proof.
    intros Ta (G & _ & ND) O E.
    assert (I : incl (given c) (map fst (w_handles w))). { intros a Ia. apply (ta_handles _ _ Ta), G, Ia. }
    destruct c as [s dc cs di is|s|s|s|s|s|s|a|p i f m gs|a b t|a|a|a|a|a]; try discriminate E.
    - cbn [run]. unfold return_handle. destruct (opened_source _ _ _ _ _ O) as (t & Os). unfold and_then at 1. rewrite Os.
      cbn [given required] in I. rewrite map_app, !map_map in I. cbn [fst] in I. rewrite !map_id in I.
      match goal with |- context [match ?m w with _ => _ end] => assert (S : screens w (required (@InstrumentFromJson text tol s dc cs di is)) m) end.
      { cbn [required]. apply (screens_all w KCurrency cs _ _ _ acc_currency); [intros b Ib; apply I, in_or_app; auto|]. intros xs.
        rewrite <- (app_nil_r (map _ is)).
        apply (screens_all w KInstrument is [] _ _ acc_instrument); [intros b Ib; apply I, in_or_app; auto|]. intros ys. apply screens_nil. }
      rewrite (S e E). do 2 eexists. split; [reflexivity|]. unfold holds. cbn [w_handles block]. rewrite N.eqb_refl. reflexivity.
    - cbn [run]. unfold return_handle. cbn [given required app map fst] in I. rewrite map_map in I. cbn [fst] in I. rewrite map_id in I.
      match goal with |- context [match ?m0 w with _ => _ end] => assert (S : screens w (required (@Calculate text tol p i f m gs)) m0) end.
      { cbn [required app].
        apply screens_at; [exact acc_pricer | apply I; cbn; auto|]. intros x1.
        apply screens_at; [exact acc_instrument | apply I; cbn; auto|]. intros x2.
        apply screens_at; [exact acc_fixing | apply I; cbn; auto|]. intros x3.
        apply screens_at; [exact acc_market | apply I; cbn; auto|]. intros x4.
        rewrite <- (app_nil_r (map _ gs)).
        apply (screens_all w KReportGenerator gs [] _ _ acc_generator); [intros b Ib; apply I; cbn; auto|]. intros ys. apply screens_nil. }
      rewrite (S e E). do 2 eexists. split; [reflexivity|]. unfold holds. cbn [w_handles block]. rewrite N.eqb_refl. reflexivity.
    - cbn [required fault] in E. cbn [run]. unfold return_handle, take_reports.
      destruct (proj1 (block_in a (w_handles w)) (I a (or_introl eq_refl))) as (ha & Ba).
      destruct (proj1 (block_in b (w_handles w)) (I b (or_intror (or_introl eq_refl)))) as (hb & Bb).
      rewrite Ba in *. rewrite Bb in *. cbn [w_handles].
      assert (ne : b <> a). { intros ->. inversion ND as [|? ? NI _]; subst. apply NI. left. reflexivity. }
      rewrite (block_release a b _ ne), Bb. do 2 eexists. split; [reflexivity|]. unfold holds. cbn [w_handles block]. rewrite N.eqb_refl.
      pose proof (acc_reports ha) as A1. pose proof (acc_reports hb) as A2. f_equal.
      destruct (is_ofb KReports ha); [destruct A1 as (x & ->) | rewrite A1; cbn [bind]; congruence].
      destruct (is_ofb KReports hb); [discriminate | rewrite A2; cbn [bind]; congruence].
  Qed.

  Lemma first_wrong w l c before a k after h : history F fresh w l -> allowed l c -> opened F c ->
    required c = before ++ (a, k) :: after -> (forall b k', In (b, k') before -> exists h', holds w b h' /\ is_of k' h') ->
    holds w a h -> ~ is_of k h ->
    exists r w', run fresh F c w = Defined (AHandle r, w') /\ holds w' r (HErr (complaint k h)).
  Proof.
    intros H Al O R B Hh N. apply (run_fault w l); [apply history_tallies, H | exact Al | exact O|].
    rewrite R. apply fault_first; assumption.
  Qed.

  Lemma any_wrong w l c a k h : history F fresh w l -> allowed l c -> In (a, k) (required c) -> holds w a h -> ~ is_of k h ->
    exists r w' e, run fresh F c w = Defined (AHandle r, w') /\ holds w' r (HErr e).
  Proof.
    intros H Al I Hh N. destruct (fault_some w _ a k h I Hh N) as (e & E).
    assert (O : opened F c \/ exists s dc cs di is, c = InstrumentFromJson s dc cs di is /\
                 ((exists e, forall w : world, open_source F s w = Defined (Err e, w)) \/
                  (exists e, forall w : world, open_source F s w = Defined (Panic e, w)))).
    { destruct c as [s dc cs di is|s|s|s|s|s|s|a'|p i f m gs|a' b t|a'|a'|a'|a'|a']; try (left; exact Logic.I).
      destruct s as [n|t]; [|left; exact Logic.I]. cbn [opened].
      destruct (fc_open F n) as [t|e'|e'] eqn:Eo; [left; exists t; reflexivity|..]; right; do 5 eexists; (split; [reflexivity|]);
        cbn [open_source]; rewrite Eo; [left|right]; exists e'; reflexivity. }
    destruct O as [O|(s & dc & cs & di & is & -> & [(e' & O)|(e' & O)])].
    - destruct (run_fault w l c e (history_tallies w l H) Al O E) as (r & w' & R & Hr). eauto.
    - cbn [run]. unfold return_handle, and_then at 1. rewrite O. do 3 eexists. split; [reflexivity|].
      unfold holds. cbn [w_handles block]. rewrite N.eqb_refl. reflexivity.
    - cbn [run]. unfold return_handle, and_then at 1. rewrite O. do 3 eexists. split; [reflexivity|].
      unfold holds. cbn [w_handles block]. rewrite N.eqb_refl. reflexivity.
  Qed.

  (** ** Right handles *)

  Lemma outcome_handle {A} (make : A -> handle) (r : res A) :
    match from_result make r with Ok h => h | Err e => HErr e | Panic _ => HErr "Caught panic when creating handle" end = outcome make r.
  Proof. destruct r; reflexivity. Qed.

  Lemma look_all_ok {A} (w : world) k l (f : handle -> res A) (make : A -> handle) xs : (forall x, f (make x) = Ok x) ->
    Forall2 (fun a x => holds w a (make x)) l xs -> accessor k f -> look_at_all l f w = Defined (Ok xs, w).
  Proof.
    intros Fm Fa _. induction Fa as [|a x l xs H _ IH]; [reflexivity|]. cbn [look_at_all]. unfold and_then, look_at.
    rewrite H, Fm, IH. reflexivity.
  Qed.

  Lemma calculate_right w p i f m gs pf' i' f' m' gs' :
    holds w p (HPricerFactory pf') -> holds w i (HInstrument i') -> holds w f (HFixingTable f') -> holds w m (HMarketData m') ->
    Forall2 (fun a x => holds w a (HReportGenerator x)) gs gs' ->
    exists r w', run fresh F (Calculate p i f m gs) w = Defined (AHandle r, w') /\
      holds w' r (outcome HReports (fst (fc_calculate F pf' i' f' m' gs' (w_thread w)))).
  Proof.
    intros Hp Hi Hf Hm Hg. cbn [run]. unfold return_handle, and_then, look_at. rewrite Hp, Hi, Hf, Hm. cbn [as_pricer_factory as_instrument as_fixing_table as_market_data].
    rewrite (look_all_ok w KReportGenerator gs _ _ gs' (fun x => eq_refl) Hg acc_generator). unfold on_thread.
    destruct (fc_calculate F pf' i' f' m' gs' (w_thread w)) as [r t]. do 2 eexists. split; [reflexivity|].
    unfold holds. cbn [w_handles block fst]. rewrite N.eqb_refl, outcome_handle. reflexivity.
  Qed.
  Lemma instrument_right w t dc cs di is cs' is' :
    Forall2 (fun a x => holds w a (HCurrency x)) cs cs' -> Forall2 (fun a x => holds w a (HInstrument x)) is is' ->
    exists r w', run fresh F (InstrumentFromJson (Text t) dc cs di is) w = Defined (AHandle r, w') /\
      holds w' r (outcome HInstrument (fst (fc_instrument F t dc cs' di is' (w_thread w)))).
  Proof.
    intros Hc Hi. cbn [run]. unfold return_handle, and_then, open_source, now.
    rewrite (look_all_ok w KCurrency cs _ _ cs' (fun x => eq_refl) Hc acc_currency).
    rewrite (look_all_ok w KInstrument is _ _ is' (fun x => eq_refl) Hi acc_instrument). unfold on_thread.
    destruct (fc_instrument F t dc cs' di is' (w_thread w)) as [r t']. do 2 eexists. split; [reflexivity|].
    unfold holds. cbn [w_handles block fst]. rewrite N.eqb_refl, outcome_handle. reflexivity.
  Qed.
  Lemma compare_right w a b t ra rb : a <> b -> holds w a (HReports ra) -> holds w b (HReports rb) ->
    exists r w', run fresh F (AssertApproxEqReports a b t) w = Defined (AHandle r, w') /\
      holds w' r (outcome (fun _ => HEmpty) (fc_approx_eq F ra rb t)).
  Proof.
    intros ne Ha Hb. cbn [run]. unfold return_handle, take_reports. rewrite Ha. cbn [w_handles].
    rewrite block_release by congruence. rewrite Hb. do 2 eexists. split; [reflexivity|]. unfold holds. cbn [w_handles block as_reports bind].
    rewrite N.eqb_refl, outcome_handle. reflexivity.
  Qed.
  Lemma clone_right w a h : holds w a h -> exists r w', run fresh F (Clone a) w = Defined (AHandle r, w') /\
    match h with HReports _ => exists e, holds w' r (HErr e) | _ => holds w' r h end.
  Proof.
    intros H. cbn [run]. rewrite H. do 2 eexists. split; [reflexivity|]. unfold holds. cbn [w_handles block]. rewrite N.eqb_refl.
    destruct h; try reflexivity. eexists. reflexivity.
  Qed.
  Lemma is_error_right w a h : holds w a h ->
    run fresh F (IsError a) w = Defined (ABool (match h with HErr _ => true | _ => false end), w).
  Proof. intros H. cbn [run]. rewrite H. reflexivity. Qed.

  (** Reading. *)
  Lemma answers_from_json {A} s (rd : text -> thread -> res A * thread) make w :
    exists a w', return_handle fresh (from_json F s rd make) w = Defined (AHandle a, w') /\ holds w' a (outcome make (let* t := source_text F s in fst (rd t (w_thread w)))).
  Proof.
    unfold return_handle, from_json, and_then. assert (O : open_source F s w = Defined (source_text F s, w)) by (destruct s; reflexivity).
    rewrite O. destruct (source_text F s) as [t|e|e]; cbn [bind].
    - unfold on_thread. destruct (rd t (w_thread w)) as [r t']. do 2 eexists. split; [reflexivity|].
      unfold holds. cbn [w_handles block fst]. rewrite N.eqb_refl, outcome_handle. reflexivity.
    - do 2 eexists. split; [reflexivity|]. unfold holds. cbn [w_handles block outcome]. rewrite N.eqb_refl. reflexivity.
    - do 2 eexists. split; [reflexivity|]. unfold holds. cbn [w_handles block outcome]. rewrite N.eqb_refl. reflexivity.
  Qed.
  Lemma read_right w s :
    answers F fresh (CurrencyFromJson s) w (outcome HCurrency (let* t := source_text F s in fst (fc_currency F t (w_thread w)))) /\
    answers F fresh (PricerFactoryFromJson s) w (outcome HPricerFactory (let* t := source_text F s in fst (fc_pricer_factory F t (w_thread w)))) /\
    answers F fresh (FixingTableFromJson s) w (outcome HFixingTable (let* t := source_text F s in fst (fc_fixing_table F t (w_thread w)))) /\
    answers F fresh (MarketDataFromJson s) w (outcome HMarketData (let* t := source_text F s in fst (fc_market_data F t (w_thread w)))) /\
    answers F fresh (ReportGeneratorFromJson s) w (outcome HReportGenerator (let* t := source_text F s in fst (fc_report_generator F t (w_thread w)))) /\
    answers F fresh (ReportsFromJson s) w (outcome HReports (let* t := source_text F s in fst (fc_reports F t (w_thread w)))).
  Proof. repeat split; apply answers_from_json. Qed.

  (** Strings. *)
  Lemma error_string_right w a h : holds w a h ->
    answers_text F fresh (ErrorString a) w
      (let s := match h with HErr e => e | _ => ("Wrong handle type: Error required but " ++ handle_name h ++ " supplied")%string end in
       if has_nul s then "Caught panic when converting error string" else s).
  Proof.
    intros H. unfold answers_text. cbn [run]. rewrite H. do 2 eexists. split; [reflexivity|]. cbn [w_strings block]. rewrite N.eqb_refl.
    destruct h; reflexivity.
  Qed.
  Lemma reports_string_right w a h : holds w a h ->
    answers_text F fresh (ReportsAsJsonString a) w
      (match (match h with
              | HReports rs => fst (fc_write F rs (w_thread w))
              | HErr e => Ok e
              | _ => Ok "reports_as_string: not a report handle"
              end) with
       | Ok s => if has_nul s then "Caught panic when converting result string" else s
       | _ => "Caught panic when converting result string"
       end).
  Proof.
    intros H. unfold answers_text. cbn [run]. rewrite H. unfold reports_as_string.
    destruct h; try (do 2 eexists; split; [reflexivity|]; cbn [w_strings block]; rewrite N.eqb_refl; reflexivity).
    destruct (fc_write F rs (w_thread w)) as [[s|e|e] t]; cbn [fst]; do 2 eexists; (split; [reflexivity|]); cbn [w_strings block];
      rewrite N.eqb_refl; reflexivity.
  Qed.

  (** ** Misuse *)
  Lemma misuse w l c a : history F fresh w l -> ~ In a (l_handles l) ->
    In c [ReportsAsJsonString a; IsError a; ErrorString a; Clone a; FreeHandle a] ->
    exists what, run fresh F c w = Undefined what.
  Proof.
    intros H N I. assert (B : block a (w_handles w) = None).
    { destruct (block a (w_handles w)) eqn:E; [|reflexivity]. exfalso. apply N, (ta_handles _ _ (history_tallies w l H)), block_in. eauto. }
    cbn [In] in I. repeat (destruct I as [<-|I]; [cbn [run]; rewrite B; eauto|]). contradiction.
  Qed.
  Lemma same_twice w l a t : history F fresh w l -> In a (l_handles l) ->
    exists what, run fresh F (AssertApproxEqReports a a t) w = Undefined what.
  Proof.
    intros H I. pose proof (history_tallies w l H) as Ta. destruct (owned_block w l a Ta I) as (h & B).
    cbn [run]. unfold return_handle, take_reports. rewrite B. cbn [w_handles].
    assert (E : block a (release a (w_handles w)) = None).
    { destruct (block a (release a (w_handles w))) eqn:E; [|reflexivity]. exfalso.
      assert (In a (map fst (release a (w_handles w)))) as Ia by (apply block_in; eauto).
      apply release_in in Ia; [tauto | apply (ta_once _ _ Ta)]. }
    rewrite E. eauto.
  Qed.
End Handles.

Lemma nul_is (s : string) : has_nul s = true <-> exists n, String.get n s = Some Ascii.zero.
Proof.
  induction s as [|c s IH]; cbn [has_nul].
  - split; [discriminate|]. intros ([] & E); discriminate.
  - rewrite orb_true_iff, IH. split.
    + intros [E|(n & E)]; [exists 0%nat; apply Ascii.eqb_eq in E; now rewrite E|now exists (S n)].
    + intros ([|n] & E); [left; injection E as ->; now apply Ascii.eqb_eq|right; now exists n].
Qed.
