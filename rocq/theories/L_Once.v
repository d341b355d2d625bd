(** Proofs: with [WriteOnce] each shared object is written in full once, where it is first met. *)
From Coq Require Import ZArith List String Bool Lia.
From Verif Require Import Prelude Num M_Dates M_Schema M_Serde S_Serde L_Fixings L_Serde.
Import ListNotations.
Open Scope string_scope.
Open Scope list_scope.

Section Once.
  Variable k : shared.

  (** [full_once] one mention at a time. *)
  Fixpoint once (known : string -> Prop) (ms : list mention) : Prop :=
    match ms with
    | [] => True
    | m :: ms' =>
        (mt_kind m = k -> (mt_full m = true <-> ~ known (mt_id m))) /\
        once (fun id => known id \/ (mt_kind m = k /\ mt_id m = id)) ms'
    end.

  Definition among (ms : list mention) (id : string) : Prop := exists m, In m ms /\ mt_kind m = k /\ mt_id m = id.

  Lemma once_ext ms : forall (K K' : string -> Prop), (forall id, K id <-> K' id) -> once K ms -> once K' ms.
  Proof.
    induction ms as [|m ms IH]; cbn [once]; intros K K' E; [auto|]. intros [H1 H2]. split.
    - intros Hk. rewrite <- E. apply H1, Hk.
    - revert H2. apply IH. intros id. rewrite E. tauto.
  Qed.

  Lemma once_app l1 l2 : forall (K : string -> Prop), once K l1 -> once (fun id => K id \/ among l1 id) l2 -> once K (l1 ++ l2).
  Proof.
    induction l1 as [|m l1 IH]; cbn [once app]; intros K H1 H2.
    - revert H2. apply once_ext. intros id. split; [|tauto]. intros [H|(m & [] & _)]; exact H.
    - destruct H1 as [H0 H1]. split; [exact H0|]. apply IH; [exact H1|]. revert H2. apply once_ext. intros id.
      unfold among. cbn [In]. split.
      + intros [H|(m' & [<-|I] & A & B)]; [tauto | tauto|]. right. exists m'. auto.
      + intros [[H|[A B]]|(m' & I & A & B)]; [tauto | |]; right; [exists m | exists m']; auto.
  Qed.

  Lemma once_full ms : forall K, once K ms -> full_once k K ms.
  Proof.
    induction ms as [|m ms IH]; intros K H before m' after E Hk; [destruct before; discriminate|].
    destruct H as [H1 H2]. destruct before as [|b before]; cbn [app] in E; injection E as -> ->.
    - rewrite (H1 Hk). split; [intros H; split; [exact H|]; intros (x & [] & _) | tauto].
    - rewrite (IH _ H2 before m' after eq_refl Hk). cbn [In]. split.
      + intros [A B]. split; [tauto|]. intros (x & [<-|I] & C & D); [apply A; right; auto|].
        apply B. exists x. auto.
      + intros [A B]. split.
        * intros [C|[C D]]; [tauto|]. apply B. exists b. auto.
        * intros (x & I & C & D). apply B. exists x. auto.
  Qed.

  Lemma among_app l1 l2 id : among (l1 ++ l2) id <-> among l1 id \/ among l2 id.
  Proof.
    unfold among. split.
    - intros (m & I & A). apply in_app_or in I. destruct I; [left | right]; exists m; auto.
    - intros [(m & I & A)|(m & I & A)]; exists m; (split; [apply in_or_app; auto | exact A]).
  Qed.
  Lemma among_cons m ms id : among (m :: ms) id <-> (mt_kind m = k /\ mt_id m = id) \/ among ms id.
  Proof.
    unfold among. cbn [In]. split.
    - intros (x & [<-|I] & A); [tauto | right; exists x; auto].
    - intros [A|(x & I & A)]; [exists m | exists x]; auto.
  Qed.
  Lemma among_nil id : ~ among [] id.
  Proof. intros (m & [] & _). Qed.

  Context {T : Type} {N : Num T}.
  Variable finite : T -> bool.
  Notation write := (write finite).
  Notation conforms := (conforms finite).

  Definition knows (s : tls T) (id : string) : Prop := get id (dd_map (slot k s)) <> None.

  (** What writing a list of mentions does to the table. *)
  Definition step (s : tls T) (ms : list mention) (s' : tls T) : Prop :=
    once (knows s) ms /\ (forall id, knows s' id <-> knows s id \/ among ms id) /\
    (forall k', dd_control (slot k' s') = dd_control (slot k' s)).

  Lemma step_nil s : step s [] s.
  Proof. split; [exact I|]. split; [|reflexivity]. intros id. split; [tauto|]. intros [H|H]; [exact H | destruct (among_nil id H)]. Qed.

  Lemma step_app s l1 s1 l2 s2 : step s l1 s1 -> step s1 l2 s2 -> step s (l1 ++ l2) s2.
  Proof.
    intros (O1 & K1 & C1) (O2 & K2 & C2). split; [|split].
    - apply once_app; [exact O1|]. revert O2. apply once_ext. exact K1.
    - intros id. rewrite K2, K1, among_app. tauto.
    - intros k'. rewrite C2. apply C1.
  Qed.

  Definition writes_once (v : val T) : Prop := forall t s j s', conforms v t -> dd_control (slot k s) = WriteOnce ->
    write v s = (Ok j, s') -> step s (mentions j t) s'.

  Lemma knows_insert k' v s id : knows (insert_shared k' v s) id <-> knows s id \/ (k' = k /\ id_of v = id).
  Proof.
    unfold knows. rewrite insert_get. destruct (shared_dec k k') as [->|n].
    - destruct (String.eqb_spec id (id_of v)) as [->|ne]; [split; [tauto | discriminate]|]. split; [tauto|].
      intros [H|[_ H]]; [exact H | congruence].
    - split; [tauto|]. intros [H|[H _]]; [exact H | congruence].
  Qed.

  Lemma instrument_struct tag t : get tag instrument_types = Some t -> exists flat fields, t = TStruct flat (("id", TStr) :: fields).
  Proof.
    unfold instrument_types. cbn [get]. intros H.
    repeat match type of H with
           | (if ?b then _ else _) = _ => destruct b; [injection H as <-; unfold ty_currency, vanilla_fields; cbn [app]; eauto|]
           end. discriminate.
  Qed.

  Lemma written_id fields fs s es s' : fields_conform conforms fs (("id", TStr) :: fields) ->
    each (fun e : string * val T => match e with (n, u) => let! j := write u in ret (n, j) end) fs s = (Ok es, s') ->
    exists id fs' es', fs = ("id", VStr id) :: fs' /\ es = ("id", JStr id) :: es'.
  Proof.
    destruct fs as [|[n u] fs]; cbn [fields_conform]; [contradiction|]. intros (-> & C & _) E.
    destruct u; try contradiction. cbn [each] in E. inv_act E. inv_act E. injection E as <- <-.
    apply bind_act_ok in E0. destruct E0 as (j & sj & E0 & E2). cbn [M_Serde.write] in E0. injection E0 as <- <-.
    injection E2 as <- <-. eauto.
  Qed.

  Lemma content_id k' u s es s' : conforms u (content k') -> write u s = (Ok (JObj es), s') -> full_id k' es = id_of u.
  Proof.
    destruct k'; cbn [content]; intros C E.
    - unfold ty_currency in C. destruct u; try contradiction. destruct C as [_ F]. cbn [M_Serde.write] in E. inv_act E.
      injection E as <- <-. destruct (written_id _ _ _ _ _ F E0) as (id & fs' & es' & -> & ->). reflexivity.
    - destruct u as [| | | | | | | | | | |tr o u|]; try contradiction. destruct C as (-> & tag & t & Ho & G & C).
      destruct o as [tag'|]; [|discriminate E]. cbn [M_Serde.write] in E. inv_act E. injection E as <- <-.
      destruct (instrument_struct _ _ G) as (flat & fields & ->).
      destruct u; try contradiction. destruct C as [_ F]. cbn [M_Serde.write] in E0. inv_act E0. injection E0 as <- <-.
      destruct (written_id _ _ _ _ _ F E) as (id & fs' & es' & -> & ->). reflexivity.
  Qed.

  Lemma mentions_shared k' es : mentions (JObj es) (TShared k') = mkMention k' (full_id k' es) true :: mentions (T := T) (JObj es) (content k').
  Proof. destruct k'; reflexivity. Qed.

  Lemma once_shared k' u : writes_once u -> writes_once (VShared k' u).
  Proof.
    intros Hu t s j s' C W E. destruct t; try contradiction. destruct C as [<- C]. cbn [M_Serde.write] in E.
    unfold serialize_with_dedup in E. destruct (dd_control (slot k' s)) eqn:Ck.
    - assert (NK : k' <> k) by congruence.
      destruct (contains _ _); [|discriminate]. injection E as <- <-. cbn [mentions].
      split; [|split; [|reflexivity]].
      + cbn [once mt_kind]. split; [congruence | exact I].
      + intros id. rewrite among_cons. cbn [mt_kind]. split; [tauto|].
        intros [H|[[H _]|H]]; [exact H | congruence | destruct (among_nil id H)].
    - assert (NK : k' <> k) by congruence.
      destruct (content_object finite k' u s j s' C E) as (es & ->).
      destruct (Hu _ _ _ _ C W E) as (O & Kn & Ct). rewrite mentions_shared. split; [|split; [|exact Ct]].
      + cbn [once mt_kind]. split; [congruence|]. revert O. apply once_ext. intros id. split; [tauto|]. intros [H|[H _]]; [exact H | congruence].
      + intros id. rewrite among_cons, Kn. cbn [mt_kind]. split; [tauto|]. intros [H|[[H _]|H]]; [tauto | congruence | tauto].
    - destruct (contains (id_of u) (dd_map (slot k' s))) eqn:Hc; unfold contains in Hc.
      + injection E as <- <-. cbn [mentions]. split; [|split].
        * cbn [once mt_kind mt_full mt_id]. split; [|exact I]. intros ->. unfold knows.
          destruct (get (id_of u) (dd_map (slot k s))); [|discriminate Hc]. split; [discriminate|]. intros H. exfalso. apply H. discriminate.
        * intros id. rewrite knows_insert, among_cons. cbn [mt_kind mt_id]. split; [tauto|].
          intros [H|[H|H]]; [tauto | tauto | destruct (among_nil id H)].
        * intros k''. apply insert_control.
      + destruct (content_object finite k' u _ j s' C E) as (es & ->). rewrite mentions_shared, (content_id k' u _ es s' C E).
        assert (W' : dd_control (slot k (insert_shared k' u s)) = WriteOnce) by (rewrite insert_control; exact W).
        destruct (Hu _ _ _ _ C W' E) as (O & Kn & Ct). split; [|split].
        * cbn [once mt_kind mt_full mt_id]. split.
          -- intros ->. unfold knows. destruct (get (id_of u) (dd_map (slot k s))); [discriminate Hc|].
             split; [intros _ H; apply H; reflexivity | reflexivity].
          -- revert O. apply once_ext. intros id. rewrite knows_insert. tauto.
        * intros id. rewrite Kn, knows_insert, among_cons. cbn [mt_kind mt_id]. tauto.
        * intros k''. rewrite Ct. apply insert_control.
  Qed.

  Lemma step_control s ms s' : step s ms s' -> dd_control (slot k s) = WriteOnce -> dd_control (slot k s') = WriteOnce.
  Proof. intros (_ & _ & C) H. rewrite C. exact H. Qed.

  Lemma once_fields (f : string -> option ty) fs : Forall (fun e => writes_once (snd e)) fs ->
    (forall n u, In (n, u) fs -> exists t, f n = Some t /\ conforms u t) ->
    forall s es s', dd_control (slot k s) = WriteOnce ->
    each (fun e : string * val T => match e with (n, u) => let! j := write u in ret (n, j) end) fs s = (Ok es, s') ->
    step s (flat_map (fun e : string * json T => match e with (n, j) => match f n with Some t => mentions j t | None => [] end end) es) s'.
  Proof.
    induction 1 as [|[n u] fs Hu _ IH]; intros F s es s' W E; cbn [each] in E.
    - injection E as <- <-. apply step_nil.
    - inv_act E. inv_act E. injection E as <- <-. apply write_entry_ok in E0. destruct E0 as (j & -> & E0).
      destruct (F n u (or_introl eq_refl)) as (t & Ft & C). cbn [flat_map]. rewrite Ft.
      pose proof (Hu t s j _ C W E0) as S1. apply (step_app _ _ _ _ _ S1).
      apply IH; [intros n' u' I; apply F; right; exact I | exact (step_control _ _ _ S1 W) | exact E1].
  Qed.

  Lemma once_all v : writes_once v.
  Proof.
    induction v as [s0|x|z|b|d|n|n u IH|fs IH|l IH|l IH|m IH|tr id u IH|k' u IH] using val_induction;
      try (intros t s j s' C W E; destruct t; try contradiction; cbn [M_Serde.write] in E).
    - injection E as <- <-. apply step_nil.
    - injection E as <- <-. replace (mentions _ _) with (@nil mention) by (destruct (finite x); reflexivity). apply step_nil.
    - injection E as <- <-. apply step_nil.
    - injection E as <- <-. apply step_nil.
    - injection E as <- <-. apply step_nil.
    - injection E as <- <-. apply step_nil.
    - injection E as <- <-. apply step_nil.
    - cbn [conforms] in C. destruct C as (t' & G & C). inv_act E. injection E as <- <-. cbn [mentions]. rewrite G.
      exact (IH _ _ _ _ C W E0).
    - cbn [conforms] in C. destruct C as (ND & F). inv_act E. injection E as <- <-. cbn [mentions].
      apply (once_fields (fun n => get n fields) fs IH (fields_get finite fs fields F ND) _ _ _ W E0).
    - cbn [conforms] in C. inv_act E. injection E as <- ->. cbn [mentions].
      revert l0 s a s' C W E0. induction IH as [|u l Hu _ IHl]; intros [|t ts] s a s' C W E0; cbn [tuple_conforms each] in *; try contradiction.
      + injection E0 as <- <-. apply step_nil.
      + destruct C as [C Cs]. inv_act E0. inv_act E0. injection E0 as <- <-. cbn [tuple_mentions].
        pose proof (Hu t s _ _ C W E) as S1. apply (step_app _ _ _ _ _ S1).
        apply (IHl ts _ _ _ Cs (step_control _ _ _ S1 W) E1).
    - cbn [conforms] in C. inv_act E. injection E as <- ->. cbn [mentions].
      revert s a s' C W E0. induction IH as [|u l Hu _ IHl]; intros s a s' C W E0; cbn [every each] in *.
      + injection E0 as <- <-. apply step_nil.
      + destruct C as [C Cs]. inv_act E0. inv_act E0. injection E0 as <- <-. cbn [flat_map].
        pose proof (Hu t s _ _ C W E) as S1. apply (step_app _ _ _ _ _ S1).
        apply (IHl _ _ _ Cs (step_control _ _ _ S1 W) E1).
    - cbn [conforms] in C. destruct C as (ND & F). inv_act E. injection E as <- <-. cbn [mentions].
      apply (once_fields (fun _ => Some t) m IH) with (s := s); [|exact W | exact E0].
      intros n u I. exists t. split; [reflexivity|]. clear -F I. induction m as [|[n' u'] m IHm]; [destruct I|].
      cbn [every] in F. destruct F as [F1 F2]. destruct I as [E|I]; [injection E as -> ->; exact F1 | exact (IHm F2 I)].
    - cbn [conforms] in C. destruct C as (<- & tag & t' & Ho & G & C). destruct id as [tag'|]; [|discriminate].
      assert (tag' = tag) as ->.
      { destruct Ho as [Ho|Ho]; [congruence|]. unfold read_type_id in Ho. destruct tr; try congruence.
        destruct (String.eqb tag _); congruence. }
      inv_act E. injection E as <- <-. cbn [mentions]. rewrite G. exact (IH _ _ _ _ C W E0).
    - exact (once_shared k' u IH (TShared k0) s j s' C W E).
  Qed.

  Lemma written_once t v s j s' : conforms v t -> dd_control (slot k s) = WriteOnce -> write v s = (Ok j, s') ->
    full_once k (fun id => contains id (dd_map (slot k s)) = true) (mentions j t).
  Proof.
    intros C W E. destruct (once_all v t s j s' C W E) as (O & _ & _). apply once_full. revert O. apply once_ext.
    intros id. unfold knows, contains. destruct (get id (dd_map (slot k s))); split; congruence.
  Qed.
End Once.
