(** Proofs: reading arbitrary JSON. *)
From Coq Require Import ZArith List String Bool Lia.
From Verif Require Import Prelude Num M_Dates M_Schema M_Serde S_Serde S_Read L_Dates L_Fixings L_Serde L_Objects.
Import ListNotations.
Open Scope string_scope.
Open Scope list_scope.

Section Induction.
  Context {T : Type}.
  Variable P : json T -> Prop.
  Hypothesis HNull : P JNull.
  Hypothesis HBool : forall b, P (JBool b).
  Hypothesis HInt : forall z, P (JInt z).
  Hypothesis HNum : forall x, P (JNum x).
  Hypothesis HStr : forall s, P (JStr s).
  Hypothesis HArr : forall l, Forall P l -> P (JArr l).
  Hypothesis HObj : forall es, Forall (fun e => P (snd e)) es -> P (JObj es).

  Fixpoint json_induction (j : json T) : P j :=
    match j with
    | JNull => HNull
    | JBool b => HBool b
    | JInt z => HInt z
    | JNum x => HNum x
    | JStr s => HStr s
    | JArr l => HArr l ((fix go l : Forall P l :=
        match l with [] => Forall_nil _ | u :: l' => Forall_cons u (json_induction u) (go l') end) l)
    | JObj es => HObj es ((fix go (fs : list (string * json T)) : Forall (fun e => P (snd e)) fs :=
        match fs with
        | [] => Forall_nil _
        | (n, u) :: fs' => Forall_cons (P := fun e => P (snd e)) (n, u) (json_induction u) (go fs')
        end) es)
    end.
End Induction.

(** ** Types whose structs have distinct fields *)

Fixpoint tidy (t : ty) : Prop :=
  match t with
  | TEnum vs => every (fun e => match e with (_, Some t') => tidy t' | (_, None) => True end) vs
  | TStruct _ fs => NoDup (keys fs) /\ every (fun e => match e with (_, t') => tidy t' end) fs
  | TTuple ts => every tidy ts
  | TVec t' | TMap t' => tidy t'
  | _ => True
  end.

Lemma every_get {A} (P : string * A -> Prop) (m : smap A) n a : every P m -> get n m = Some a -> exists n', P (n', a).
Proof.
  induction m as [|[k b] m IH]; cbn [every get]; [discriminate|]. intros [H K].
  destruct (String.eqb n k); [intros E; injection E as <-; exists k; exact H | apply IH, K].
Qed.

Lemma registry_tidy tr tag t : get tag (registry tr) = Some t -> tidy t.
Proof.
  intros G. assert (E : every (fun e => match e with (_, t') => tidy t' end) (registry tr)).
  { destruct tr; repeat first [exact I | split | apply NoDup_nil | apply NoDup_cons; [cbn; intuition discriminate|]]. }
  destruct (every_get _ _ _ _ E G) as (n' & H). exact H.
Qed.

Lemma content_tidy k : tidy (content k).
Proof. destruct k; [|exact I]. repeat first [exact I | split | apply NoDup_nil | apply NoDup_cons; [cbn; intuition discriminate|]]. Qed.

(** ** What is read is of the type asked for *)

Section Gives.
  Context {T : Type} {N : Num T}.
  Variable finite : T -> bool.
  Notation conforms := (conforms finite).
  Notation known := (known finite).

  Definition gives {A} (Q : A -> Prop) (m : act T A) : Prop := forall s, known s ->
    match m s with (Ok a, s') => Q a /\ known s' | (_, s') => known s' end.

  Lemma gives_ret {A} (Q : A -> Prop) a : Q a -> gives Q (ret a).
  Proof. intros H s K. split; assumption. Qed.
  Lemma gives_lift {A} (Q : A -> Prop) r : (forall a, r = Ok a -> Q a) -> gives Q (lift r).
  Proof. intros H s K. unfold lift. destruct r as [a|e|e]; [split; auto | exact K | exact K]. Qed.
  Lemma gives_bind {A B} (P : A -> Prop) (Q : B -> Prop) m f :
    gives P m -> (forall a, P a -> gives Q (f a)) -> gives Q (bind_act m f).
  Proof.
    intros H F s K. specialize (H s K). unfold bind_act. destruct (m s) as [[a|e|e] s1]; [|exact H | exact H].
    destruct H as [HP K1]. exact (F a HP s1 K1).
  Qed.

  Definition reads (j : json T) : Prop := numbers_finite finite j -> forall t, tidy t -> gives (fun v => conforms v t) (read j t).

  Definition fields_known (fields : list (string * ty)) (seen : smap (val T)) : Prop :=
    forall n v, get n seen = Some v -> exists t, get n fields = Some t /\ conforms v t.

  Lemma gives_fields fields es : Forall (fun e => reads (snd e)) es ->
    every (fun e => match e with (_, j') => numbers_finite finite j' end) es ->
    every (fun e => match e with (_, t') => tidy t' end) fields -> forall seen, fields_known fields seen ->
    gives (fields_known fields) (read_fields read fields es seen).
  Proof.
    intros IH. induction IH as [|[n j] es R _ IH]; cbn [every read_fields]; intros F TD seen K; [apply gives_ret, K|].
    destruct F as [Fj F]. destruct (get n fields) as [t|] eqn:G; [|apply IH; assumption].
    destruct (contains n seen); [apply gives_lift; discriminate|].
    destruct (every_get _ _ _ _ TD G) as (n' & TT). cbn in TT.
    eapply gives_bind; [exact (R Fj t TT)|]. intros v C. apply IH; [assumption..|].
    intros m u. destruct (String.eqb_spec m n) as [->|ne].
    - rewrite get_put_same. intros E. injection E as <-. exists t. split; assumption.
    - rewrite get_put_other by congruence. apply K.
  Qed.

  Lemma assemble_keys fields (seen : smap (val T)) fs : assemble fields seen = Ok fs -> keys fs = keys fields.
  Proof.
    revert fs. induction fields as [|[n t] fields IH]; cbn [assemble]; intros fs H; [injection H as <-; reflexivity|].
    destruct (get n seen); [|discriminate]. destruct (assemble fields seen) as [vs|e|e]; [|discriminate..].
    cbn [bind] in H. injection H as <-. unfold keys in *. cbn [map fst]. rewrite (IH vs eq_refl). reflexivity.
  Qed.

  Lemma assembled all fields seen fs : NoDup (keys all) -> fields_known all seen ->
    (forall n t, In (n, t) fields -> In (n, t) all) -> assemble fields seen = Ok fs -> fields_conform conforms fs fields.
  Proof.
    intros ND K. revert fs. induction fields as [|[n t] fields IH]; cbn [assemble]; intros fs Sub H; [injection H as <-; exact I|].
    destruct (get n seen) as [v|] eqn:G; [|discriminate]. destruct (assemble fields seen) as [vs|e|e] eqn:E; [|discriminate..].
    cbn [bind] in H. injection H as <-. cbn [fields_conform]. split; [reflexivity|].
    destruct (K n v G) as (t' & G' & C).
    rewrite (get_in_nodup n t all ND (Sub n t (or_introl eq_refl))) in G'. injection G' as <-.
    split; [exact C|]. apply IH; [|reflexivity]. intros m u M. apply Sub. right. exact M.
  Qed.

  Lemma fields_conform_keys (fs : list (string * val T)) ts : fields_conform conforms fs ts -> keys fs = keys ts.
  Proof.
    revert ts. induction fs as [|[n v] fs IH]; intros [|[m t] ts]; cbn [fields_conform]; try tauto.
    intros (-> & _ & H). unfold keys in *. cbn [map fst]. rewrite (IH ts H). reflexivity.
  Qed.

  Lemma gives_positions js : Forall reads js -> every (numbers_finite finite) js -> forall fields,
    every (fun e => match e with (_, t') => tidy t' end) fields ->
    gives (fun fs => fields_conform conforms fs fields) (read_positions read fields js).
  Proof.
    intros IH. induction IH as [|j js R _ IH]; cbn [every read_positions]; intros F fields TD.
    - destruct fields as [|[n t] fields]; [apply gives_ret; exact I | apply gives_lift; discriminate].
    - destruct fields as [|[n t] fields]; [apply gives_lift; discriminate|]. destruct F as [Fj F], TD as [TT TD].
      eapply gives_bind; [exact (R Fj t TT)|]. intros v C. eapply gives_bind; [exact (IH F fields TD)|].
      intros vs CS. apply gives_ret. cbn [fields_conform]. auto.
  Qed.

  Lemma gives_tuple js : Forall reads js -> every (numbers_finite finite) js -> forall ts, every tidy ts ->
    gives (fun vs => tuple_conforms conforms vs ts) (read_tuple read ts js).
  Proof.
    intros IH. induction IH as [|j js R _ IH]; cbn [every read_tuple]; intros F ts TD.
    - destruct ts as [|t ts]; [apply gives_ret; exact I | apply gives_lift; discriminate].
    - destruct ts as [|t ts]; [apply gives_lift; discriminate|]. destruct F as [Fj F], TD as [TT TD].
      eapply gives_bind; [exact (R Fj t TT)|]. intros v C. eapply gives_bind; [exact (IH F ts TD)|].
      intros vs CS. apply gives_ret. cbn [tuple_conforms]. auto.
  Qed.

  Lemma gives_vec js : Forall reads js -> every (numbers_finite finite) js -> forall t, tidy t ->
    gives (every (fun u => conforms u t)) (read_vec read t js).
  Proof.
    intros IH. induction IH as [|j js R _ IH]; cbn [every read_vec]; intros F t TT; [apply gives_ret; exact I|].
    destruct F as [Fj F].
    eapply gives_bind; [exact (R Fj t TT)|]. intros v C. eapply gives_bind; [exact (IH F t TT)|].
    intros vs CS. apply gives_ret. cbn [every]. auto.
  Qed.

  Definition map_known (t : ty) (m : smap (val T)) : Prop :=
    NoDup (keys m) /\ every (fun e => match e with (_, u) => conforms u t end) m.

  Lemma keys_put {A} n (v : A) m : keys (put n v m) = if contains n m then keys m else keys m ++ [n].
  Proof.
    unfold keys, contains. induction m as [|[k u] m IH]; cbn [put get map fst app]; [reflexivity|].
    destruct (String.eqb_spec n k) as [->|ne]; [reflexivity|]. cbn [map fst]. rewrite IH.
    destruct (get n m); reflexivity.
  Qed.

  Lemma map_known_put t n v m : map_known t m -> conforms v t -> map_known t (put n v m).
  Proof.
    intros [ND E] C. split.
    - rewrite keys_put. unfold contains. destruct (get n m) eqn:G; [exact ND|]. apply get_none in G.
      clear -ND G. induction (keys m) as [|k l IH]; cbn [app]; [constructor; [intros []|constructor]|].
      inversion ND as [|? ? N ND']; subst. constructor; [|apply IH; [exact ND'|intros M; apply G; right; exact M]].
      intros M. apply in_app_iff in M as [M|[<-|[]]]; [exact (N M) | apply G; left; reflexivity].
    - clear ND. induction m as [|[k u] m IH]; cbn [put every] in *; [auto|]. destruct E as [Eu E].
      destruct (String.eqb n k); cbn [every]; auto.
  Qed.

  Lemma gives_map es : Forall (fun e => reads (snd e)) es ->
    every (fun e => match e with (_, j') => numbers_finite finite j' end) es -> forall t, tidy t ->
    forall m, map_known t m -> gives (map_known t) (read_map read t es m).
  Proof.
    intros IH. induction IH as [|[n j] es R _ IH]; cbn [every read_map]; intros F t TT m K; [apply gives_ret, K|].
    destruct F as [Fj F]. eapply gives_bind; [exact (R Fj t TT)|]. intros v C. apply IH; [assumption..|].
    apply map_known_put; assumption.
  Qed.

  (** Reading a shared object. *)
  Lemma known_insert k v s : known s -> conforms v (content k) -> known (insert_shared k v s).
  Proof.
    intros K C k' id u. rewrite insert_get. destruct (shared_dec k' k) as [->|ne]; [|apply K].
    destruct (String.eqb id (id_of v)); [intros E; injection E as <-; exact C | apply K].
  Qed.

  Lemma gives_shared k (m : act T (val T)) : gives (fun v => conforms v (content k)) m ->
    gives (fun v => conforms v (TShared k)) (deserialize_with_dedup k m).
  Proof.
    intros H s K. unfold deserialize_with_dedup.
    assert (D : gives (fun v => conforms v (TShared k)) (let! v := m in ret (VShared k v))).
    { eapply gives_bind; [exact H|]. intros v C. apply gives_ret. split; [reflexivity | exact C]. }
    assert (W : gives (fun v => conforms v (TShared k)) (let! v := m in fun s' => (Ok (VShared k v), insert_shared k v s'))).
    { eapply gives_bind; [exact H|]. intros v C s1 K1. split; [split; [reflexivity | exact C] | apply known_insert; assumption]. }
    destruct (dd_control (slot k s)); [exact (D s K) | exact (D s K) | exact (W s K)].
  Qed.

  Lemma gives_from_id k id : gives (fun v => conforms v (content k)) (from_id k id).
  Proof.
    intros s K. unfold from_id. destruct (get id (dd_map (slot k s))) as [v|] eqn:G; [|exact K].
    split; [exact (K k id v G) | exact K].
  Qed.

  Definition not_shared (t : ty) : Prop := match t with TShared _ => False | _ => True end.
  Lemma content_not_shared k : not_shared (content k).
  Proof. destruct k; exact I. Qed.

  Lemma reads_from_core j : (forall t, tidy t -> not_shared t -> gives (fun v => conforms v t) (read j t)) ->
    forall t, tidy t -> gives (fun v => conforms v t) (read j t).
  Proof.
    intros H t TD. destruct t as [| | | | | |?|? ?|?|?|?|?|k]; try exact (H _ TD I).
    destruct j as [|b|z|x|x|l|es];
      try (intros s K; exact (gives_shared k _ (gives_lift (fun v => conforms v (content k)) (Err "invalid type") ltac:(discriminate)) s K)).
    - intros s K. exact (gives_shared k _ (gives_from_id k x) s K).
    - intros s K. rewrite read_shared_object.
      exact (gives_shared k _ (H (content k) (content_tidy k) (content_not_shared k)) s K).
  Qed.

  Lemma gives_scalar j t : numbers_finite finite j -> match t with TStr | TF64 | TI32 | TUsize | TBool | TDate => True | _ => False end ->
    gives (fun v => conforms v t) (read j t).
  Proof.
    intros F K. destruct t; try destruct K; destruct j as [|b|z|x|x|l|es]; cbn [read]; cbn [numbers_finite] in F;
      apply gives_lift; intros v Q; try discriminate Q; try (injection Q as <-; first [exact F | exact I]);
      try (unfold read_int in Q; destruct (_ && _) eqn:E in Q; [|discriminate Q]; injection Q as <-; cbn [S_Serde.conforms]; lia).
    destruct (from_str x) as [d|e|e] eqn:E; [|discriminate Q..]. injection Q as <-.
    apply from_str_valid, is_valid_iff in E. exact E.
  Qed.

  Ltac stuck := apply gives_lift; discriminate.

  Lemma reads_all j : reads j.
  Proof.
    induction j as [|b|z|x|x|l IH|es IH] using json_induction; intros F; apply reads_from_core; intros t TD NS;
      destruct t as [| | | | | |vs|flat fields|ts|t'|t'|tr|k]; try destruct NS;
      try (apply gives_scalar; [exact F | exact I]); cbn [numbers_finite tidy] in F, TD; cbn [read]; try stuck.
    - destruct (get x vs) as [[t'|]|] eqn:G; [stuck | | stuck]. apply gives_ret. exact G.
    - destruct flat; [stuck|]. destruct TD as [ND TD]. eapply gives_bind; [exact (gives_positions l IH F fields TD)|].
      intros fs C. apply gives_ret. split; [|exact C]. rewrite (fields_conform_keys _ _ C). exact ND.
    - eapply gives_bind; [exact (gives_tuple l IH F ts TD)|]. intros us C. apply gives_ret. exact C.
    - eapply gives_bind; [exact (gives_vec l IH F t' TD)|]. intros us C. apply gives_ret. exact C.
    - destruct es as [|[n j] [|e2 es]]; [stuck | | stuck].
      inversion IH as [|? ? R _]; subst. destruct F as [Fj _]. cbn [snd] in R.
      destruct (get n vs) as [[t'|]|] eqn:G; [| |stuck].
      + assert (TT : tidy t') by (destruct (every_get _ _ _ _ TD G) as (n' & H); exact H).
        eapply gives_bind; [exact (R Fj t' TT)|]. intros v C. apply gives_ret. exists t'. split; assumption.
      + destruct j as [|b|z|x|x|l|es]; try stuck. apply gives_ret. exact G.
    - destruct TD as [ND TD]. eapply gives_bind; [apply (gives_fields fields es IH F TD); intros n v G; discriminate G|].
      intros seen K. eapply gives_bind; [apply (gives_lift (fun fs => keys fs = keys fields /\ fields_conform conforms fs fields))|].
      + intros fs A. split; [exact (assemble_keys _ _ _ A) | apply (assembled fields fields seen fs ND K (fun _ _ M => M) A)].
      + intros fs [KE C]. apply gives_ret. split; [rewrite KE; exact ND | exact C].
    - eapply gives_bind; [apply (gives_map es IH F t' TD); split; [constructor | exact I]|].
      intros m K. apply gives_ret. exact K.
    - destruct es as [|[tag j] [|e2 es]]; [stuck | | stuck].
      inversion IH as [|? ? R _]; subst. destruct F as [Fj _]. cbn [snd] in R.
      destruct (get tag (registry tr)) as [t'|] eqn:G; [|stuck].
      eapply gives_bind; [exact (R Fj t' (registry_tidy _ _ _ G))|]. intros v C. apply gives_ret.
      split; [reflexivity|]. exists tag, t'. auto.
  Qed.

  Lemma read_conforms j t s v s' : numbers_finite finite j -> tidy t -> known s -> read j t s = (Ok v, s') ->
    conforms v t /\ known s'.
  Proof. intros F TD K E. pose proof (reads_all j F t TD s K) as H. rewrite E in H. exact H. Qed.
End Gives.

(** ** Panics *)

Section Panics.
  Context {T : Type} {N : Num T}.

  (** A panic means [B]. *)
  Definition safe {A} (B : Prop) (m : act T A) : Prop := forall s p s', m s = (Panic p, s') -> B.

  Lemma safe_ret {A} (B : Prop) (a : A) : safe B (ret a).
  Proof. intros s p s' H. discriminate H. Qed.
  Lemma safe_lift {A} (B : Prop) (r : res A) : (forall p, r = Panic p -> B) -> safe B (lift r).
  Proof. intros H s p s' E. unfold lift in E. injection E as -> <-. exact (H p eq_refl). Qed.
  Lemma safe_bind {A C} (B : Prop) (m : act T A) (f : A -> act T C) : safe B m -> (forall a, safe B (f a)) -> safe B (bind_act m f).
  Proof.
    intros H F s p s' E. unfold bind_act in E. destruct (m s) as [[a|e|e] s1] eqn:M; [exact (F a s1 p s' E) | discriminate|].
    exact (H s e s1 M).
  Qed.
  Lemma safe_weaken {A} (B B' : Prop) (m : act T A) : (B -> B') -> safe B m -> safe B' m.
  Proof. intros W H s p s' E. exact (W (H s p s' E)). Qed.

  Definition reads_safely (j : json T) : Prop := forall t, safe (panicking_text j) (read j t).

  Lemma panicking_item (j : json T) l : In j l -> panicking_text j -> panicking_text (JArr l).
  Proof. intros I (x & m & M & E). exists x, m. split; [|exact E]. cbn [texts]. apply in_flat_map. exists j. auto. Qed.
  Lemma panicking_field n (j : json T) es : In (n, j) es -> panicking_text j -> panicking_text (JObj es).
  Proof. intros I (x & m & M & E). exists x, m. split; [|exact E]. cbn [texts]. apply in_flat_map. exists (n, j). auto. Qed.

  Section List.
    Variable B : Prop.
    Lemma safe_fields fields es : Forall (fun e => forall t, safe B (read (snd e) t)) es ->
      forall seen, safe B (read_fields read fields es seen).
    Proof.
      intros IH. induction IH as [|[n j] es R _ IH]; cbn [read_fields]; intros seen; [apply safe_ret|].
      destruct (get n fields) as [t|]; [|apply IH]. destruct (contains n seen); [apply safe_lift; discriminate|].
      apply safe_bind; [apply R | intros v; apply IH].
    Qed.
    Lemma safe_positions js : Forall (fun j => forall t, safe B (read j t)) js ->
      forall fields, safe B (read_positions read fields js).
    Proof.
      intros IH. induction IH as [|j js R _ IH]; cbn [read_positions]; intros [|[n t] fields];
        try (apply safe_ret); try (apply safe_lift; discriminate).
      apply safe_bind; [apply R|]. intros v. apply safe_bind; [apply IH|]. intros vs. apply safe_ret.
    Qed.
    Lemma safe_tuple js : Forall (fun j => forall t, safe B (read j t)) js -> forall ts, safe B (read_tuple read ts js).
    Proof.
      intros IH. induction IH as [|j js R _ IH]; cbn [read_tuple]; intros [|t ts];
        try (apply safe_ret); try (apply safe_lift; discriminate).
      apply safe_bind; [apply R|]. intros v. apply safe_bind; [apply IH|]. intros vs. apply safe_ret.
    Qed.
    Lemma safe_vec js : Forall (fun j => forall t, safe B (read j t)) js -> forall t, safe B (read_vec read t js).
    Proof.
      intros IH. induction IH as [|j js R _ IH]; cbn [read_vec]; intros t; [apply safe_ret|].
      apply safe_bind; [apply R|]. intros v. apply safe_bind; [apply IH|]. intros vs. apply safe_ret.
    Qed.
    Lemma safe_map es : Forall (fun e => forall t, safe B (read (snd e) t)) es -> forall t m, safe B (read_map read t es m).
    Proof.
      intros IH. induction IH as [|[n j] es R _ IH]; cbn [read_map]; intros t m; [apply safe_ret|].
      apply safe_bind; [apply R|]. intros v. apply IH.
    Qed.
    Lemma safe_shared k (m : act T (val T)) : safe B m -> safe B (deserialize_with_dedup k m).
    Proof.
      intros H s p s' E. unfold deserialize_with_dedup in E.
      destruct (dd_control (slot k s));
        (refine (safe_bind B m _ H _ s p s' E); intros v; first [apply safe_ret | intros s1 p1 s2 E1; discriminate E1]).
    Qed.
  End List.

  Lemma assemble_safe fields (seen : smap (val T)) p : assemble fields seen <> Panic p.
  Proof.
    induction fields as [|[n t] fields IH]; cbn [assemble]; [discriminate|]. destruct (get n seen); [|discriminate].
    destruct (assemble fields seen) as [vs|e|e]; cbn [bind]; try discriminate. exact IH.
  Qed.

  Lemma safe_from_core j (B : Prop) : (forall t, not_shared t -> safe B (read j t)) -> forall t, safe B (read j t).
  Proof.
    intros H t. destruct t as [| | | | | |?|? ?|?|?|?|?|k]; try (apply H; exact I).
    destruct j as [|b|z|x|x|l|es];
      try (apply (safe_shared B k (lift (Err "invalid type"))); apply safe_lift; discriminate).
    - apply (safe_shared B k (from_id k x)). intros s p s' E. unfold from_id in E.
      destruct (get x (dd_map (slot k s))); discriminate E.
    - intros s p s' E. rewrite read_shared_object in E.
      exact (safe_shared B k _ (H (content k) (content_not_shared k)) s p s' E).
  Qed.

  Ltac stuck := apply safe_lift; discriminate.

  Lemma safe_int (B : Prop) lo hi (j : json T) : safe B (lift (read_int lo hi j)).
  Proof.
    apply safe_lift. intros p. unfold read_int. destruct j as [|b|z|x|x|l|es]; try discriminate.
    destruct (_ && _); discriminate.
  Qed.

  Lemma reads_safely_all j : reads_safely j.
  Proof.
    assert (Sub : forall l : list (json T), Forall reads_safely l -> Forall (fun j => forall t, safe (panicking_text (JArr l)) (read j t)) l).
    { intros l H. apply Forall_forall. intros j' M t. rewrite Forall_forall in H.
      eapply safe_weaken; [exact (panicking_item j' l M) | exact (H j' M t)]. }
    assert (Sub' : forall es : list (string * json T), Forall (fun e => reads_safely (snd e)) es ->
              Forall (fun e => forall t, safe (panicking_text (JObj es)) (read (snd e) t)) es).
    { intros es H. apply Forall_forall. intros [n j'] M t. rewrite Forall_forall in H.
      eapply safe_weaken; [exact (panicking_field n j' es M) | exact (H (n, j') M t)]. }
    induction j as [|b|z|x|x|l IH|es IH] using json_induction; unfold reads_safely; apply safe_from_core; intros t NS;
      destruct t as [| | | | | |vs|flat fields|ts|t'|t'|tr|k]; try destruct NS; cbn [read]; try stuck; try apply safe_int.
    - apply safe_lift. intros p E. destruct (from_str x) as [d|e|e] eqn:D; try discriminate E.
      exists x, e. split; [left; reflexivity | exact D].
    - destruct (get x vs) as [[t'|]|]; [stuck | apply safe_ret | stuck].
    - destruct flat; [stuck|]. apply safe_bind; [apply safe_positions, Sub, IH | intros fs; apply safe_ret].
    - apply safe_bind; [apply safe_tuple, Sub, IH | intros fs; apply safe_ret].
    - apply safe_bind; [apply safe_vec, Sub, IH | intros fs; apply safe_ret].
    - destruct es as [|[n j] [|e2 es]]; [stuck | | stuck]. apply Sub' in IH. inversion IH as [|? ? R _]; subst. cbn [snd] in R.
      destruct (get n vs) as [[t'|]|]; [| |stuck].
      + apply safe_bind; [apply R | intros v; apply safe_ret].
      + destruct j as [|b|z|x|x|l|es]; first [stuck | apply safe_ret].
    - apply safe_bind; [apply safe_fields, Sub', IH|]. intros seen. apply safe_bind; [|intros fs; apply safe_ret].
      apply safe_lift. intros p E. destruct (assemble_safe _ _ _ E).
    - apply safe_bind; [apply safe_map, Sub', IH | intros m; apply safe_ret].
    - destruct es as [|[tag j] [|e2 es]]; [stuck | | stuck]. apply Sub' in IH. inversion IH as [|? ? R _]; subst. cbn [snd] in R.
      destruct (get tag (registry tr)) as [t'|]; [|stuck]. apply safe_bind; [apply R | intros v; apply safe_ret].
  Qed.
End Panics.
