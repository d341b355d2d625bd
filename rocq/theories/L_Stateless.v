(** Proofs: reading what has no shared parts neither uses nor changes the thread's state. *)
From Coq Require Import ZArith List String Bool.
From Verif Require Import Prelude Num M_Dates M_Schema M_Serde M_Objects M_Facade S_Serde S_Read L_Serde L_Read.
Import ListNotations.
Open Scope string_scope.
Open Scope list_scope.

(** Types that hold no shared parts, however deep. *)
Definition closed (tr : trait) : bool := match tr with TrInstrument => false | _ => true end.
Fixpoint alone (t : ty) : Prop :=
  match t with
  | TEnum vs => every (fun e => match e with (_, Some t') => alone t' | (_, None) => True end) vs
  | TStruct _ fs => every (fun e => match e with (_, t') => alone t' end) fs
  | TTuple ts => every alone ts
  | TVec t' | TMap t' => alone t'
  | TTagged tr => closed tr = true
  | TShared _ => False
  | _ => True
  end.

Lemma registry_alone tr tag t : closed tr = true -> get tag (registry tr) = Some t -> alone t.
Proof.
  intros C G. assert (E : every (fun e => match e with (_, t') => alone t' end) (registry tr)).
  { destruct tr; try discriminate C; repeat first [exact I | reflexivity | split]. }
  destruct (every_get _ _ _ _ E G) as (n' & H). exact H.
Qed.

Section Stateless.
  Context {T : Type} {N : Num T}.

  Definition stateless {A} (m : act T A) : Prop := exists r, forall s, m s = (r, s).

  Lemma stateless_ret {A} (a : A) : stateless (ret a).
  Proof. exists (Ok a). reflexivity. Qed.
  Lemma stateless_lift {A} (r : res A) : stateless (lift r).
  Proof. exists r. reflexivity. Qed.
  Lemma stateless_bind {A B} (m : act T A) (f : A -> act T B) : stateless m -> (forall a, stateless (f a)) -> stateless (bind_act m f).
  Proof.
    intros [r H] F. unfold bind_act. destruct r as [a|e|e].
    - destruct (F a) as [r' H']. exists r'. intros s. rewrite H. apply H'.
    - exists (Err e). intros s. rewrite H. reflexivity.
    - exists (Panic e). intros s. rewrite H. reflexivity.
  Qed.

  Definition reads_alone (j : json T) : Prop := forall t, alone t -> stateless (read j t).

  Lemma alone_fields fields es : Forall (fun e => reads_alone (snd e)) es -> every (fun e => match e with (_, t') => alone t' end) fields ->
    forall seen, stateless (read_fields read fields es seen).
  Proof.
    intros IH TD. induction IH as [|[n j] es R _ IH]; cbn [read_fields]; intros seen; [apply stateless_ret|].
    destruct (get n fields) as [t|] eqn:G; [|apply IH]. destruct (contains n seen); [apply stateless_lift|].
    destruct (every_get _ _ _ _ TD G) as (n' & A). apply stateless_bind; [exact (R t A) | intros v; apply IH].
  Qed.
  Lemma alone_positions js : Forall reads_alone js -> forall fields, every (fun e => match e with (_, t') => alone t' end) fields ->
    stateless (read_positions read fields js).
  Proof.
    intros IH. induction IH as [|j js R _ IH]; cbn [read_positions]; intros [|[n t] fields] TD;
      try (apply stateless_ret); try apply stateless_lift. destruct TD as [A TD].
    apply stateless_bind; [exact (R t A)|]. intros v. apply stateless_bind; [apply (IH fields TD)|]. intros vs. apply stateless_ret.
  Qed.
  Lemma alone_tuple js : Forall reads_alone js -> forall ts, every alone ts -> stateless (read_tuple read ts js).
  Proof.
    intros IH. induction IH as [|j js R _ IH]; cbn [read_tuple]; intros [|t ts] TD;
      try (apply stateless_ret); try apply stateless_lift. destruct TD as [A TD].
    apply stateless_bind; [exact (R t A)|]. intros v. apply stateless_bind; [apply (IH ts TD)|]. intros vs. apply stateless_ret.
  Qed.
  Lemma alone_vec js : Forall reads_alone js -> forall t, alone t -> stateless (read_vec read t js).
  Proof.
    intros IH. induction IH as [|j js R _ IH]; cbn [read_vec]; intros t A; [apply stateless_ret|].
    apply stateless_bind; [exact (R t A)|]. intros v. apply stateless_bind; [apply (IH t A)|]. intros vs. apply stateless_ret.
  Qed.
  Lemma alone_map es : Forall (fun e => reads_alone (snd e)) es -> forall t, alone t -> forall m, stateless (read_map read t es m).
  Proof.
    intros IH t A. induction IH as [|[n j] es R _ IH]; cbn [read_map]; intros m; [apply stateless_ret|].
    apply stateless_bind; [exact (R t A)|]. intros v. apply IH.
  Qed.

  Ltac stuck := apply stateless_lift.

  Lemma reads_alone_all j : reads_alone j.
  Proof.
    induction j as [|b|z|x|x|l IH|es IH] using json_induction; intros t A;
      destruct t as [| | | | | |vs|flat fields|ts|t'|t'|tr|k]; try exact (False_ind _ A); cbn [alone] in A; cbn [read]; try stuck.
    - destruct (get x vs) as [[t'|]|]; [stuck | apply stateless_ret | stuck].
    - destruct flat; [stuck|]. apply stateless_bind; [exact (alone_positions l IH fields A)|]. intros fs. apply stateless_ret.
    - apply stateless_bind; [exact (alone_tuple l IH ts A)|]. intros us. apply stateless_ret.
    - apply stateless_bind; [exact (alone_vec l IH t' A)|]. intros us. apply stateless_ret.
    - destruct es as [|[n j] [|e2 es]]; [stuck | | stuck]. inversion IH as [|? ? R _]; subst. cbn [snd] in R.
      destruct (get n vs) as [[t'|]|] eqn:G; [| |stuck].
      + destruct (every_get _ _ _ _ A G) as (n' & At). apply stateless_bind; [exact (R t' At)|]. intros v. apply stateless_ret.
      + destruct j; stuck.
    - apply stateless_bind; [exact (alone_fields fields es IH A [])|]. intros seen. apply stateless_bind; [stuck|]. intros fs. apply stateless_ret.
    - apply stateless_bind; [exact (alone_map es IH t' A [])|]. intros m. apply stateless_ret.
    - destruct es as [|[tag j] [|e2 es]]; [stuck | | stuck]. inversion IH as [|? ? R _]; subst. cbn [snd] in R.
      destruct (get tag (registry tr)) as [t'|] eqn:G; [|stuck].
      apply stateless_bind; [exact (R t' (registry_alone _ _ _ A G))|]. intros v. apply stateless_ret.
  Qed.

  Lemma read_stateless {A} t (f : val T -> res A) j : alone t -> stateless (let! v := read j t in lift (f v)).
  Proof. intros H. apply stateless_bind; [exact (reads_alone_all j t H) | intros v; stuck]. Qed.

  Lemma fixings_stateless j : exists r, forall s, fixing_table_from_json j s = (r, s).
  Proof. apply read_stateless. repeat first [exact I | split]. Qed.
  Lemma generator_stateless j : exists r, forall s, report_generator_from_json j s = (r, s).
  Proof. apply read_stateless. reflexivity. Qed.
  Lemma reports_stateless j : exists r, forall s, reports_from_json j s = (r, s).
  Proof. apply read_stateless. reflexivity. Qed.
  Lemma factory_stateless j : exists r, forall s, pricer_factory_from_json j s = (r, s).
  Proof. apply read_stateless. reflexivity. Qed.
  Lemma market_stateless {TR : Trans T} nan j : exists r, forall s, market_data_from_json nan j s = (r, s).
  Proof. apply read_stateless. repeat first [exact I | reflexivity | split]. Qed.

  (** Reading an instrument uses only the state it is given. *)
  Lemma both_slots c i (s : tls T) : set_slot ShInstrument i (set_slot ShCurrency c s) = mkTls c i.
  Proof. destruct s; reflexivity. Qed.
  Lemma instrument_stateless j cd cs ic is : exists r, forall s, fst (instrument_from_json j cd cs ic is s) = r /\
    (match r with Panic _ => True | _ => snd (instrument_from_json j cd cs ic is s) = s end).
  Proof.
    unfold instrument_from_json. cbv zeta. set (c := mkDedup cd _). set (i := mkDedup ic _). unfold bind_act, with_dedup, lift.
    destruct (read j (TShared ShInstrument) (mkTls c i)) as [[v|e|e] s1] eqn:E.
    - exists (rc_instrument_of_val v). intros s. rewrite both_slots, E. destruct s as [sc si]. cbn. split; [reflexivity|].
      destruct (rc_instrument_of_val v); [reflexivity..|exact I].
    - exists (Err e). intros s. rewrite both_slots, E. destruct s as [sc si]. cbn. auto.
    - exists (Panic e). intros s. rewrite both_slots, E. cbn. auto.
  Qed.
End Stateless.
