(** Proofs: writing and reading back. *)
From Coq Require Import ZArith List String Bool Lia.
From Verif Require Import Prelude Num M_Dates M_Schema M_Serde S_Serde L_Dates L_Fixings.
Import ListNotations.
Open Scope string_scope.
Open Scope list_scope.

(** ** Induction over objects *)

Section Induction.
  Context {T : Type}.
  Variable P : val T -> Prop.
  Hypothesis HStr : forall s, P (VStr s).
  Hypothesis HNum : forall x, P (VNum x).
  Hypothesis HInt : forall z, P (VInt z).
  Hypothesis HBool : forall b, P (VBool b).
  Hypothesis HDate : forall d, P (VDate d).
  Hypothesis HUnit : forall n, P (VUnit n).
  Hypothesis HVariant : forall n u, P u -> P (VVariant n u).
  Hypothesis HStruct : forall fs, Forall (fun e => P (snd e)) fs -> P (VStruct fs).
  Hypothesis HTuple : forall l, Forall P l -> P (VTuple l).
  Hypothesis HVec : forall l, Forall P l -> P (VVec l).
  Hypothesis HMap : forall m, Forall (fun e => P (snd e)) m -> P (VMap m).
  Hypothesis HTagged : forall tr id u, P u -> P (VTagged tr id u).
  Hypothesis HShared : forall k u, P u -> P (VShared k u).

  Fixpoint val_induction (v : val T) : P v :=
    let list_ind := fix go l : Forall P l :=
      match l with [] => Forall_nil _ | u :: l' => Forall_cons u (val_induction u) (go l') end in
    let fields_ind := fix go (fs : list (string * val T)) : Forall (fun e => P (snd e)) fs :=
      match fs with
      | [] => Forall_nil _
      | (n, u) :: fs' => Forall_cons (P := fun e => P (snd e)) (n, u) (val_induction u) (go fs')
      end in
    match v with
    | VStr s => HStr s
    | VNum x => HNum x
    | VInt z => HInt z
    | VBool b => HBool b
    | VDate d => HDate d
    | VUnit n => HUnit n
    | VVariant n u => HVariant n u (val_induction u)
    | VStruct fs => HStruct fs (fields_ind fs)
    | VTuple l => HTuple l (list_ind l)
    | VVec l => HVec l (list_ind l)
    | VMap m => HMap m (fields_ind m)
    | VTagged tr id u => HTagged tr id u (val_induction u)
    | VShared k u => HShared k u (val_induction u)
    end.
End Induction.

(** ** States *)

Lemma slot_set_same {T} k (d : dedup T) s : slot k (set_slot k d s) = d.
Proof. destruct k; reflexivity. Qed.

Lemma slot_set_other {T} k k' (d : dedup T) s : k <> k' -> slot k (set_slot k' d s) = slot k s.
Proof. destruct k, k'; try reflexivity; congruence. Qed.

Lemma shared_dec (k k' : shared) : {k = k'} + {k <> k'}.
Proof. decide equality. Qed.

Lemma insert_control {T} k k' (v : val T) s : dd_control (slot k (insert_shared k' v s)) = dd_control (slot k s).
Proof.
  unfold insert_shared. destruct (shared_dec k k') as [->|n]; [rewrite slot_set_same | rewrite slot_set_other by exact n]; reflexivity.
Qed.

Lemma insert_get {T} k k' (v : val T) s id :
  get id (dd_map (slot k (insert_shared k' v s))) =
    if shared_dec k k' then if String.eqb id (id_of v) then Some v else get id (dd_map (slot k s))
    else get id (dd_map (slot k s)).
Proof.
  unfold insert_shared. destruct (shared_dec k k') as [->|n]; [rewrite slot_set_same | rewrite slot_set_other by exact n]; [|reflexivity].
  cbn [dd_map]. destruct (String.eqb_spec id (id_of v)) as [->|ne]; [apply get_put_same | apply get_put_other; congruence].
Qed.

Lemma put_absent {A} k (v : A) m : get k m = None -> put k v m = m ++ [(k, v)].
Proof.
  induction m as [|[k' v'] m IH]; cbn [get put app]; [reflexivity|].
  destruct (String.eqb k k'); [discriminate|]. intros H. rewrite IH by exact H. reflexivity.
Qed.

Lemma get_app {A} k (m m' : smap A) : get k (m ++ m') = match get k m with Some v => Some v | None => get k m' end.
Proof. induction m as [|[k' v'] m IH]; cbn [get app]; [reflexivity|]. destruct (String.eqb k k'); [reflexivity | exact IH]. Qed.

Lemma get_none {A} k (m : smap A) : get k m = None <-> ~ In k (keys m).
Proof.
  unfold keys. induction m as [|[k' v'] m IH]; cbn [get map fst In]; [tauto|].
  destruct (String.eqb_spec k k') as [->|n]; [split; [discriminate | tauto]|]. rewrite IH. intuition congruence.
Qed.

Lemma get_in_nodup {A} k (v : A) m : NoDup (keys m) -> In (k, v) m -> get k m = Some v.
Proof.
  unfold keys. induction m as [|[k' v'] m IH]; cbn [get map fst In]; [tauto|].
  intros ND [E | I]; inversion ND as [|? ? N ND']; subst.
  - injection E as -> ->. rewrite String.eqb_refl. reflexivity.
  - destruct (String.eqb_spec k k') as [->|n]; [|exact (IH ND' I)].
    exfalso. apply N. change k' with (fst (k', v)). apply in_map, I.
Qed.

(** ** Size *)

Fixpoint nsum (l : list nat) : nat := match l with [] => 0 | n :: l' => n + nsum l' end%nat.

Fixpoint vsize {T} (v : val T) : nat :=
  match v with
  | VVariant _ u | VTagged _ _ u | VShared _ u => S (vsize u)
  | VStruct fs | VMap fs => S (nsum (map (fun e : string * val T => match e with (_, u) => vsize u end) fs))
  | VTuple l | VVec l => S (nsum (map vsize l))
  | _ => 1
  end%nat.

Lemma nsum_in n l : In n l -> (n <= nsum l)%nat.
Proof. induction l as [|a l IH]; cbn [In nsum]; [tauto|]. intros [->|I]; [lia|]. specialize (IH I). lia. Qed.

Lemma vsize_item {T} (u : val T) l : In u l -> (vsize u <= nsum (map vsize l))%nat.
Proof. intros I. apply nsum_in, in_map, I. Qed.

Lemma vsize_field {T} n (u : val T) fs : In (n, u) fs ->
  (vsize u <= nsum (map (fun e : string * val T => match e with (_, u) => vsize u end) fs))%nat.
Proof. intros I. apply nsum_in. exact (in_map (fun e : string * val T => match e with (_, u) => vsize u end) fs (n, u) I). Qed.

(** ** Unfolding [bind_act] *)

Lemma bind_act_ok {T A B} (m : act T A) (f : A -> act T B) s b s' :
  bind_act m f s = (Ok b, s') -> exists a s1, m s = (Ok a, s1) /\ f a s1 = (Ok b, s').
Proof. unfold bind_act. destruct (m s) as [[a|e|e] s1]; intros H; [exists a, s1; auto | discriminate | discriminate]. Qed.

Lemma bind_act_run {T A B} (m : act T A) (f : A -> act T B) s a s1 :
  m s = (Ok a, s1) -> bind_act m f s = f a s1.
Proof. unfold bind_act. intros ->. reflexivity. Qed.

Ltac inv_act H :=
  let a := fresh "a" in let s1 := fresh "s" in let E := fresh "E" in
  apply bind_act_ok in H; destruct H as (a & s1 & E & H).

(** ** The round trip *)

Section RoundTrip.
  Context {T : Type} {N : Num T}.
  Variable finite : T -> bool.
  (** The shared objects of everything being written, and the controls. *)
  Variable occ : list (shared * val T).
  Variable ctl : shared -> dedup_control.
  Hypothesis occ_ids : forall k u u', ctl k <> Inline -> In (k, u) occ -> In (k, u') occ -> id_of u = id_of u' -> u = u'.

  Hypothesis occ_loaded : forall k u, In (k, u) occ -> loaded u = u.

  Notation write := (write finite).
  Notation conforms := (conforms finite).

  Definition sound (s : tls T) : Prop :=
    (forall k, dd_control (slot k s) = ctl k) /\
    forall k u u', ctl k <> Inline -> In (k, u) occ -> get (id_of u) (dd_map (slot k s)) = Some u' -> u' = u.

  (** The reader knows what the writer knows, except for the objects [anc] that are being written. *)
  Definition agree (anc : list (shared * val T)) (s r : tls T) : Prop :=
    forall k id, (forall u, In (k, u) anc -> id_of u <> id) ->
      get id (dd_map (slot k s)) = get id (dd_map (slot k r)).

  Definition related anc (s r : tls T) : Prop := sound s /\ sound r /\ agree anc s r.

  Definition grows (s s' : tls T) : Prop :=
    forall k id, get id (dd_map (slot k s)) <> None -> get id (dd_map (slot k s')) <> None.

  Definition below (anc : list (shared * val T)) (n : nat) : Prop :=
    forall k u, In (k, u) anc -> In (k, u) occ /\ (n <= vsize u)%nat.

  Lemma below_le anc n m : below anc n -> (m <= n)%nat -> below anc m.
  Proof. intros B L k u I. destruct (B k u I) as [I' L']. split; [exact I' | lia]. Qed.

  Lemma grows_refl s : grows s s.
  Proof. intros k id H. exact H. Qed.

  Lemma grows_trans s1 s2 s3 : grows s1 s2 -> grows s2 s3 -> grows s1 s3.
  Proof. intros A B k id H. apply B, A, H. Qed.

  Lemma sound_insert k v s : In (k, v) occ -> sound s -> sound (insert_shared k v s).
  Proof.
    intros I [C G]. split; [intros k'; rewrite insert_control; apply C|].
    intros k' u u' NI I' H. rewrite insert_get in H. destruct (shared_dec k' k) as [->|n]; [|exact (G _ _ _ NI I' H)].
    destruct (String.eqb_spec (id_of u) (id_of v)) as [E|ne]; [|exact (G _ _ _ NI I' H)].
    injection H as <-. symmetry. exact (occ_ids k u v NI I' I E).
  Qed.

  Lemma grows_insert k v (s : tls T) : grows s (insert_shared k v s).
  Proof.
    intros k' id H. rewrite insert_get. destruct (shared_dec k' k) as [->|n]; [|exact H].
    destruct (String.eqb id (id_of v)); [discriminate | exact H].
  Qed.

  Definition carries (v : val T) : Prop := forall t anc s r j s',
    conforms v t -> incl (sharing v) occ -> below anc (vsize v) -> related anc s r -> write v s = (Ok j, s') ->
    exists r', read j t r = (Ok (loaded v), r') /\ related anc s' r' /\ grows s s'.

  Lemma carries_vec l : Forall carries l -> forall t anc s r js s',
    every (fun u => conforms u t) l -> incl (flat_map sharing l) occ -> below anc (nsum (map vsize l)) ->
    related anc s r -> each write l s = (Ok js, s') ->
    exists r', read_vec read t js r = (Ok (map loaded l), r') /\ related anc s' r' /\ grows s s'.
  Proof.
    induction 1 as [|u l Cu _ IH]; intros t anc s r js s'; cbn [every each read_vec flat_map map nsum].
    - intros _ _ _ R E. injection E as <- <-. exists r. split; [reflexivity|]. split; [exact R | apply grows_refl].
    - intros [Cf Cfs] I B R E. inv_act E. inv_act E. injection E as <- <-.
      destruct (Cu t anc s r _ _ Cf (fun x Hx => I x (in_or_app _ _ _ (or_introl Hx)))
                  (below_le _ _ (vsize u) B ltac:(lia)) R E0) as (r1 & H1 & R1 & G1).
      destruct (IH t anc _ r1 _ _ Cfs (fun x Hx => I x (in_or_app _ _ _ (or_intror Hx)))
                  (below_le _ _ (nsum (map vsize l)) B ltac:(lia)) R1 E1) as (r2 & H2 & R2 & G2).
      exists r2. cbn [read_vec]. rewrite (bind_act_run _ _ _ _ _ H1), (bind_act_run _ _ _ _ _ H2).
      split; [reflexivity|]. split; [exact R2 | exact (grows_trans _ _ _ G1 G2)].
  Qed.

  Lemma carries_tuple l : Forall carries l -> forall ts anc s r js s',
    tuple_conforms conforms l ts -> incl (flat_map sharing l) occ -> below anc (nsum (map vsize l)) ->
    related anc s r -> each write l s = (Ok js, s') ->
    exists r', read_tuple read ts js r = (Ok (map loaded l), r') /\ related anc s' r' /\ grows s s'.
  Proof.
    induction 1 as [|u l Cu _ IH]; intros [|t ts] anc s r js s'; cbn [tuple_conforms each flat_map map nsum];
      try contradiction.
    - intros _ _ _ R E. injection E as <- <-. exists r. split; [reflexivity|]. split; [exact R | apply grows_refl].
    - intros [Cf Cfs] I B R E. inv_act E. inv_act E. injection E as <- <-.
      destruct (Cu t anc s r _ _ Cf (fun x Hx => I x (in_or_app _ _ _ (or_introl Hx)))
                  (below_le _ _ (vsize u) B ltac:(lia)) R E0) as (r1 & H1 & R1 & G1).
      destruct (IH ts anc _ r1 _ _ Cfs (fun x Hx => I x (in_or_app _ _ _ (or_intror Hx)))
                  (below_le _ _ (nsum (map vsize l)) B ltac:(lia)) R1 E1) as (r2 & H2 & R2 & G2).
      exists r2. cbn [read_tuple]. rewrite (bind_act_run _ _ _ _ _ H1), (bind_act_run _ _ _ _ _ H2).
      split; [reflexivity|]. split; [exact R2 | exact (grows_trans _ _ _ G1 G2)].
  Qed.

  Notation write_entry := (fun e : string * val T => match e with (n, u) => let! j := write u in ret (n, j) end).
  Notation entry_sharing := (fun e : string * val T => match e with (_, u) => sharing u end).
  Notation entry_loaded := (fun e : string * val T => match e with (n, u) => (n, loaded u) end).
  Notation entry_size := (fun e : string * val T => match e with (_, u) => vsize u end).

  Lemma write_entry_ok n u s e s' : write_entry (n, u) s = (Ok e, s') ->
    exists j, e = (n, j) /\ write u s = (Ok j, s').
  Proof. cbn beta iota. intros E. inv_act E. injection E as <- <-. exists a. auto. Qed.

  Lemma carries_map m : Forall (fun e => carries (snd e)) m -> forall t anc s r es s' before,
    every (fun e : string * val T => match e with (_, u) => conforms u t end) m -> NoDup (keys before ++ keys m) ->
    incl (flat_map entry_sharing m) occ -> below anc (nsum (map entry_size m)) ->
    related anc s r -> each write_entry m s = (Ok es, s') ->
    exists r', read_map read t es before r = (Ok (before ++ map entry_loaded m), r') /\ related anc s' r' /\ grows s s'.
  Proof.
    induction 1 as [|[n u] m Cu _ IH]; intros t anc s r es s' before; cbn [every each flat_map map nsum keys fst].
    - intros _ _ _ _ R E. injection E as <- <-. exists r. rewrite app_nil_r.
      split; [reflexivity|]. split; [exact R | apply grows_refl].
    - intros [Cf Cfs] ND I B R E. inv_act E. inv_act E. injection E as <- <-.
      apply write_entry_ok in E0. destruct E0 as (j & -> & E0).
      destruct (Cu t anc s r _ _ Cf (fun x Hx => I x (in_or_app _ _ _ (or_introl Hx)))
                  (below_le _ _ (vsize u) B ltac:(lia)) R E0) as (r1 & H1 & R1 & G1).
      cbn [snd] in H1.
      assert (A : get n before = None).
      { apply get_none. intros J. apply NoDup_remove_2 in ND. apply ND. apply in_or_app. left. exact J. }
      assert (ND' : NoDup (keys (put n (loaded u) before) ++ keys m)).
      { rewrite put_absent by exact A. unfold keys. rewrite map_app. cbn [map fst]. rewrite <- app_assoc. exact ND. }
      destruct (IH t anc _ r1 _ _ (put n (loaded u) before) Cfs ND' (fun x Hx => I x (in_or_app _ _ _ (or_intror Hx)))
                  (below_le _ _ (nsum (map entry_size m)) B ltac:(lia)) R1 E1) as (r2 & H2 & R2 & G2).
      exists r2. cbn [read_map]. rewrite (bind_act_run _ _ _ _ _ H1), H2.
      rewrite put_absent by exact A. rewrite <- app_assoc.
      split; [reflexivity|]. split; [exact R2 | exact (grows_trans _ _ _ G1 G2)].
  Qed.

  Lemma fields_get fs ts : fields_conform conforms fs ts -> NoDup (keys fs) -> forall n u, In (n, u) fs ->
    exists t, get n ts = Some t /\ conforms u t.
  Proof.
    revert ts. induction fs as [|[n u] fs IH]; intros [|[m t] ts]; cbn [fields_conform]; try contradiction.
    - intros (<- & C & F) ND n' u' [E | I].
      + injection E as <- <-. exists t. cbn [get]. rewrite String.eqb_refl. auto.
      + unfold keys in ND. cbn [map fst] in ND. inversion ND as [|? ? NI ND']; subst.
        destruct (IH ts F ND' n' u' I) as (t' & G & C'). exists t'. split; [|exact C'].
        cbn [get]. destruct (String.eqb_spec n' n) as [->|ne]; [|exact G].
        exfalso. apply NI. change n with (fst (n, u')). apply in_map, I.
  Qed.

  Lemma carries_fields ts fs : Forall (fun e => carries (snd e)) fs ->
    (forall n u, In (n, u) fs -> exists t, get n ts = Some t /\ conforms u t) ->
    forall anc s r es s' before, NoDup (keys before ++ keys fs) ->
    incl (flat_map entry_sharing fs) occ -> below anc (nsum (map entry_size fs)) ->
    related anc s r -> each write_entry fs s = (Ok es, s') ->
    exists r', read_fields read ts es before r = (Ok (before ++ map entry_loaded fs), r') /\ related anc s' r' /\ grows s s'.
  Proof.
    induction 1 as [|[n u] m Cu _ IH]; intros F anc s r es s' before; cbn [each flat_map map nsum keys fst].
    - intros _ _ _ R E. injection E as <- <-. exists r. rewrite app_nil_r.
      split; [reflexivity|]. split; [exact R | apply grows_refl].
    - intros ND I B R E. inv_act E. inv_act E. injection E as <- <-.
      apply write_entry_ok in E0. destruct E0 as (j & -> & E0).
      destruct (F n u (or_introl eq_refl)) as (t & Gt & Cf).
      destruct (Cu t anc s r _ _ Cf (fun x Hx => I x (in_or_app _ _ _ (or_introl Hx)))
                  (below_le _ _ (vsize u) B ltac:(lia)) R E0) as (r1 & H1 & R1 & G1).
      cbn [snd] in H1.
      assert (A : get n before = None).
      { apply get_none. intros J. apply NoDup_remove_2 in ND. apply ND. apply in_or_app. left. exact J. }
      assert (ND' : NoDup (keys (put n (loaded u) before) ++ keys m)).
      { rewrite put_absent by exact A. unfold keys. rewrite map_app. cbn [map fst]. rewrite <- app_assoc. exact ND. }
      destruct (IH (fun n' u' Hin => F n' u' (or_intror Hin)) anc _ r1 _ _ (put n (loaded u) before) ND'
                  (fun x Hx => I x (in_or_app _ _ _ (or_intror Hx)))
                  (below_le _ _ (nsum (map entry_size m)) B ltac:(lia)) R1 E1) as (r2 & H2 & R2 & G2).
      exists r2. cbn [read_fields]. rewrite Gt. unfold contains. rewrite A.
      rewrite (bind_act_run _ _ _ _ _ H1), H2.
      rewrite put_absent by exact A. rewrite <- app_assoc.
      split; [reflexivity|]. split; [exact R2 | exact (grows_trans _ _ _ G1 G2)].
  Qed.

  Lemma assemble_conforming fs ts : fields_conform conforms fs ts -> forall seen,
    (forall n u, In (n, u) fs -> get n seen = Some (loaded u)) -> assemble ts seen = Ok (map entry_loaded fs).
  Proof.
    revert ts. induction fs as [|[n u] fs IH]; intros [|[m t] ts]; cbn [fields_conform]; try contradiction.
    - intros _ seen _. reflexivity.
    - intros (<- & C & F) seen H. cbn [assemble]. rewrite (H n u (or_introl eq_refl)).
      rewrite (IH ts F seen) by (intros; apply H; right; assumption). reflexivity.
  Qed.

  (** An object behind a [Drc] is written as a JSON object. *)
  Lemma content_object k u s j s' : conforms u (content k) -> write u s = (Ok j, s') -> exists es, j = JObj es.
  Proof.
    destruct k; cbn [content ty_currency]; destruct u as [| | | | | |?|fs|?|?|?|tr [tag|]|];
      cbn [conforms M_Serde.write]; try contradiction; intros C E; try discriminate; inv_act E; injection E as <- <-; eauto.
  Qed.

  Lemma read_shared_object k es r :
    read (JObj es) (TShared k) r = deserialize_with_dedup k (read (JObj es) (content k)) r.
  Proof. destruct k; reflexivity. Qed.

  Lemma carries_shared k u : carries u -> carries (VShared k u).
  Proof.
    intros Cu t anc s r j s'. destruct t; try contradiction. cbn [conforms M_Serde.write sharing vsize].
    intros [<- C] I B (Ss & Sr & A) E. unfold serialize_with_dedup in E.
    assert (Iu : In (k, u) occ) by (apply I; left; reflexivity). cbn [loaded].
    assert (Lu : loaded u = u) by (apply (occ_loaded k u Iu)).
    assert (Iin : incl (sharing u) occ) by (intros x Hx; apply I; right; exact Hx).
    assert (NA : forall w, In (k, w) anc -> ctl k <> Inline -> id_of w <> id_of u).
    { intros w Iw NI Eid. destruct (B k w Iw) as [Iw' L]. rewrite (occ_ids k w u NI Iw' Iu Eid) in L. lia. }
    destruct Ss as [Cs Gs]. destruct Sr as [Cr Gr].
    rewrite (Cs k) in E. destruct (ctl k) eqn:Ek.
    - (* ErrorIfMissing *)
      destruct (contains (id_of u) (dd_map (slot k s))) eqn:Hc; [|discriminate]. injection E as <- <-.
      unfold contains in Hc. destruct (get (id_of u) (dd_map (slot k s))) as [u'|] eqn:G; [|discriminate].
      assert (u' = u) as -> by (apply (Gs k u u'); [congruence | exact Iu | exact G]).
      rewrite (A k (id_of u)) in G by (intros w Iw; apply (NA w Iw); discriminate).
      exists r. cbn [read]. unfold deserialize_with_dedup. rewrite (Cr k), Ek, Lu.
      unfold bind_act, from_id. rewrite G. split; [reflexivity|].
      split; [split; [split; assumption | split; [split; assumption | exact A]] | apply grows_refl].
    - (* Inline *)
      destruct (content_object k u s j s' C E) as (es & ->).
      destruct (Cu (content k) anc s r _ _ C Iin (below_le _ _ (vsize u) B ltac:(lia))
                  (conj (conj Cs Gs) (conj (conj Cr Gr) A)) E) as (r1 & H1 & R1 & G1).
      exists r1. rewrite read_shared_object. unfold deserialize_with_dedup. rewrite (Cr k), Ek.
      rewrite (bind_act_run _ _ _ _ _ H1). split; [reflexivity|]. split; assumption.
    - (* WriteOnce *)
      assert (NI : ctl k <> Inline) by congruence.
      assert (S1 : sound (insert_shared k u s)) by (apply sound_insert; [exact Iu | split; assumption]).
      destruct (contains (id_of u) (dd_map (slot k s))) eqn:Hc; unfold contains in Hc.
      + injection E as <- <-.
        destruct (get (id_of u) (dd_map (slot k s))) as [u'|] eqn:G; [|discriminate].
        assert (u' = u) as -> by (apply (Gs k u u'); [exact NI | exact Iu | exact G]).
        pose proof G as G'. rewrite (A k (id_of u)) in G' by (intros w Iw; apply (NA w Iw); discriminate).
        exists (insert_shared k u r). cbn [read]. unfold deserialize_with_dedup. rewrite (Cr k), Ek, Lu.
        unfold bind_act, from_id. rewrite G'. split; [reflexivity|].
        split; [|apply grows_insert].
        split; [exact S1|]. split; [apply sound_insert; [exact Iu | split; assumption]|].
        intros k' id H. rewrite !insert_get. destruct (shared_dec k' k) as [->|n]; [|apply A, H].
        destruct (String.eqb id (id_of u)); [reflexivity | apply A, H].
      + destruct (content_object k u _ j s' C E) as (es & ->).
        assert (B' : below ((k, u) :: anc) (vsize u)).
        { intros k' w [Ew | Iw]; [injection Ew as <- <-; split; [exact Iu | lia]|].
          destruct (B k' w Iw) as [Iw' L]. split; [exact Iw' | lia]. }
        assert (A' : agree ((k, u) :: anc) (insert_shared k u s) r).
        { intros k' id H. rewrite insert_get. destruct (shared_dec k' k) as [->|n].
          - destruct (String.eqb_spec id (id_of u)) as [->|ne]; [exfalso; exact (H u (or_introl eq_refl) eq_refl)|].
            apply A. intros w Iw. apply H. right. exact Iw.
          - apply A. intros w Iw. apply H. right. exact Iw. }
        destruct (Cu (content k) ((k, u) :: anc) (insert_shared k u s) r _ s' C Iin B'
                    (conj S1 (conj (conj Cr Gr) A')) E) as (r1 & H1 & R1 & G1).
        destruct R1 as (S2 & S3 & A2).
        exists (insert_shared k u r1). rewrite read_shared_object. unfold deserialize_with_dedup. rewrite (Cr k), Ek.
        rewrite (bind_act_run _ _ _ _ _ H1), Lu. split; [reflexivity|].
        assert (Gw : get (id_of u) (dd_map (slot k s')) = Some u).
        { destruct (get (id_of u) (dd_map (slot k s'))) as [u'|] eqn:Gs'.
          - f_equal. apply (proj2 S2 k u u' NI Iu Gs').
          - exfalso. revert Gs'. apply G1. rewrite insert_get. destruct (shared_dec k k); [|congruence].
            rewrite String.eqb_refl. discriminate. }
        split; [|exact (grows_trans _ _ _ (grows_insert k u s) G1)].
        split; [exact S2|]. split; [apply sound_insert; assumption|].
        intros k' id H. rewrite insert_get. destruct (shared_dec k' k) as [->|n].
        * destruct (String.eqb_spec id (id_of u)) as [->|ne]; [exact Gw|].
          apply A2. intros w [Ew | Iw]; [injection Ew as <-; congruence | apply H, Iw].
        * apply A2. intros w [Ew | Iw]; [injection Ew as <- <-; congruence | apply H, Iw].
  Qed.

  Lemma carries_all v : carries v.
  Proof.
    induction v as [s0|x|z|b|d|n|n u IH|fs IH|l IH|l IH|m IH|tr id u IH|k u IH] using val_induction;
      try (intros t anc s r j s'; destruct t; cbn [conforms M_Serde.write sharing vsize]; try contradiction; intros C I B R E;
           try (match goal with o : option string |- _ => destruct o end; contradiction)).
    - injection E as <- <-. exists r. split; [reflexivity | split; [exact R | apply grows_refl]].
    - rewrite C in E. injection E as <- <-. exists r. split; [reflexivity | split; [exact R | apply grows_refl]].
    - injection E as <- <-. exists r. cbn [read]. unfold lift, read_int.
      destruct (Z.leb_spec (-2147483648) z); [|lia]. destruct (Z.leb_spec z 2147483647); [|lia].
      split; [reflexivity | split; [exact R | apply grows_refl]].
    - injection E as <- <-. exists r. cbn [read]. unfold lift, read_int.
      destruct (Z.leb_spec 0 z); [|lia]. destruct (Z.leb_spec z 18446744073709551615); [|lia].
      split; [reflexivity | split; [exact R | apply grows_refl]].
    - injection E as <- <-. exists r. split; [reflexivity | split; [exact R | apply grows_refl]].
    - injection E as <- <-. exists r. cbn [read]. unfold lift. rewrite text_round_trip by (apply is_valid_iff; exact C).
      split; [reflexivity | split; [exact R | apply grows_refl]].
    - injection E as <- <-. exists r. cbn [read]. rewrite C. split; [reflexivity | split; [exact R | apply grows_refl]].
    - destruct C as (t' & Gt & C). inv_act E. injection E as <- <-.
      destruct (IH t' anc s r _ _ C I (below_le _ _ (vsize u) B ltac:(lia)) R E0) as (r1 & H1 & R1 & G1).
      exists r1. cbn [read]. rewrite Gt, (bind_act_run _ _ _ _ _ H1). auto.
    - destruct C as (ND & F). inv_act E. injection E as <- <-.
      destruct (carries_fields fields fs IH (fields_get fs fields F ND) anc s r _ _ [] ND I
                  (below_le _ _ _ B (Nat.le_succ_diag_r _)) R E0) as (r1 & H1 & R1 & G1).
      exists r1. cbn [read]. rewrite (bind_act_run _ _ _ _ _ H1). cbn [app].
      rewrite (bind_act_run _ _ _ (map entry_loaded fs) r1).
      + auto.
      + unfold lift. rewrite (assemble_conforming fs fields F (map entry_loaded fs)); [reflexivity|].
        intros n u Hin. apply get_in_nodup.
        * unfold keys. rewrite map_map. rewrite (map_ext _ fst); [exact ND | intros [? ?]; reflexivity].
        * exact (in_map entry_loaded fs (n, u) Hin).
    - inv_act E. injection E as <- <-.
      destruct (carries_tuple l IH l0 anc s r _ _ C I (below_le _ _ _ B (Nat.le_succ_diag_r _)) R E0) as (r1 & H1 & R1 & G1).
      exists r1. cbn [read]. rewrite (bind_act_run _ _ _ _ _ H1). auto.
    - inv_act E. injection E as <- <-.
      destruct (carries_vec l IH t anc s r _ _ C I (below_le _ _ _ B (Nat.le_succ_diag_r _)) R E0) as (r1 & H1 & R1 & G1).
      exists r1. cbn [read]. rewrite (bind_act_run _ _ _ _ _ H1). auto.
    - destruct C as (ND & F). inv_act E. injection E as <- <-.
      destruct (carries_map m IH t anc s r _ _ [] F ND I (below_le _ _ _ B (Nat.le_succ_diag_r _)) R E0) as (r1 & H1 & R1 & G1).
      exists r1. cbn [read]. rewrite (bind_act_run _ _ _ _ _ H1). auto.
    - destruct id as [tag|]; [|discriminate]. destruct C as (<- & tag' & t' & Rt & Gt & C). inv_act E. injection E as <- <-.
      assert (tag' = tag) as ->.
      { destruct Rt as [Rt|Rt]; [congruence|]. unfold read_type_id in Rt. destruct tr; try congruence.
        destruct (String.eqb tag' _); congruence. }
      destruct (IH t' anc s r _ _ C I (below_le _ _ (vsize u) B ltac:(lia)) R E0) as (r1 & H1 & R1 & G1).
      exists r1. cbn [read]. rewrite Gt, (bind_act_run _ _ _ _ _ H1). auto.
    - exact (carries_shared k u IH (TShared k0) anc s r j s' C I B R E).
  Qed.
End RoundTrip.

(** What is written can be read back under the same controls and tables, and leaves the reader with the same tables. *)
Lemma serde_round_trip {T} {N : Num T} finite t v (s : tls T) j s' :
  conforms finite v t -> (forall k u, In (k, u) (sharing v) -> loaded u = u) ->
  ids_identify s v -> write finite v s = (Ok j, s') ->
  exists s'', read j t s = (Ok (loaded v), s'') /\ same_state s' s''.
Proof.
  intros C L I E.
  assert (O : forall k u u', dd_control (slot k s) <> Inline -> In (k, u) (sharing v) -> In (k, u') (sharing v) ->
                id_of u = id_of u' -> u = u') by (intros k u u' NI Iu; apply (I k u u' NI Iu)).
  assert (S : sound (sharing v) (fun k => dd_control (slot k s)) s).
  { split; [reflexivity|]. intros k u u' NI Iu. apply (I k u u' NI Iu). }
  assert (B : below (sharing v) (@nil (shared * val T)) (vsize v)) by (intros k u Hin; destruct Hin).
  assert (R : related (sharing v) (fun k => dd_control (slot k s)) [] s s)
    by (split; [exact S|]; split; [exact S|]; intros k id _; reflexivity).
  destruct (carries_all finite (sharing v) (fun k => dd_control (slot k s)) O L v t [] s s j s' C (incl_refl _) B R E)
    as (r & H & (Ss & Sr & A) & _).
  exists r. split; [exact H|]. intros k. split.
  - rewrite (proj1 Ss k), (proj1 Sr k). reflexivity.
  - intros id. apply A. intros u [].
Qed.
