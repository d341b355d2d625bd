(** Proofs: volatility surfaces and market data as serialisation sees them; writing succeeds. *)
From Coq Require Import ZArith List String Bool Lia.
From Verif Require Import Prelude Num M_Dates M_Calendar M_Interp M_Curves M_Fixings M_Forward M_Vol M_Black76 M_Instruments
  M_Risk M_Reports M_Schema M_Serde M_Objects S_Serde S_Objects L_Fixings L_Serde L_Objects.
Import ListNotations.
Open Scope string_scope.
Open Scope list_scope.

Section Market.
  Context {T : Type} {N : Num T} {TR : Trans T}.
  Variable finite : T -> bool.
  Variable nan : T.
  Notation fits := (fits finite).

  Definition stored (v : val T) (t : ty) : Prop := conforms finite v t /\ sharing v = [].
  Lemma fits_stored v t : fits v t -> stored v t.
  Proof. intros (C & S & _). split; assumption. Qed.
  Inductive stored_fields : list (string * val T) -> list (string * ty) -> Prop :=
  | stored_none : stored_fields [] []
  | stored_more n v t fs ts : stored v t -> stored_fields fs ts -> stored_fields ((n, v) :: fs) ((n, t) :: ts).
  Lemma stored_struct flat fs ts : NoDup (keys ts) -> stored_fields fs ts -> stored (VStruct fs) (TStruct flat ts).
  Proof.
    intros ND H.
    assert (K : keys fs = keys ts /\ fields_conform (conforms finite) fs ts /\
                flat_map (fun e : string * val T => match e with (_, u) => sharing u end) fs = []).
    { clear ND. induction H as [|n v t fs ts (C & S) _ (Kk & Kc & Ks)]; [repeat split|].
      unfold keys in *. cbn [map fst flat_map fields_conform]. rewrite Kk, S, Ks. auto. }
    destruct K as (Kk & Kc & Ks). split; [cbn [conforms]; rewrite Kk; auto | exact Ks].
  Qed.
  Lemma stored_tagged tr tag v t : get tag (registry tr) = Some t -> stored v t -> stored (VTagged tr (Some tag) v) (TTagged tr).
  Proof. intros G (C & S). split; [|exact S]. cbn [conforms]. split; [reflexivity|]. exists tag, t. auto. Qed.
  Lemma stored_map {A} (f : A -> val T) t m : NoDup (keys m) -> (forall n a, In (n, a) m -> stored (f a) t) ->
    stored (val_of_map f m) (TMap t).
  Proof.
    intros ND H. unfold val_of_map. split.
    - cbn [conforms]. split.
      + unfold keys in *. rewrite map_map. rewrite (map_ext _ fst); [exact ND | intros [? ?]; reflexivity].
      + apply every_map, Forall_forall. intros [n a] I. exact (proj1 (H n a I)).
    - cbn [sharing]. apply flat_map_nil. intros v I. apply in_map_iff in I. destruct I as ([n a] & <- & I). apply (H n a I).
  Qed.
  Ltac fields := repeat (apply stored_more; [|]); [..|apply stored_none].

  Lemma fits_spline m : storable_spline finite m -> fits (val_of_smile m) ty_spline_smile.
  Proof.
    destruct m as [|sp]; cbn [storable_spline]; [contradiction|]. intros [F _].
    apply fits_struct; [distinct|]. apply fits_more; [|apply fits_none]. apply fits_points.
    intros x y I. rewrite Forall_forall in F. destruct (F _ I). split; [apply fits_num; assumption | assumption].
  Qed.
  Lemma back_spline m : storable_spline finite m -> smile_of_val (val_of_smile m) = Ok m.
  Proof.
    destruct m as [|sp]; cbn [storable_spline]; [contradiction|]. intros [_ L].
    unfold val_of_smile, smile_of_val. unfold val_of_points at 1. fold (val_of_points (T := T) VNum (sp_left sp) (sp_right sp) (sp_points sp)).
    rewrite back_points by reflexivity. cbn [bind]. rewrite L. reflexivity.
  Qed.

  (** A surface by probability that its constructor made has a smile. *)
  Lemma not_all_flat (p : vol_by_probability T) :
    Forall (fun s => storable_ddf finite (fst s) /\ storable_spline finite (snd s)) (vbp_smiles p) ->
    vbp_new nan (vbp_smiles p) (vbp_calendar p) (vbp_base p) (vbp_forward p) (vbp_fixed_divs p) (vbp_assumptions p) = Ok p ->
    forallb (fun s => is_flat_smile (snd s)) (vbp_smiles p) = false.
  Proof.
    intros F E. destruct (vbp_smiles p) as [|[d m] l] eqn:L; [discriminate E|].
    inversion F as [|? ? [_ Hm] _]; subst. cbn [fst snd] in *. cbn [forallb snd]. destruct m; [destruct Hm|]. reflexivity.
  Qed.

  Lemma stored_vol v : storable_vol finite nan v -> stored (val_of_vol v) (TTagged TrVolSurface).
  Proof.
    induction v as [vol cal base|p|b IH x base|b IH x base|b IH x|b IH x f|b IH fwd]; cbn [storable_vol val_of_vol];
      [intros H|intros H|intros H|intros H|intros H|intros H|contradiction].
    - destruct H as (Hv & Hc & Hb). eapply stored_tagged; [reflexivity|]. apply stored_struct; [distinct|].
      fields; apply fits_stored; [apply fits_num, Hv | apply fits_calendar, Hc | apply fits_ddf, Hb].
    - destruct H as (Hs & Hc & Hb & Hf & Hd & E). rewrite (not_all_flat p Hs E).
      eapply stored_tagged; [reflexivity|]. apply stored_struct; [distinct|]. fields; apply fits_stored.
      + apply fits_vec. intros [d m] I. rewrite Forall_forall in Hs. destruct (Hs _ I) as [Hd' Hm].
        apply fits_tuple2; [apply fits_ddf, Hd' | apply fits_spline, Hm].
      + apply fits_calendar, Hc.
      + apply fits_ddf, Hb.
      + apply fits_linear, Hf.
      + apply fits_linear, Hd.
      + apply fits_unit. destruct (vbp_assumptions p); cbn; auto.
    - destruct H as (Hv & Hx & Hb). eapply stored_tagged; [reflexivity|]. apply stored_struct; [distinct|].
      fields; [apply IH, Hv | apply fits_stored, fits_num, Hx | apply fits_stored, fits_ddf, Hb].
    - destruct H as (Hv & Hx & Hb). eapply stored_tagged; [reflexivity|]. apply stored_struct; [distinct|].
      fields; [apply IH, Hv | apply fits_stored, fits_num, Hx | apply fits_stored, fits_ddf, Hb].
    - destruct H as (Hv & Hx). eapply stored_tagged; [reflexivity|]. apply stored_struct; [distinct|].
      fields; [apply IH, Hv | apply fits_stored, fits_num, Hx].
    - destruct H as (Hv & Hx & Hf). eapply stored_tagged; [reflexivity|]. apply stored_struct; [distinct|].
      fields; [apply IH, Hv | apply fits_stored, fits_num, Hx | apply fits_stored, fits_num, Hf].
  Qed.

  Lemma loaded_ddf (d : ddf T) : loaded (val_of_ddf d) = val_of_ddf d.
  Proof. reflexivity. Qed.

  Lemma loaded_tagged tr tag (v : val T) : exists o, loaded (VTagged tr tag v) = VTagged tr o (loaded v).
  Proof. destruct tag; cbn [loaded]; eauto. Qed.
  Lemma vol_tagged (v : vol_surface T) : exists o u, loaded (val_of_vol v) = VTagged TrVolSurface o u.
  Proof.
    assert (exists o u, val_of_vol v = VTagged TrVolSurface o u) as (o & u & ->) by (destruct v; cbn [val_of_vol]; eauto).
    destruct (loaded_tagged TrVolSurface o u) as (o' & ->). eauto.
  Qed.

  Notation outer tag fs := (VTagged TrVolSurface (Some tag) (VStruct fs)).
  Lemma vol_constant tr o u x (base : ddf T) : vol_of_val nan (outer "ConstantExpiryTimeEvolution"
      [("base_vol", VTagged tr o u); ("vol_time_offset", VNum x); ("base_date", val_of_ddf base)]) =
    let* b := vol_of_val nan (VTagged tr o u) in Ok (ConstantExpiry b x (mkDDF (ddf_date base) (ddf_frac base))).
  Proof. reflexivity. Qed.
  Lemma vol_rolling tr o u x (base : ddf T) : vol_of_val nan (outer "RollingExpiryTimeEvolution"
      [("base_vol", VTagged tr o u); ("vol_time_offset", VNum x); ("base_date", val_of_ddf base)]) =
    let* b := vol_of_val nan (VTagged tr o u) in Ok (RollingExpiry b x (mkDDF (ddf_date base) (ddf_frac base))).
  Proof. reflexivity. Qed.
  Lemma vol_parallel tr o u x : vol_of_val nan (outer "ParallelBumpVol" [("base_vol", VTagged tr o u); ("bump", VNum x)]) =
    let* b := vol_of_val nan (VTagged tr o u) in Ok (ParallelBumpVol b x).
  Proof. reflexivity. Qed.
  Lemma vol_scaled tr o u x f : vol_of_val nan (outer "TimeScaledBumpVol"
      [("base_vol", VTagged tr o u); ("bump", VNum x); ("vol_time_floor", VNum f)]) =
    let* b := vol_of_val nan (VTagged tr o u) in Ok (TimeScaledBumpVol b x f).
  Proof. reflexivity. Qed.

  Lemma back_vol v : storable_vol finite nan v -> vol_of_val nan (loaded (val_of_vol v)) = Ok v.
  Proof.
    induction v as [vol cal base|p|b IH x base|b IH x base|b IH x|b IH x f|b IH fwd]; cbn [storable_vol val_of_vol];
      [intros H|intros H|intros H|intros H|intros H|intros H|contradiction].
    - destruct H as (Hv & Hc & Hb). cbn [loaded map]. rewrite (proj2 (proj2 (fits_calendar finite cal Hc))), loaded_ddf.
      cbn [vol_of_val]. rewrite back_calendar, back_ddf. destruct (calendar_tagged cal) as (tg & u & ->). reflexivity.
    - destruct H as (Hs & Hc & Hb & Hf & Hd & E). rewrite (not_all_flat p Hs E). cbn [loaded map].
      rewrite (proj2 (proj2 (fits_calendar finite _ Hc))), loaded_ddf, (proj2 (proj2 (fits_linear finite _ Hf))),
        (proj2 (proj2 (fits_linear finite _ Hd))).
      rewrite (map_id_on loaded (map _ _)).
      + cbn [vol_of_val]. rewrite mapM_back.
        * cbn [bind]. rewrite back_calendar, back_ddf, !back_linear. cbn [bind].
          assert (A : assumptions_of_name (assumptions_name (vbp_assumptions p)) = Ok (vbp_assumptions p))
            by (destruct (vbp_assumptions p); reflexivity).
          rewrite A. cbn [bind]. rewrite E. destruct (calendar_tagged (vbp_calendar p)) as (tg & u & ->). reflexivity.
        * intros [d m] I. rewrite Forall_forall in Hs. destruct (Hs _ I) as [Hd' Hm]. cbn [snd] in Hm.
          rewrite back_ddf, back_spline by exact Hm. reflexivity.
      + intros u I. apply in_map_iff in I. destruct I as ([d m] & <- & I). rewrite Forall_forall in Hs.
        destruct (Hs _ I) as [Hd' Hm]. cbn [snd] in Hm. cbn [loaded map].
        rewrite loaded_ddf, (proj2 (proj2 (fits_spline m Hm))). reflexivity.
    - destruct H as (Hv & Hx & Hb). specialize (IH Hv). destruct (vol_tagged b) as (o & u & Eb). rewrite Eb in IH.
      cbn [loaded map]. rewrite Eb, loaded_ddf. rewrite vol_constant, IH. destruct base; reflexivity.
    - destruct H as (Hv & Hx & Hb). specialize (IH Hv). destruct (vol_tagged b) as (o & u & Eb). rewrite Eb in IH.
      cbn [loaded map]. rewrite Eb, loaded_ddf. rewrite vol_rolling, IH. destruct base; reflexivity.
    - destruct H as (Hv & Hx). specialize (IH Hv). destruct (vol_tagged b) as (o & u & Eb). rewrite Eb in IH.
      cbn [loaded map]. rewrite Eb. rewrite vol_parallel, IH. reflexivity.
    - destruct H as (Hv & Hx & Hf). specialize (IH Hv). destruct (vol_tagged b) as (o & u & Eb). rewrite Eb in IH.
      cbn [loaded map]. rewrite Eb. rewrite vol_scaled, IH. reflexivity.
  Qed.

  Lemma stored_market md : storable_market finite nan md -> stored (val_of_market md) ty_market_data.
  Proof.
    intros (H1 & H2 & H3 & H4 & H5 & H6 & H7). apply stored_struct; [distinct|]. fields.
    - apply fits_stored, fits_date, H1.
    - apply fits_stored, (fits_storable_map finite _ _ _ _ H2), fits_num.
    - apply fits_stored, (fits_storable_map finite _ _ _ _ H3), fits_curve.
    - apply fits_stored, (fits_storable_map finite _ _ _ _ H4), fits_curve.
    - apply fits_stored, (fits_storable_map finite _ _ _ _ H5), fits_stream.
    - apply stored_map; [exact H6|]. intros n v I. apply stored_vol. rewrite Forall_forall in H7. exact (H7 _ I).
  Qed.

  Lemma back_market md : storable_market finite nan md -> market_of_val nan (loaded (val_of_market md)) = Ok md.
  Proof.
    intros (H1 & H2 & H3 & H4 & H5 & H6 & H7). unfold val_of_market. cbn [loaded map].
    pose proof (fits_storable_map finite VNum _ TF64 _ H2 (fits_num finite)) as (_ & _ & L2).
    pose proof (fits_storable_map finite _ _ _ _ H3 (fits_curve finite)) as (_ & _ & L3).
    pose proof (fits_storable_map finite _ _ _ _ H4 (fits_curve finite)) as (_ & _ & L4).
    pose proof (fits_storable_map finite _ _ _ _ H5 (fits_stream finite)) as (_ & _ & L5).
    rewrite L2, L3, L4, L5. cbn [market_of_val].
    rewrite back_map by reflexivity. cbn [bind]. rewrite back_map by (intros; apply back_curve). cbn [bind].
    rewrite back_map by (intros; apply back_curve). cbn [bind]. rewrite back_map by (intros; apply back_stream). cbn [bind].
    unfold val_of_map. cbn [loaded]. rewrite map_map.
    rewrite (map_ext _ (fun e : string * vol_surface T => match e with (n, v) => (n, loaded (val_of_vol v)) end))
      by (intros [? ?]; reflexivity).
    change (VMap (map (fun e : string * vol_surface T => match e with (n, v) => (n, loaded (val_of_vol v)) end) (md_vols md)))
      with (val_of_map (fun v => loaded (val_of_vol v)) (md_vols md)).
    rewrite back_map; [destruct md; reflexivity|].
    intros n v I. apply back_vol. rewrite Forall_forall in H7. exact (H7 _ I).
  Qed.
End Market.

(** ** Writing succeeds *)

Section Succeeds.
  Context {T : Type} {N : Num T}.
  Variable finite : T -> bool.
  Notation write := (write finite).

  (** [s'] has the controls of [s] and at least its objects. *)
  Definition extends (s s' : tls T) : Prop :=
    forall k, dd_control (slot k s') = dd_control (slot k s) /\
      forall id, contains id (dd_map (slot k s)) = true -> contains id (dd_map (slot k s')) = true.

  (** Can name its types, and what must be in the tables is. *)
  Fixpoint named (v : val T) : Prop :=
    match v with
    | VTagged _ o u => o <> None /\ named u
    | VVariant _ u | VShared _ u => named u
    | VStruct fs | VMap fs => every (fun e => match e with (_, u) => named u end) fs
    | VTuple l | VVec l => every named l
    | _ => True
    end.

  Lemma extends_refl s : extends s s.
  Proof. intros k. auto. Qed.
  Lemma extends_trans s1 s2 s3 : extends s1 s2 -> extends s2 s3 -> extends s1 s3.
  Proof.
    intros A B k. destruct (A k) as [A1 A2]. destruct (B k) as [B1 B2]. split; [congruence | auto].
  Qed.
  Lemma extends_insert k v (s : tls T) : extends s (insert_shared k v s).
  Proof.
    intros k'. split; [apply insert_control|]. intros id. unfold contains. rewrite insert_get.
    destruct (shared_dec k' k) as [->|]; [|auto]. destruct (String.eqb id (id_of v)); auto.
  Qed.

  Definition supplies (s : tls T) (occ : list (shared * val T)) : Prop :=
    forall k u, In (k, u) occ -> dd_control (slot k s) = ErrorIfMissing -> contains (id_of u) (dd_map (slot k s)) = true.

  Lemma supplies_extends s s' occ : extends s s' -> supplies s occ -> supplies s' occ.
  Proof. intros E S k u I C. destruct (E k) as [E1 E2]. apply E2, (S k u I). congruence. Qed.

  Definition writes (v : val T) : Prop := forall s, named v -> supplies s (sharing v) ->
    exists j s', write v s = (Ok j, s') /\ extends s s'.

  Lemma writes_list l : Forall writes l -> forall s, every named l -> supplies s (flat_map sharing l) ->
    exists js s', each write l s = (Ok js, s') /\ extends s s'.
  Proof.
    induction 1 as [|u l Hu _ IH]; intros s Nm S; cbn [each every flat_map] in *.
    - exists [], s. split; [reflexivity | apply extends_refl].
    - destruct Nm as [Nu Nl].
      destruct (Hu s Nu (fun k w I => S k w (in_or_app _ _ _ (or_introl I)))) as (j & s1 & E1 & X1).
      destruct (IH s1 Nl (supplies_extends _ _ _ X1 (fun k w I => S k w (in_or_app _ _ _ (or_intror I))))) as (js & s2 & E2 & X2).
      exists (j :: js), s2. rewrite (bind_act_run _ _ _ _ _ E1), (bind_act_run _ _ _ _ _ E2).
      split; [reflexivity | exact (extends_trans _ _ _ X1 X2)].
  Qed.

  Lemma writes_fields (fs : list (string * val T)) : Forall (fun e => writes (snd e)) fs -> forall s,
    every (fun e : string * val T => match e with (_, u) => named u end) fs ->
    supplies s (flat_map (fun e : string * val T => match e with (_, u) => sharing u end) fs) ->
    exists es s', each (fun e : string * val T => match e with (n, u) => let! j := write u in ret (n, j) end) fs s = (Ok es, s') /\
                  extends s s'.
  Proof.
    induction 1 as [|[n u] l Hu _ IH]; intros s Nm S; cbn [each every flat_map snd] in *.
    - exists [], s. split; [reflexivity | apply extends_refl].
    - destruct Nm as [Nu Nl].
      destruct (Hu s Nu (fun k w I => S k w (in_or_app _ _ _ (or_introl I)))) as (j & s1 & E1 & X1).
      destruct (IH s1 Nl (supplies_extends _ _ _ X1 (fun k w I => S k w (in_or_app _ _ _ (or_intror I))))) as (js & s2 & E2 & X2).
      exists ((n, j) :: js), s2.
      assert (E1' : (let! j := write u in ret (n, j)) s = (Ok (n, j), s1)) by (rewrite (bind_act_run _ _ _ _ _ E1); reflexivity).
      rewrite (bind_act_run _ _ _ _ _ E1'), (bind_act_run _ _ _ _ _ E2).
      split; [reflexivity | exact (extends_trans _ _ _ X1 X2)].
  Qed.

  Lemma writes_all v : writes v.
  Proof.
    induction v as [s0|x|z|b|d|n|n u IH|fs IH|l IH|l IH|m IH|tr id u IH|k u IH] using val_induction; intros s Nm S;
      cbn [M_Serde.write named sharing] in *;
      try (eexists; eexists; split; [reflexivity | apply extends_refl]).
    - destruct (IH s Nm S) as (j & s' & E & X). rewrite (bind_act_run _ _ _ _ _ E). eexists; eexists; split; [reflexivity | exact X].
    - destruct (writes_fields fs IH s Nm S) as (j & s' & E & X). rewrite (bind_act_run _ _ _ _ _ E).
      eexists; eexists; split; [reflexivity | exact X].
    - destruct (writes_list l IH s Nm S) as (j & s' & E & X). rewrite (bind_act_run _ _ _ _ _ E).
      eexists; eexists; split; [reflexivity | exact X].
    - destruct (writes_list l IH s Nm S) as (j & s' & E & X). rewrite (bind_act_run _ _ _ _ _ E).
      eexists; eexists; split; [reflexivity | exact X].
    - destruct (writes_fields m IH s Nm S) as (j & s' & E & X). rewrite (bind_act_run _ _ _ _ _ E).
      eexists; eexists; split; [reflexivity | exact X].
    - destruct Nm as [No Nu]. destruct id as [tag|]; [|congruence].
      destruct (IH s Nu S) as (j & s' & E & X). rewrite (bind_act_run _ _ _ _ _ E). eexists; eexists; split; [reflexivity | exact X].
    - unfold serialize_with_dedup. destruct (dd_control (slot k s)) eqn:C.
      + rewrite (S k u (or_introl eq_refl) C). eexists; eexists; split; [reflexivity | apply extends_refl].
      + destruct (IH s Nm (fun k' w I => S k' w (or_intror I))) as (j & s' & E & X). exists j, s'. auto.
      + destruct (contains (id_of u) (dd_map (slot k s))); [eexists; eexists; split; [reflexivity | apply extends_insert]|].
        destruct (IH (insert_shared k u s) Nm) as (j & s' & E & X).
        * apply (supplies_extends s); [apply extends_insert|]. intros k' w I. apply S. right. exact I.
        * exists j, s'. split; [exact E | exact (extends_trans _ _ _ (extends_insert k u s) X)].
  Qed.
End Succeeds.
