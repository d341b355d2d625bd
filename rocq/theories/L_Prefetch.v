(** Lemmas about the prefetching context: its cache never goes stale, and restoring it undoes disciplined bumps. *)
From Coq Require Import ZArith List String Bool.
From Verif Require Import Prelude Num M_Dates M_Calendar M_Curves M_Fixings M_Forward M_Vol M_Instruments M_Deps M_Risk
  S_Deps S_Risk L_Fixings L_Deps L_Risk.
Import ListNotations.
Open Scope list_scope.

Section Maps.
  Context {A B : Type}.

  Lemma get_in k (m : smap A) x : get k m = Some x -> In (k, x) m.
  Proof.
    induction m as [|[k' y] m IH]; cbn [get]; [discriminate|]. destruct (String.eqb_spec k k') as [->|D].
    - intros [= ->]. now left.
    - intros Q. right. auto.
  Qed.

  Lemma in_get k (m : smap A) x : NoDup (keys m) -> In (k, x) m -> get k m = Some x.
  Proof.
    unfold keys. induction m as [|[k' y] m IH]; cbn [get map fst]; intros ND I; [destruct I|].
    inversion ND as [|? ? N1 N2]; subst. destruct I as [E|I].
    - injection E as -> ->. now rewrite String.eqb_refl.
    - destruct (String.eqb_spec k k') as [->|D]; [|auto]. exfalso. apply N1. now apply (in_map fst) in I.
  Qed.

  Lemma nodup_filter (q : string * A -> bool) (m : smap A) : NoDup (keys m) -> NoDup (keys (filter q m)).
  Proof.
    unfold keys. induction m as [|a m IH]; cbn; [auto|]. intros ND. inversion ND as [|? ? N1 N2]; subst.
    destruct (q a); cbn; [constructor|]; auto.
    intros I. apply N1. apply in_map_iff in I. destruct I as (y & Q & I). apply filter_In in I. rewrite <- Q. now apply in_map.
  Qed.

  (** Two lists related entry by entry, one of which gets a new value for a key. *)
  Variables R R' : string * A -> string * B -> Prop.

  Lemma forall2_keys (l : smap A) (m : smap B) : (forall a b, R a b -> fst b = fst a) -> Forall2 R l m -> keys m = keys l.
  Proof. intros K F. unfold keys. induction F; [reflexivity|]. cbn. f_equal; auto. Qed.

  Lemma forall2_weaken (l : smap A) (m : smap B) : (forall a b, In a l -> R a b -> R' a b) -> Forall2 R l m -> Forall2 R' l m.
  Proof.
    intros W F. induction F; constructor; [apply W; [now left|assumption]|]. apply IHF. intros a b I. apply W. now right.
  Qed.

  Lemma forall2_put k v (l : smap A) (m : smap B) : NoDup (keys l) -> (forall a b, R a b -> fst b = fst a) ->
    (forall a b, In a l -> fst a <> k -> R a b -> R' a b) -> (forall a, In a l -> fst a = k -> R' a (k, v)) ->
    get k m <> None -> Forall2 R l m -> Forall2 R' l (put k v m).
  Proof.
    intros ND K O S G F. revert ND O S G. induction F as [|[ka a] [kb b] l m RAB F IH]; intros ND O S G; [cbn in G; congruence|].
    pose proof (K _ _ RAB) as E. cbn [fst] in E. subst kb. unfold keys in ND. cbn [map fst] in ND. inversion ND; subst.
    cbn [get put] in *. destruct (String.eqb_spec k ka) as [->|D].
    - constructor; [apply S; [now left|reflexivity]|].
      assert (O' : forall x y, In x l -> R x y -> R' x y).
      { intros x y I. apply O; [now right|]. intros Q. apply H1. rewrite <- Q. now apply (in_map fst). }
      clear - F O'. induction F; constructor; [apply O'; [now left|assumption]|]. apply IHF. intros a b I. apply O'. now right.
    - constructor; [apply O; [now left| |exact RAB]; cbn; congruence|]. apply IH; auto.
      + intros x y I. apply O. now right.
      + intros x I. apply S. now right.
  Qed.
End Maps.

Section Cache.
  Context {T : Type} {N : Num T} {TR : Trans T}.
  Variable nan : T.
  Implicit Types md : market_data T.
  Implicit Types deps : collector T.
  Implicit Types p : prefetch T.
  Implicit Types u : instrument T.

  (** No dynamics in use looks at the forward. *)
  Lemma vol_surface_forward md u h f g : md_vol_surface nan md u h f = md_vol_surface nan md u h g.
  Proof. reflexivity. Qed.

  Definition forward_entry md (a : string * (instrument T * date)) (b : string * forward T) : Prop :=
    fst b = fst a /\ md_forward_curve nan md (fst (snd a)) (snd (snd a)) = Ok (snd b).
  Definition vol_entry md deps (a : string * (instrument T * date)) (b : string * vol_surface T) : Prop :=
    fst b = fst a /\ exists h, vol_surface_hwm (fst (snd a)) deps = Some h /\ md_vol_surface nan md (fst (snd a)) h (Err "") = Ok (snd b).
  Definition has_vol deps (a : string * (instrument T * date)) : bool :=
    match vol_surface_hwm (fst (snd a)) deps with Some _ => true | None => false end.
  Definition own_key (a : string * (instrument T * date)) : Prop := instrument_id (fst (snd a)) = fst a.

  Lemma walk_char md deps todo : forall F0 V0, NoDup (keys todo) -> Forall own_key todo ->
    (forall k, In k (keys todo) -> get k F0 = None /\ get k V0 = None) ->
    forall F1 V1, walk_loop nan md deps todo F0 V0 = (Ok tt, F1, V1) <->
    exists F V, F1 = F0 ++ F /\ V1 = V0 ++ V /\ Forall2 (forward_entry md) todo F /\ Forall2 (vol_entry md deps) (filter (has_vol deps) todo) V.
  Proof.
    induction todo as [|[k [u h]] todo IH]; intros F0 V0 ND OK Fr F1 V1; cbn [walk_loop filter].
    - split.
      + intros [= <- <-]. exists [], []. rewrite !app_nil_r. repeat split; constructor.
      + intros (F & V & -> & -> & HF & HV). inversion HF; inversion HV; subst. now rewrite !app_nil_r.
    - inversion OK as [|? ? O1 O2]; subst. unfold own_key in O1. cbn [fst snd] in O1.
      unfold keys in ND. cbn [map fst] in ND. inversion ND as [|? ? N1 N2]; subst.
      destruct (Fr (instrument_id u) ltac:(now left)) as (G1 & G2).
      assert (Fresh : forall (C : Type) (x : C) (m : smap C) k', In k' (keys todo) -> get k' m = None -> get k' (m ++ [(instrument_id u, x)]) = None).
      { intros C x m k' I Q. apply get_none_in. unfold keys. rewrite map_app, in_app_iff. cbn. apply get_none_in in Q.
        intros [J|[J|[]]]; [auto|]. subst k'. auto. }
      unfold has_vol. cbn [fst snd]. destruct (md_forward_curve nan md u h) as [fwd|m|m] eqn:EF.
      2,3: split; [discriminate|]; intros (F & V & _ & _ & HF & _); inversion HF as [|? ? ? ? (_ & Q)]; subst; cbn [fst snd] in Q; congruence.
      destruct (vol_surface_hwm u deps) as [vh|] eqn:EV.
      + rewrite (vol_surface_forward md u vh (Ok fwd) (Err ""%string)).
        destruct (md_vol_surface nan md u vh (Err "")) as [vol|m|m] eqn:EVS.
        2,3: split; [discriminate|]; intros (F & V & _ & _ & _ & HV); inversion HV as [|? ? ? ? (_ & h' & Q1 & Q2)]; subst; cbn [fst snd] in Q1, Q2; congruence.
        rewrite !put_new by assumption. rewrite IH; [|exact N2|exact O2|].
        2: { intros k' I. destruct (Fr k' ltac:(now right)). split; apply Fresh; auto. }
        split.
        * intros (F & V & -> & -> & HF & HV). exists ((instrument_id u, fwd) :: F), ((instrument_id u, vol) :: V).
          rewrite <- !app_assoc. repeat split; constructor; auto; split; auto. exists vh. split; auto.
        * intros (F & V & -> & -> & HF & HV). inversion HF as [|? [k1 f1] ? F' (A1 & A2) A3]; inversion HV as [|? [k2 v2] ? V' (B1 & h' & B2 & B3) B4]; subst.
          cbn [fst snd] in *.
          assert (h' = vh) as -> by congruence. exists F', V'. rewrite <- !app_assoc. cbn.
          assert (f1 = fwd) as -> by congruence. assert (v2 = vol) as -> by congruence. subst k1 k2. auto.
      + rewrite !put_new by assumption. rewrite IH; [|exact N2|exact O2|].
        2: { intros k' I. destruct (Fr k' ltac:(now right)). split; [apply Fresh|]; auto. }
        split.
        * intros (F & V & -> & -> & HF & HV). exists ((instrument_id u, fwd) :: F), V.
          rewrite <- !app_assoc. repeat split; auto. constructor; auto; split; auto.
        * intros (F & V & -> & -> & HF & HV). inversion HF as [|? [k1 f1] ? F' (A1 & A2) A3]; subst.
          cbn [fst snd] in *. exists F', V. rewrite <- !app_assoc. cbn. assert (f1 = fwd) as -> by congruence. subst k1. auto.
  Qed.

  (** What the cache relies on about the dependencies. *)
  Record tidy deps : Prop := {
    td_once : NoDup (keys (col_forward_curves deps));
    td_own : Forall own_key (col_forward_curves deps);
    td_same : forall k u h u', In (k, (u, h)) (col_forward_curves deps) -> instrument_by_id k deps = Some u' -> u' = u;
    td_ids : forall k u h, In (k, (u, h)) (col_forward_curves deps) -> In k (forward_ids_of (credit_id u) deps)
  }.

  Definition up_to_date md deps (F : smap (forward T)) (V : smap (vol_surface T)) : Prop :=
    Forall2 (forward_entry md) (col_forward_curves deps) F /\
    Forall2 (vol_entry md deps) (filter (has_vol deps) (col_forward_curves deps)) V.

  Lemma walk_spec md deps F V : tidy deps -> walk_dependencies nan md deps = (Ok tt, F, V) <-> up_to_date md deps F V.
  Proof.
    intros [O K _ _]. unfold walk_dependencies. rewrite (walk_char md deps _ [] [] O K) by (intros; split; reflexivity).
    unfold up_to_date. split.
    - intros (F' & V' & -> & -> & A & B). split; assumption.
    - intros (A & B). exists F, V. auto.
  Qed.

  Lemma new_spec md deps p : tidy deps -> prefetch_new nan md deps = Ok p <->
    pf_data p = md /\ pf_deps p = deps /\ up_to_date md deps (pf_forwards p) (pf_vols p).
  Proof.
    intros TD. unfold prefetch_new. destruct (walk_dependencies nan md deps) as [[r F] V] eqn:W. split.
    - destruct r as [[]|m|m]; cbn; try discriminate. intros [= <-]. cbn. apply walk_spec in W; auto.
    - intros (E1 & E2 & U). destruct p as [d1 d2 f v]; cbn in *. subst d1 d2. apply walk_spec in U; [|exact TD].
      rewrite U in W. injection W as <- <- <-. reflexivity.
  Qed.

  (** What forwards and vols look at. *)
  Definition inputs md u : option (value T) * option (value T) * option (value T) * option (value T) :=
    (look md (SpotFor (instrument_id u)), look md (DivsFor (instrument_id u)), look md (BorrowFor (instrument_id u)), look md (YieldFor (credit_id u))).

  Lemma forward_inputs md md' u h : md_spot_date md' = md_spot_date md -> inputs md' u = inputs md u ->
    md_forward_curve nan md' u h = md_forward_curve nan md u h.
  Proof.
    intros D [= A B C E]. unfold md_forward_curve, find_data. rewrite D. cbn [look] in *.
    assert (Q : forall (X Y : Type) (f : X -> Y) (a b : option X), (forall x y, f x = f y -> x = y) -> option_map f a = option_map f b -> a = b).
    { intros X Y f [a|] [b|] J; cbn; try discriminate; [intros [= Q]; f_equal; auto|auto]. }
    apply Q in A; [|congruence]. apply Q in B; [|congruence]. apply Q in C; [|congruence]. apply Q in E; [|congruence].
    now rewrite A, B, C, E.
  Qed.

  Lemma vol_inputs md md' u h f : md_spot_date md' = md_spot_date md -> look md' (VolFor (instrument_id u)) = look md (VolFor (instrument_id u)) ->
    md_vol_surface nan md' u h f = md_vol_surface nan md u h f.
  Proof.
    intros D A. unfold md_vol_surface, find_data. rewrite D. cbn [look] in *.
    destruct (get (instrument_id u) (md_vols md')), (get (instrument_id u) (md_vols md)); cbn in A; try discriminate; auto.
    now injection A as ->.
  Qed.

  (** Refetching a forward. *)
  Lemma refetch_forward md deps id sf sv p r p' sf' sv' :
    pf_data p = md -> pf_deps p = deps ->
    refetch nan id true false sf sv p = (r, p', sf', sv') ->
    (exists m, (r = Err m \/ r = Panic m) /\ p' = p /\ sv' = sv /\
       (sf' = sf \/ exists f, get id (pf_forwards p) = Some f /\ sf' = option_map (put id f) sf)) \/
    (exists u h f f', r = Ok true /\ instrument_by_id id deps = Some u /\ forward_curve_hwm u deps = Some h /\
       md_forward_curve nan md u h = Ok f' /\ get id (pf_forwards p) = Some f /\
       p' = mkPrefetch md deps (put id f' (pf_forwards p)) (pf_vols p) /\ sf' = option_map (put id f) sf /\ sv' = sv).
  Proof.
    intros <- <-. unfold refetch, refetch_vol. cbn [negb andb].
    destruct (get id (pf_forwards p)) as [f|] eqn:G; [|intros [= <- <- <- <-]; left; eexists; eauto 10].
    destruct (instrument_by_id id (pf_deps p)) as [u|] eqn:I; [|intros [= <- <- <- <-]; left; eexists; eauto 10].
    destruct (forward_curve_hwm u (pf_deps p)) as [h|] eqn:H; [|intros [= <- <- <- <-]; left; eexists; eauto 10].
    destruct (md_forward_curve nan (pf_data p) u h) as [f'|m|m] eqn:E; intros [= <- <- <- <-]; [|left; eexists; eauto 10..].
    right. exists u, h, f, f'. repeat split; auto.
  Qed.

  Lemma refetch_none id sf sv p : refetch nan id false false sf sv p = (Ok false, p, sf, sv).
  Proof. reflexivity. Qed.

  Lemma refetch_surface md deps id sf sv p r p' sf' sv' :
    pf_data p = md -> pf_deps p = deps ->
    refetch nan id false true sf sv p = (r, p', sf', sv') ->
    sf' = sf /\
    ((exists m, (r = Err m \/ r = Panic m) /\ p' = p /\
        (sv' = sv \/ exists v, get id (pf_vols p) = Some v /\ sv' = option_map (put id v) sv)) \/
     (r = Ok true /\ get id (pf_vols p) = None /\ get id (pf_forwards p) <> None /\ p' = p /\ sv' = sv) \/
     (exists u h v v', r = Ok true /\ instrument_by_id id deps = Some u /\ vol_surface_hwm u deps = Some h /\
        md_vol_surface nan md u h (Err "") = Ok v' /\ get id (pf_vols p) = Some v /\
        p' = mkPrefetch md deps (pf_forwards p) (put id v' (pf_vols p)) /\ sv' = option_map (put id v) sv)).
  Proof.
    intros <- <-. unfold refetch, refetch_vol. cbn [negb andb].
    destruct (get id (pf_forwards p)) as [f|] eqn:G; [|intros [= <- <- <- <-]; split; auto; left; eexists; eauto 10].
    destruct (instrument_by_id id (pf_deps p)) as [u|] eqn:I; [|intros [= <- <- <- <-]; split; auto; left; eexists; eauto 10].
    destruct (get id (pf_vols p)) as [v|] eqn:GV.
    2: { intros [= <- <- <- <-]. split; auto. right. left. repeat split; auto. congruence. }
    destruct (vol_surface_hwm u (pf_deps p)) as [h|] eqn:H; [|intros [= <- <- <- <-]; split; auto; left; eexists; eauto 10].
    rewrite (vol_surface_forward _ _ _ (Ok f) (Err ""%string)).
    destruct (md_vol_surface nan (pf_data p) u h (Err "")) as [v'|m|m] eqn:E; intros [= <- <- <- <-]; split; auto; [|left; eexists; eauto 10..].
    right. right. exists u, h, v, v'. repeat split; auto.
  Qed.

  (** How a bump of a datum is passed on to the cache. *)
  Definition refetch_for (d : datum) (known : bool) sf sv p :=
    match d with
    | SpotFor id | DivsFor id | BorrowFor id => refetch nan id known false sf sv p
    | VolFor id => refetch nan id false known sf sv p
    | YieldFor cr => refetch_each nan (forward_ids_of cr (pf_deps p)) known sf sv p
    end.

  Definition known md d : bool := match look md d with Some _ => true | None => false end.

  Lemma bump_dispatch b p sd sf sv d : target b = Some d ->
    prefetch_bump_saved nan b p sd sf sv =
    let '(r, p', sf', sv') := refetch_for d (known (pf_data p) d) sf sv
                                (mkPrefetch (bumped_md b (pf_data p)) (pf_deps p) (pf_forwards p) (pf_vols p)) in
    (r, p', option_map (save_datum d (pf_data p)) sd, sf', sv').
  Proof.
    intros TB. pose proof (bump_shape b (pf_data p) sd d TB) as BS. unfold prefetch_bump_saved, known.
    destruct b; cbn [target] in TB; try discriminate; injection TB as <-; rewrite BS; cbn [refetch_for pf_deps];
      destruct (look (pf_data p) _); reflexivity.
  Qed.

  (** Forwards still to be refetched. *)
  Definition pending md (P : list string) (a : string * (instrument T * date)) (b : string * forward T) : Prop :=
    fst b = fst a /\ (~ In (fst a) P -> md_forward_curve nan md (fst (snd a)) (snd (snd a)) = Ok (snd b)).

  Lemma pending_done md deps F : Forall2 (pending md []) (col_forward_curves deps) F -> Forall2 (forward_entry md) (col_forward_curves deps) F.
  Proof. intros H. eapply forall2_weaken; [|exact H]. intros a b _ (A & B). split; [exact A|]. apply B. auto. Qed.

  Lemma pending_step md deps id P sf sv p r p' sf' sv' : tidy deps -> pf_data p = md -> pf_deps p = deps ->
    refetch nan id true false sf sv p = (Ok r, p', sf', sv') ->
    Forall2 (pending md (id :: P)) (col_forward_curves deps) (pf_forwards p) ->
    Forall2 (pending md P) (col_forward_curves deps) (pf_forwards p') /\ pf_data p' = md /\ pf_deps p' = deps /\ pf_vols p' = pf_vols p.
  Proof.
    intros TD E1 E2 E H. destruct (refetch_forward md deps _ _ _ _ _ _ _ _ E1 E2 E) as [(m & [Q|Q] & _)|X]; try discriminate.
    destruct X as (u & h & f & f' & _ & I & HW & FW & G & -> & _). cbn. repeat split.
    eapply forall2_put; [apply TD| | | |congruence|exact H].
    - intros a b (A & _). exact A.
    - intros a b IA NE (A & B). split; [exact A|]. intros NI. apply B. intros [Q|Q]; [congruence|auto].
    - intros [k [u0 h0]] IA K. cbn [fst] in K. subst k. split; [reflexivity|]. intros _. cbn [fst snd].
      assert (u = u0) as -> by (eapply (td_same deps TD); eauto).
      assert (OK : instrument_id u0 = id) by (exact (proj1 (Forall_forall _ _) (td_own deps TD) _ IA)).
      unfold forward_curve_hwm in HW. rewrite OK, (in_get id _ (u0, h0) (td_once deps TD) IA) in HW.
      injection HW as <-. exact FW.
  Qed.

  Lemma pending_each md deps ids : tidy deps -> forall sf sv p r p' sf' sv', pf_data p = md -> pf_deps p = deps ->
    refetch_each nan ids true sf sv p = (Ok r, p', sf', sv') ->
    Forall2 (pending md ids) (col_forward_curves deps) (pf_forwards p) ->
    Forall2 (pending md []) (col_forward_curves deps) (pf_forwards p') /\ pf_data p' = md /\ pf_deps p' = deps /\ pf_vols p' = pf_vols p.
  Proof.
    intros TD. induction ids as [|id ids IH]; intros sf sv p r p' sf' sv' E1 E2 E H.
    - injection E as _ <- _ _. auto.
    - cbn [refetch_each] in E. destruct (refetch nan id true false sf sv p) as [[[r1 p1] sf1] sv1] eqn:E3.
      destruct r1 as [x|m|m]; try discriminate.
      destruct (pending_step md deps id ids _ _ _ _ _ _ _ TD E1 E2 E3 H) as (A & B & C & D).
      destruct (IH _ _ _ _ _ _ _ B C E A) as (A' & B' & C' & D'). repeat split; congruence || auto.
  Qed.

  Lemma each_none ids : forall sf sv p, refetch_each nan ids false sf sv p = (Ok false, p, sf, sv).
  Proof. induction ids as [|id ids IH]; intros sf sv p; [reflexivity|]. cbn [refetch_each]. rewrite refetch_none. apply IH. Qed.

  Lemma refetch_unknown d sf sv p : refetch_for d false sf sv p = (Ok false, p, sf, sv).
  Proof. destruct d; cbn [refetch_for]; auto using refetch_none, each_none. Qed.

  Lemma bumped_unknown_md b md d : target b = Some d -> look md d = None -> bumped_md b md = md.
  Proof. intros TB L. unfold bumped_md. now rewrite (bump_unknown b md None d TB L). Qed.

  Lemma vols_same b md d deps V : target b = Some d -> (forall id, d <> VolFor id) ->
    Forall2 (vol_entry md deps) (filter (has_vol deps) (col_forward_curves deps)) V ->
    Forall2 (vol_entry (bumped_md b md) deps) (filter (has_vol deps) (col_forward_curves deps)) V.
  Proof.
    intros TB ND. apply forall2_weaken. intros a x _ (A & h & B & C). split; [exact A|]. exists h. split; [exact B|].
    rewrite <- C. apply vol_inputs; [apply bumped_date|]. apply (bumped_other b md d); auto.
  Qed.

  Lemma forwards_pending b md d deps F P : target b = Some d ->
    (forall k u h, In (k, (u, h)) (col_forward_curves deps) -> instrument_id u = k -> ~ In k P ->
       d <> SpotFor k /\ d <> DivsFor k /\ d <> BorrowFor k /\ d <> YieldFor (credit_id u)) ->
    tidy deps -> Forall2 (forward_entry md) (col_forward_curves deps) F ->
    Forall2 (pending (bumped_md b md) P) (col_forward_curves deps) F.
  Proof.
    intros TB SEP TD. apply forall2_weaken. intros [k [u h]] x I (A & B). cbn [fst snd] in *. split; [exact A|]. cbn [fst snd].
    intros NI. assert (OK : instrument_id u = k) by (exact (proj1 (Forall_forall _ _) (td_own deps TD) _ I)).
    destruct (SEP _ _ _ I OK NI) as (X1 & X2 & X3 & X4).
    rewrite <- B. apply forward_inputs; [apply bumped_date|]. unfold inputs. rewrite OK, !(bumped_other b md d _ TB) by congruence. reflexivity.
  Qed.

  Lemma fresh_step b p sd sf sv r p' sd' sf' sv' deps : tidy deps -> pf_deps p = deps ->
    up_to_date (pf_data p) deps (pf_forwards p) (pf_vols p) ->
    prefetch_bump_saved nan b p sd sf sv = (Ok r, p', sd', sf', sv') ->
    pf_deps p' = deps /\ up_to_date (pf_data p') deps (pf_forwards p') (pf_vols p').
  Proof.
    intros TD ED (UF & UV) E. destruct (target b) as [d|] eqn:TB.
    - rewrite (bump_dispatch b p sd sf sv d TB) in E. unfold known in E.
      set (p1 := mkPrefetch (bumped_md b (pf_data p)) (pf_deps p) (pf_forwards p) (pf_vols p)) in E.
      destruct (look (pf_data p) d) as [v|] eqn:L.
      2: { rewrite refetch_unknown in E. injection E as _ <- _ _ _. unfold p1. cbn.
           rewrite (bumped_unknown_md b _ d TB L). split; [exact ED|split; assumption]. }
      assert (ONE : forall id, d = SpotFor id \/ d = DivsFor id \/ d = BorrowFor id ->
                forall rr pp s1 s2, refetch nan id true false sf sv p1 = (Ok rr, pp, s1, s2) ->
                pf_deps pp = deps /\ up_to_date (pf_data pp) deps (pf_forwards pp) (pf_vols pp)).
      { intros id Q rr pp s1 s2 RF.
        destruct (pending_step (bumped_md b (pf_data p)) deps id [] sf sv p1 rr pp s1 s2 TD eq_refl ED RF) as (A & B & C & D).
        - unfold p1. cbn. apply forwards_pending with (d := d); auto. intros k u h _ _ NI.
          assert (k <> id) by (intros ->; apply NI; now left). destruct Q as [-> | [-> | ->]]; repeat split; congruence.
        - split; [exact C|]. rewrite B, D. split; [now apply pending_done|]. unfold p1. cbn. apply vols_same with (d := d); auto.
          intros id'. destruct Q as [-> | [-> | ->]]; congruence. }
      destruct (refetch_for d true sf sv p1) as [[[r1 p2] s1] s2] eqn:RF. injection E as -> <- _ _ _.
      destruct d as [id|cr|id|id|id]; cbn [refetch_for] in RF.
      + apply (ONE id) in RF; auto.
      + destruct (pending_each (bumped_md b (pf_data p)) deps _ TD _ _ p1 r p2 s1 s2 eq_refl ED RF) as (A & B & C & D).
        * unfold p1. cbn. apply forwards_pending with (d := YieldFor cr); auto. intros k u h I _ NI. repeat split; try congruence.
          intros [= Q]. apply NI. rewrite Q, ED. eapply (td_ids deps TD); eauto.
        * split; [exact C|]. rewrite B, D. split; [now apply pending_done|]. unfold p1. cbn. apply vols_same with (d := YieldFor cr); auto. congruence.
      + apply (ONE id) in RF; auto.
      + apply (ONE id) in RF; auto.
      + destruct (refetch_surface (bumped_md b (pf_data p)) deps id sf sv p1 (Ok r) p2 s1 s2 eq_refl ED RF) as (_ & [X|[X|X]]).
        * destruct X as (m & [Q|Q] & _); discriminate.
        * destruct X as (_ & GV & _ & -> & _). unfold p1 in *. cbn in *. split; [exact ED|]. split.
          -- apply pending_done, forwards_pending with (d := VolFor id); auto. intros; repeat split; congruence.
          -- pose proof (forall2_keys _ _ _ (fun a b (X : vol_entry (pf_data p) deps a b) => proj1 X) UV) as KV.
             apply get_none_in in GV. rewrite KV in GV.
             eapply forall2_weaken; [|exact UV]. intros [k [u h]] x I (A & vh & B & C). split; [exact A|]. exists vh. split; [exact B|].
             cbn [fst snd] in *. rewrite <- C. apply vol_inputs; [apply bumped_date|]. apply (bumped_other b _ (VolFor id)); auto.
             intros [= Q]. apply GV. assert (OK : instrument_id u = k).
             { apply filter_In in I. destruct I as (I & _). exact (proj1 (Forall_forall _ _) (td_own deps TD) _ I). }
             subst id. rewrite OK. now apply (in_map fst) in I.
        * destruct X as (u & vh & v0 & v' & _ & IB & HW & VW & GV & -> & _). unfold p1 in *. cbn in *. split; [reflexivity|]. split.
          -- apply pending_done, forwards_pending with (d := VolFor id); auto. intros; repeat split; congruence.
          -- eapply forall2_put; [| | | |congruence|exact UV].
             ++ apply nodup_filter, TD.
             ++ intros a x (A & _). exact A.
             ++ intros [k [w h]] x I NE (A & h' & B & C). split; [exact A|]. exists h'. split; [exact B|]. cbn [fst snd] in *. rewrite <- C.
                apply filter_In in I. destruct I as (I & _). pose proof (proj1 (Forall_forall _ _) (td_own deps TD) _ I) as OK.
                unfold own_key in OK. cbn in OK. apply vol_inputs; [apply bumped_date|]. apply (bumped_other b _ (VolFor id)); congruence || auto.
             ++ intros [k [w h]] I K. cbn [fst] in K. subst k. apply filter_In in I. destruct I as (I & _).
                assert (u = w) as -> by (eapply (td_same deps TD); eauto). split; [reflexivity|]. exists vh. auto.
    - destruct b as [| | | | |f]; cbn [target] in TB; try discriminate. cbn [prefetch_bump_saved] in E.
      destruct (_ =? _)%Z; [injection E as _ <- _ _ _; split; [exact ED|split; assumption]|].
      destruct (md_bump_spot_date nan (pf_data p) f (pf_deps p)) as [md'|m|m]; try discriminate.
      unfold refetch_all in E. cbn [pf_data pf_deps pf_forwards pf_vols] in E.
      destruct (walk_dependencies nan md' (pf_deps p)) as [[r1 F'] V'] eqn:W. injection E as R <- _ _ _. cbn.
      split; [exact ED|]. destruct r1 as [[]| |]; cbn in R; try discriminate. rewrite ED in W. now apply walk_spec in W.
  Qed.

  Lemma fresh_bumps p p' deps : tidy deps -> bumps_to nan p p' -> prefetch_new nan (pf_data p) deps = Ok p ->
    prefetch_new nan (pf_data p') deps = Ok p'.
  Proof.
    intros TD B. induction B as [p|p b save r p' save' p'' E B IH]; [auto|]. intros Q. apply IH. clear IH B.
    apply (new_spec _ _ _ TD) in Q. destruct Q as (_ & ED & U). apply (new_spec _ _ _ TD).
    assert (X : exists sd sf sv sd' sf' sv', prefetch_bump_saved nan b p sd sf sv = (Ok r, p', sd', sf', sv')).
    { unfold prefetch_bump in E. destruct save as [[d|d f v|i q]|]; try discriminate.
      - destruct (prefetch_bump_saved nan b p (Some d) (Some f) (Some v)) as [[[[r1 p1] x] y] z] eqn:F.
        exists (Some d), (Some f), (Some v), x, y, z. rewrite F. congruence.
      - destruct (prefetch_bump_saved nan b p None None None) as [[[[r1 p1] x] y] z] eqn:F.
        exists None, None, None, x, y, z. rewrite F. congruence. }
    destruct X as (sd & sf & sv & sd' & sf' & sv' & F).
    destruct (fresh_step _ _ _ _ _ _ _ _ _ _ deps TD ED U F) as (A & B). auto.
  Qed.
End Cache.

(** The dependencies of a portfolio are tidy. *)
Section Tidy.
  Context {T : Type} {N : Num T}.
  Implicit Types u : instrument T.
  Implicit Types s : collector T.

  Definition forwards_asked (l : list (ask T)) s : Prop :=
    forall k u h, In (k, (u, h)) (col_forward_curves s) -> instrument_id u = k /\ exists d, In (ForwardOf u d) l.

  Lemma put_in {A} k (x : A) m k' y : In (k', y) (put k x m) -> (k' = k /\ y = x) \/ In (k', y) m.
  Proof.
    induction m as [|[k1 x1] m IH]; cbn [put].
    - intros [Q|[]]. injection Q as <- <-. auto.
    - destruct (String.eqb_spec k k1) as [->|D].
      + intros [Q|I]; [injection Q as <- <-; auto|]. right. now right.
      + intros [Q|I]; [injection Q as <- <-; right; now left|]. destruct (IH I) as [X|X]; auto. right. now right.
  Qed.

  Lemma forwards_step l s a : forwards_asked l s -> forwards_asked (l ++ [a]) (step s a).
  Proof.
    intros K. assert (W : forall k u h, In (k, (u, h)) (col_forward_curves s) -> instrument_id u = k /\ exists d, In (ForwardOf u d) (l ++ [a])).
    { intros k u h I. destruct (K _ _ _ I) as (A & d & B). split; [exact A|]. exists d. rewrite in_app_iff. auto. }
    destruct a as [cr d|v|v d|v d|id dt]; try exact W. cbn [step]. unfold forwards_asked. cbn [col_forward_curves].
    unfold set_hwm. destruct (get (instrument_id v) (col_forward_curves s)) as [[key old]|] eqn:G.
    - destruct (old <? d)%Z; [|exact W]. intros k u h I. apply put_in in I. destruct I as [(-> & [= -> ->])|I]; [|eauto].
      apply get_in in G. eauto.
    - intros k u h I. apply put_in in I. destruct I as [(-> & [= -> ->])|I]; [|eauto]. split; [reflexivity|].
      exists d. rewrite in_app_iff. right. now left.
  Qed.

  Lemma forwards_steps l : forall l0 s, forwards_asked l0 s -> forwards_asked (l0 ++ l) (steps l s).
  Proof.
    induction l as [|a l IH]; intros l0 s K; [now rewrite app_nil_r|].
    change (a :: l) with ([a] ++ l). rewrite app_assoc, steps_app. apply IH, forwards_step, K.
  Qed.

  Lemma collected_forwards today rs l s : collect_all today rs = Ok s -> all_come_to today rs l -> forwards_asked l s.
  Proof.
    intros E C. apply collect_all_declared in E. destruct E as (l' & C' & ->). rewrite (comes_to_fun _ _ _ _ C C').
    apply (forwards_steps l' [] (collector_new today)). intros k u h [].
  Qed.

  Lemma collected_tidy today rs l s : collect_all today rs = Ok s -> all_come_to today rs l -> one_per_id l -> tidy s.
  Proof.
    intros E C ONE. pose proof (collected today rs s l E C) as K. pose proof (collected_forwards today rs l s E C) as FA. constructor.
    - apply K.
    - apply Forall_forall. intros [k [u h]] I. exact (proj1 (FA _ _ _ I)).
    - intros k u h u' I B. destruct (FA _ _ _ I) as (A & d & FO). destruct (kn_instrument _ _ K _ _ B) as (A' & SV).
      apply ONE; [|right; left; eauto|congruence]. destruct SV as [X|X]; [left; exact X|right; right; exact X].
    - intros k u h I. destruct (FA _ _ _ I) as (A & d & FO). rewrite (kn_forward_ids _ _ K). unfold forwards_on.
      apply in_flat_map. exists (ForwardOf u d). split; [exact FO|]. rewrite String.eqb_refl. left. exact A.
  Qed.
End Tidy.

(** Restoring the cache. *)
Section Restore.
  Context {T : Type} {N : Num T} {TR : Trans T}.
  Variable nan : T.
  Implicit Types md : market_data T.
  Implicit Types p : prefetch T.

  Definition unfed deps (seen : list datum) (x : derived) : Prop := forall d : datum, In d seen -> ~ In x (@feeds T deps d).

  (** The save area, against the context: what has been seen is saved, and nothing else is. *)
  Record covers (seen : list datum) p (sd : saved_data T) (sf : smap (forward T)) (sv : smap (vol_surface T)) : Prop := {
    cv_data : forall d, In d seen -> look (pf_data p) d <> None -> saved_has sd d = true;
    cv_only : forall d, ~ In d seen -> saved_has sd d = false;
    cv_forward : forall d id, In d seen -> look (pf_data p) d <> None -> In (ForwardFor id) (feeds (pf_deps p) d) ->
      get id (pf_forwards p) <> None -> get id sf <> None;
    cv_forward_only : forall id, unfed (pf_deps p) seen (ForwardFor id) -> get id sf = None;
    cv_vol : forall d id, In d seen -> look (pf_data p) d <> None -> In (SurfaceFor id) (feeds (pf_deps p) d) ->
      get id (pf_vols p) <> None -> get id sv <> None;
    cv_vol_only : forall id, unfed (pf_deps p) seen (SurfaceFor id) -> get id sv = None
  }.

  Definition restored (sd : saved_data T) (sf : smap (forward T)) (sv : smap (vol_surface T)) p : prefetch T :=
    mkPrefetch (md_restore_saved sd (pf_data p)) (pf_deps p) (copy_from_saved (pf_forwards p) sf) (copy_from_saved (pf_vols p) sv).

  (** One forward refetched and saved. *)
  Lemma refetch_saving id sf sv p r p' sf' sv' : refetch nan id true false (Some sf) sv p = (r, p', sf', sv') -> get id sf = None ->
    pf_data p' = pf_data p /\ pf_deps p' = pf_deps p /\ pf_vols p' = pf_vols p /\ sv' = sv /\
    (forall k, get k (pf_forwards p') <> None <-> get k (pf_forwards p) <> None) /\
    exists t, sf' = Some t /\ copy_from_saved (pf_forwards p') t = copy_from_saved (pf_forwards p) sf /\
      (forall k, k <> id -> get k t = get k sf) /\ (is_ok r = true -> get id t <> None).
  Proof.
    intros E G0. destruct (refetch_forward nan _ _ _ _ _ _ _ _ _ _ eq_refl eq_refl E) as [(m & R & -> & -> & Q)|X].
    - repeat split; auto. destruct Q as [->|(f & G & ->)].
      + exists sf. repeat split; auto. destruct R as [-> | ->]; discriminate.
      + exists (put id f sf). repeat split.
        * rewrite <- (copy_save id f f sf _ G0 G). now rewrite (put_get id f _ G).
        * intros k D. apply get_put_other; congruence.
        * intros _. rewrite get_put_same. discriminate.
    - destruct X as (u & h & f & f' & -> & _ & _ & _ & G & -> & -> & ->). cbn. repeat split.
      + destruct (String.eqb_spec id k) as [->|D]; [congruence|]. intros Q. rewrite get_put_other in Q by congruence. exact Q.
      + intros Q. now apply get_put_ne.
      + exists (put id f sf). repeat split.
        * now apply copy_save.
        * intros k D. apply get_put_other; congruence.
        * intros _. rewrite get_put_same. discriminate.
  Qed.

  Lemma each_saving ids : forall sf sv p r p' sf' sv', NoDup ids ->
    refetch_each nan ids true (Some sf) sv p = (r, p', sf', sv') -> (forall id, In id ids -> get id sf = None) ->
    pf_data p' = pf_data p /\ pf_deps p' = pf_deps p /\ pf_vols p' = pf_vols p /\ sv' = sv /\
    (forall k, get k (pf_forwards p') <> None <-> get k (pf_forwards p) <> None) /\
    exists t, sf' = Some t /\ copy_from_saved (pf_forwards p') t = copy_from_saved (pf_forwards p) sf /\
      (forall k, ~ In k ids -> get k t = get k sf) /\ (is_ok r = true -> forall id, In id ids -> get id t <> None).
  Proof.
    induction ids as [|id ids IH]; intros sf sv p r p' sf' sv' ND E G0; cbn [refetch_each] in E.
    - injection E as <- <- <- <-. repeat split; auto. exists sf. repeat split; auto.
    - inversion ND as [|? ? N1 N2]; subst.
      destruct (refetch nan id true false (Some sf) sv p) as [[[r1 p1] sf1] sv1] eqn:E1.
      destruct (refetch_saving _ _ _ _ _ _ _ _ E1 (G0 id ltac:(now left))) as (A1 & A2 & A3 & A4 & A5 & t & A6 & A7 & A8 & A9).
      subst sf1 sv1. destruct r1 as [x|m|m].
      + destruct (IH _ _ _ _ _ _ _ N2 E) as (B1 & B2 & B3 & B4 & B5 & t' & B6 & B7 & B8 & B9).
        { intros k I. rewrite A8 by (intros ->; auto). apply G0. now right. }
        repeat split; try congruence.
        * intros Q. apply A5, B5, Q.
        * intros Q. apply B5, A5, Q.
        * exists t'. repeat split; try congruence.
          -- intros k NI. rewrite B8 by (intros I; apply NI; now right). apply A8. intros ->. apply NI. now left.
          -- intros R k [->|I]; [|now apply B9]. rewrite B8 by exact N1. now apply A9.
      + injection E as <- <- <- <-. repeat split; auto; try apply A5. exists t. repeat split; auto; try discriminate.
        intros k NI. apply A8. intros ->. apply NI. now left.
      + injection E as <- <- <- <-. repeat split; auto; try apply A5. exists t. repeat split; auto; try discriminate.
        intros k NI. apply A8. intros ->. apply NI. now left.
  Qed.

  (** One forward refetched, having been saved before. *)
  Lemma refetch_again id sv p r p' sf' sv' (t : smap (forward T)) : refetch nan id true false None sv p = (r, p', sf', sv') ->
    (get id (pf_forwards p) <> None -> get id t <> None) ->
    pf_data p' = pf_data p /\ pf_deps p' = pf_deps p /\ pf_vols p' = pf_vols p /\ sv' = sv /\
    (forall k, get k (pf_forwards p') <> None <-> get k (pf_forwards p) <> None) /\
    copy_from_saved (pf_forwards p') t = copy_from_saved (pf_forwards p) t.
  Proof.
    intros E G0. destruct (refetch_forward nan _ _ _ _ _ _ _ _ _ _ eq_refl eq_refl E) as [(m & R & -> & -> & Q)|X].
    - repeat split; auto.
    - destruct X as (u & h & f & f' & -> & _ & _ & _ & G & -> & -> & ->). cbn. repeat split.
      + destruct (String.eqb_spec id k) as [->|D]; [congruence|]. intros Q. rewrite get_put_other in Q by congruence. exact Q.
      + intros Q. now apply get_put_ne.
      + apply copy_put_saved; [apply G0|]; congruence.
  Qed.

  Lemma each_again ids (t : smap (forward T)) : forall sv p r p' sf' sv', 
    refetch_each nan ids true None sv p = (r, p', sf', sv') ->
    (forall id, In id ids -> get id (pf_forwards p) <> None -> get id t <> None) ->
    pf_data p' = pf_data p /\ pf_deps p' = pf_deps p /\ pf_vols p' = pf_vols p /\ sv' = sv /\
    (forall k, get k (pf_forwards p') <> None <-> get k (pf_forwards p) <> None) /\
    copy_from_saved (pf_forwards p') t = copy_from_saved (pf_forwards p) t.
  Proof.
    induction ids as [|id ids IH]; intros sv p r p' sf' sv' E G0; cbn [refetch_each] in E.
    - injection E as <- <- <- <-. repeat split; auto.
    - destruct (refetch nan id true false None sv p) as [[[r1 p1] sf1] sv1] eqn:E1.
      destruct (refetch_again _ _ _ _ _ _ _ t E1 (G0 id ltac:(now left))) as (A1 & A2 & A3 & A4 & A5 & A7).
      assert (sf1 = None) as ->.
      { destruct (refetch_forward nan _ _ _ _ _ _ _ _ _ _ eq_refl eq_refl E1) as [(m & R & _ & _ & [->|(f & _ & ->)])|X]; auto.
        destruct X as (u & h & f & f' & _ & _ & _ & _ & _ & _ & -> & _). reflexivity. }
      subst sv1. destruct r1 as [x|m|m].
      + destruct (IH _ _ _ _ _ _ E) as (B1 & B2 & B3 & B4 & B5 & B6).
        { intros k I Q. apply G0; [now right|]. now apply A5. }
        repeat split; try congruence.
        * intros Q. apply A5, B5, Q.
        * intros Q. apply B5, A5, Q.
      + injection E as <- <- <- <-. repeat split; auto; apply A5.
      + injection E as <- <- <- <-. repeat split; auto; apply A5.
  Qed.

  Lemma surface_saving id sf sv p r p' sf' sv' : refetch nan id false true sf (Some sv) p = (r, p', sf', sv') -> get id sv = None ->
    pf_data p' = pf_data p /\ pf_deps p' = pf_deps p /\ pf_forwards p' = pf_forwards p /\ sf' = sf /\
    (forall k, get k (pf_vols p') <> None <-> get k (pf_vols p) <> None) /\
    exists t, sv' = Some t /\ copy_from_saved (pf_vols p') t = copy_from_saved (pf_vols p) sv /\
      (forall k, k <> id -> get k t = get k sv) /\ (is_ok r = true -> get id (pf_vols p) <> None -> get id t <> None).
  Proof.
    intros E G0. destruct (refetch_surface nan _ _ _ _ _ _ _ _ _ _ eq_refl eq_refl E) as (-> & [X|[X|X]]).
    - destruct X as (m & R & -> & Q). repeat split; auto. destruct Q as [->|(f & G & ->)].
      + exists sv. repeat split; auto. destruct R as [-> | ->]; discriminate.
      + exists (put id f sv). repeat split.
        * rewrite <- (copy_save id f f sv _ G0 G). now rewrite (put_get id f _ G).
        * intros k D. apply get_put_other; congruence.
        * intros _. rewrite get_put_same. discriminate.
    - destruct X as (-> & G & _ & -> & ->). repeat split; auto. exists sv. repeat split; auto.
    - destruct X as (u & h & f & f' & -> & _ & _ & _ & G & -> & ->). cbn. repeat split.
      + destruct (String.eqb_spec id k) as [->|D]; [congruence|]. intros Q. rewrite get_put_other in Q by congruence. exact Q.
      + intros Q. now apply get_put_ne.
      + exists (put id f sv). repeat split.
        * now apply copy_save.
        * intros k D. apply get_put_other; congruence.
        * intros _. rewrite get_put_same. discriminate.
  Qed.

  Lemma surface_again id sf p r p' sf' sv' (t : smap (vol_surface T)) : refetch nan id false true sf None p = (r, p', sf', sv') ->
    (get id (pf_vols p) <> None -> get id t <> None) ->
    pf_data p' = pf_data p /\ pf_deps p' = pf_deps p /\ pf_forwards p' = pf_forwards p /\ sf' = sf /\
    (forall k, get k (pf_vols p') <> None <-> get k (pf_vols p) <> None) /\
    copy_from_saved (pf_vols p') t = copy_from_saved (pf_vols p) t.
  Proof.
    intros E G0. destruct (refetch_surface nan _ _ _ _ _ _ _ _ _ _ eq_refl eq_refl E) as (-> & [X|[X|X]]).
    - destruct X as (m & R & -> & Q). repeat split; auto.
    - destruct X as (-> & G & _ & -> & ->). repeat split; auto.
    - destruct X as (u & h & f & f' & -> & _ & _ & _ & G & -> & ->). cbn. repeat split.
      + destruct (String.eqb_spec id k) as [->|D]; [congruence|]. intros Q. rewrite get_put_other in Q by congruence. exact Q.
      + intros Q. now apply get_put_ne.
      + apply copy_put_saved; [apply G0|]; congruence.
  Qed.

  Lemma refetch_for_saving d sf sv p r p' sf' sv' : NoDup (@feeds T (pf_deps p) d) ->
    (forall id, In (ForwardFor id) (feeds (pf_deps p) d) -> get id sf = None) ->
    (forall id, In (SurfaceFor id) (feeds (pf_deps p) d) -> get id sv = None) ->
    refetch_for nan d true (Some sf) (Some sv) p = (r, p', sf', sv') ->
    pf_data p' = pf_data p /\ pf_deps p' = pf_deps p /\
    (forall k, get k (pf_forwards p') <> None <-> get k (pf_forwards p) <> None) /\
    (forall k, get k (pf_vols p') <> None <-> get k (pf_vols p) <> None) /\
    exists tf tv, sf' = Some tf /\ sv' = Some tv /\
      copy_from_saved (pf_forwards p') tf = copy_from_saved (pf_forwards p) sf /\
      copy_from_saved (pf_vols p') tv = copy_from_saved (pf_vols p) sv /\
      (forall id, ~ In (ForwardFor id) (feeds (pf_deps p) d) -> get id tf = get id sf) /\
      (forall id, ~ In (SurfaceFor id) (feeds (pf_deps p) d) -> get id tv = get id sv) /\
      (is_ok r = true -> forall id, In (ForwardFor id) (feeds (pf_deps p) d) -> get id tf <> None) /\
      (is_ok r = true -> forall id, In (SurfaceFor id) (feeds (pf_deps p) d) -> get id (pf_vols p) <> None -> get id tv <> None).
  Proof.
    intros ND GF GV E.
    assert (ONE : forall id, feeds (pf_deps p) d = [ForwardFor id] -> refetch nan id true false (Some sf) (Some sv) p = (r, p', sf', sv') ->
      pf_data p' = pf_data p /\ pf_deps p' = pf_deps p /\
      (forall k, get k (pf_forwards p') <> None <-> get k (pf_forwards p) <> None) /\
      (forall k, get k (pf_vols p') <> None <-> get k (pf_vols p) <> None) /\
      exists tf tv, sf' = Some tf /\ sv' = Some tv /\
      copy_from_saved (pf_forwards p') tf = copy_from_saved (pf_forwards p) sf /\
      copy_from_saved (pf_vols p') tv = copy_from_saved (pf_vols p) sv /\
      (forall id, ~ In (ForwardFor id) (feeds (pf_deps p) d) -> get id tf = get id sf) /\
      (forall id, ~ In (SurfaceFor id) (feeds (pf_deps p) d) -> get id tv = get id sv) /\
      (is_ok r = true -> forall id, In (ForwardFor id) (feeds (pf_deps p) d) -> get id tf <> None) /\
      (is_ok r = true -> forall id, In (SurfaceFor id) (feeds (pf_deps p) d) -> get id (pf_vols p) <> None -> get id tv <> None)).
    { intros id F RF. rewrite F in *. destruct (refetch_saving _ _ _ _ _ _ _ _ RF (GF id ltac:(now left))) as (A1 & A2 & A3 & A4 & A5 & t & A6 & A7 & A8 & A9).
      split; [exact A1|]. split; [exact A2|]. split; [exact A5|]. split; [now rewrite A3|]. exists t, sv. rewrite A3.
      repeat split; auto.
      - intros k NI. apply A8. intros ->. apply NI. now left.
      - intros R k [[= <-]|[]]. now apply A9.
      - intros R k [[=]|[]]. }
    destruct d as [id|cr|id|id|id]; cbn [refetch_for] in E; try (apply (ONE id); [reflexivity|exact E]).
    - cbn [feeds] in *. assert (ND' : NoDup (forward_ids_of cr (pf_deps p))).
      { clear - ND. induction (forward_ids_of cr (pf_deps p)) as [|a l IH]; [constructor|]. cbn in ND. inversion ND as [|? ? N1 N2]; subst.
        constructor; [|auto]. intros I. apply N1. now apply in_map. }
      assert (IF : forall id, In (ForwardFor id) (map ForwardFor (forward_ids_of cr (pf_deps p))) <-> In id (forward_ids_of cr (pf_deps p))).
      { intros id. rewrite in_map_iff. split; [intros (x & [= ->] & I); exact I|eauto]. }
      assert (NS : forall id, ~ In (SurfaceFor id) (map ForwardFor (forward_ids_of cr (pf_deps p)))).
      { intros id I. apply in_map_iff in I. destruct I as (x & [=] & _). }
      destruct (each_saving _ _ _ _ _ _ _ _ ND' E) as (A1 & A2 & A3 & A4 & A5 & t & A6 & A7 & A8 & A9).
      { intros id I. apply GF, IF, I. }
      split; [exact A1|]. split; [exact A2|]. split; [exact A5|]. split; [now rewrite A3|]. exists t, sv. rewrite A3.
      repeat split; auto.
      + intros k NI. apply A8. now rewrite <- IF.
      + intros R k I. apply A9; [exact R|]. now apply IF.
      + intros R k I. now apply NS in I.
    - cbn [feeds] in *. destruct (surface_saving _ _ _ _ _ _ _ _ E (GV id ltac:(now left))) as (A1 & A2 & A3 & A4 & A5 & t & A6 & A7 & A8 & A9).
      split; [exact A1|]. split; [exact A2|]. split; [now rewrite A3|]. split; [exact A5|]. exists sf, t. rewrite A3.
      repeat split; auto.
      + intros k NI. apply A8. intros ->. apply NI. now left.
      + intros R k [[=]|[]].
      + intros R k [[= <-]|[]] Q. now apply A9.
  Qed.

  Lemma refetch_for_again d p r p' sf' sv' (tf : smap (forward T)) (tv : smap (vol_surface T)) :
    (forall id, In (ForwardFor id) (@feeds T (pf_deps p) d) -> get id (pf_forwards p) <> None -> get id tf <> None) ->
    (forall id, In (SurfaceFor id) (@feeds T (pf_deps p) d) -> get id (pf_vols p) <> None -> get id tv <> None) ->
    refetch_for nan d true None None p = (r, p', sf', sv') ->
    pf_data p' = pf_data p /\ pf_deps p' = pf_deps p /\
    (forall k, get k (pf_forwards p') <> None <-> get k (pf_forwards p) <> None) /\
    (forall k, get k (pf_vols p') <> None <-> get k (pf_vols p) <> None) /\
    copy_from_saved (pf_forwards p') tf = copy_from_saved (pf_forwards p) tf /\
    copy_from_saved (pf_vols p') tv = copy_from_saved (pf_vols p) tv.
  Proof.
    intros GF GV E.
    destruct d as [id|cr|id|id|id]; cbn [refetch_for feeds] in *;
      try (destruct (refetch_again _ _ _ _ _ _ _ tf E (GF id ltac:(now left))) as (A1 & A2 & A3 & A4 & A5 & A6); rewrite A3; repeat split; auto; apply A5).
    - destruct (each_again _ tf _ _ _ _ _ _ E) as (A1 & A2 & A3 & A4 & A5 & A6).
      { intros id I. apply GF. now apply in_map. }
      rewrite A3. repeat split; auto; apply A5.
    - destruct (surface_again _ _ _ _ _ _ _ tv E (GV id ltac:(now left))) as (A1 & A2 & A3 & A4 & A5 & A6). rewrite A3. repeat split; auto; apply A5.
  Qed.

  Lemma restore_first_step seen b d p sd sf sv r p' s' : covers seen p sd sf sv ->
    target b = Some d -> ~ In d seen -> NoDup (@feeds T (pf_deps p) d) ->
    (forall d' x, In d' seen -> In x (@feeds T (pf_deps p) d) -> ~ In x (@feeds T (pf_deps p) d')) ->
    prefetch_bump nan b p (Some (SavePrefetch sd sf sv)) = (r, p', s') ->
    pf_deps p' = pf_deps p /\
    exists sd' sf' sv', s' = Some (SavePrefetch sd' sf' sv') /\ restored sd' sf' sv' p' = restored sd sf sv p /\
      (is_ok r = true -> covers (d :: seen) p' sd' sf' sv').
  Proof.
    intros C TB NI ND DJ E. unfold prefetch_bump in E. rewrite (bump_dispatch nan b p _ _ _ d TB) in E. cbn [option_map] in E.
    set (p1 := mkPrefetch (bumped_md b (pf_data p)) (pf_deps p) (pf_forwards p) (pf_vols p)) in E.
    assert (GF : forall id, In (ForwardFor id) (@feeds T (pf_deps p) d) -> get id sf = None).
    { intros id I. apply (cv_forward_only _ _ _ _ _ C). intros d' I' X. exact (DJ _ _ I' I X). }
    assert (GV : forall id, In (SurfaceFor id) (@feeds T (pf_deps p) d) -> get id sv = None).
    { intros id I. apply (cv_vol_only _ _ _ _ _ C). intros d' I' X. exact (DJ _ _ I' I X). }
    unfold known in E. destruct (look (pf_data p) d) as [v|] eqn:L.
    - destruct (refetch_for nan d true (Some sf) (Some sv) p1) as [[[r1 p2] f1] v1] eqn:RF.
      destruct (refetch_for_saving d sf sv p1 r1 p2 f1 v1 ND GF GV RF) as (A1 & A2 & A3 & A4 & tf & tv & -> & -> & A5 & A6 & A7 & A8 & A9 & A10).
      injection E as <- <- <-. cbn [p1 pf_data pf_deps pf_forwards pf_vols] in *. split; [exact A2|].
      exists (save_datum d (pf_data p) sd), tf, tv. split; [reflexivity|]. split.
      + unfold restored. rewrite A1, A2, A5, A6. f_equal. apply restore_first; [exact TB|]. apply (cv_only _ _ _ _ _ C). exact NI.
      + intros R. assert (LK : forall x, look (bumped_md b (pf_data p)) x <> None -> look (pf_data p) x <> None).
        { intros x Q Z. apply Q. now apply (bumped_unknown b _ d). }
        destruct C as [C1 C2 C3 C4 C5 C6]. constructor; rewrite ?A1, ?A2.
        * intros d' I K. destruct (saved_has_save d d' (pf_data p) sd ltac:(congruence)) as (X & Y & _).
          destruct I as [<-|I]; [exact X|]. auto.
        * intros d' NI'. destruct (saved_has_save d d' (pf_data p) sd ltac:(congruence)) as (_ & _ & Z).
          rewrite Z by (intros ->; apply NI'; now left). apply C2. intros I. apply NI'. now right.
        * intros d' id I K F G. destruct I as [<-|I]; [now apply A9|]. apply A3 in G.
          rewrite A7; [apply (C3 d'); auto|]. intros Q. exact (DJ _ _ I Q F).
        * intros id U. rewrite A7; [apply C4; intros x I; apply U; now right|]. apply U. now left.
        * intros d' id I K F G. apply A4 in G. destruct I as [<-|I]; [now apply A10|].
          rewrite A8; [apply (C5 d'); auto|]. intros Q. exact (DJ _ _ I Q F).
        * intros id U. rewrite A8; [apply C6; intros x I; apply U; now right|]. apply U. now left.
    - rewrite refetch_unknown in E. injection E as <- <- <-. cbn [p1 pf_deps]. split; [reflexivity|].
      rewrite save_unknown by exact L. exists sd, sf, sv. split; [reflexivity|]. unfold p1. rewrite (bumped_unknown_md b _ d TB L).
      split; [reflexivity|]. intros _. destruct C as [C1 C2 C3 C4 C5 C6]. constructor; cbn.
      + intros d' [<-|I] K; [congruence|auto].
      + intros d' NI'. apply C2. intros I. apply NI'. now right.
      + intros d' id [<-|I] K; [congruence|]. now apply (C3 d').
      + intros id U. apply C4. intros x I. apply U. now right.
      + intros d' id [<-|I] K; [congruence|]. now apply (C5 d').
      + intros id U. apply C6. intros x I. apply U. now right.
  Qed.

  Lemma restore_again_step seen b d p sd sf sv r p' s' : covers seen p sd sf sv ->
    target b = Some d -> In d seen -> prefetch_bump nan b p None = (r, p', s') ->
    s' = None /\ pf_deps p' = pf_deps p /\ restored sd sf sv p' = restored sd sf sv p /\ covers seen p' sd sf sv.
  Proof.
    intros C TB I E. unfold prefetch_bump in E. rewrite (bump_dispatch nan b p _ _ _ d TB) in E. cbn [option_map] in E.
    set (p1 := mkPrefetch (bumped_md b (pf_data p)) (pf_deps p) (pf_forwards p) (pf_vols p)) in E.
    unfold known in E. destruct (look (pf_data p) d) as [v|] eqn:L.
    - destruct (refetch_for nan d true None None p1) as [[[r1 p2] f1] v1] eqn:RF.
      destruct (refetch_for_again d p1 r1 p2 f1 v1 sf sv) as (A1 & A2 & A3 & A4 & A5 & A6); auto.
      { intros id F G. apply (cv_forward _ _ _ _ _ C d); auto. congruence. }
      { intros id F G. apply (cv_vol _ _ _ _ _ C d); auto. congruence. }
      injection E as <- <- <-. cbn [p1 pf_data pf_deps pf_forwards pf_vols] in *. split; [reflexivity|]. split; [exact A2|]. split.
      + unfold restored. rewrite A1, A2, A5, A6. f_equal. apply restore_again with (d := d); [exact TB|]. apply (cv_data _ _ _ _ _ C). exact I.
      + assert (LK : forall x, look (bumped_md b (pf_data p)) x <> None -> look (pf_data p) x <> None).
        { intros x Q Z. apply Q. now apply (bumped_unknown b _ d). }
        destruct C as [C1 C2 C3 C4 C5 C6]. constructor; rewrite ?A1, ?A2; auto.
        * intros d' id I' K F G. apply A3 in G. apply (C3 d'); auto.
        * intros d' id I' K F G. apply A4 in G. apply (C5 d'); auto.
    - rewrite refetch_unknown in E. injection E as <- <- <-. cbn [p1 pf_deps]. split; [reflexivity|]. split; [reflexivity|].
      unfold p1. rewrite (bumped_unknown_md b _ d TB L). split; [reflexivity|]. destruct p; exact C.
  Qed.

  Lemma restore_ops ops : forall seen p sd sf sv p' s', covers seen p sd sf sv -> disciplined (pf_deps p) seen ops ->
    bumps_with nan ops p (SavePrefetch sd sf sv) p' s' ->
    exists sd' sf' sv', s' = SavePrefetch sd' sf' sv' /\ restored sd' sf' sv' p' = restored sd sf sv p.
  Proof.
    induction ops as [|[b saving] ops IH]; intros seen p sd sf sv p' s' C D B.
    - inversion B; subst. eauto 10.
    - inversion B as [|? ? ? ? ? r p1 s1 ? ? E B'|? ? ? ? r ? s1 E]; subst.
      + inversion D as [|? ? d ? TB NI ND DJ D'|? ? d ? TB I D']; subst; cbn [if_saving] in E.
        * destruct (restore_first_step _ _ _ _ _ _ _ _ _ _ C TB NI ND DJ E) as (ED & sd' & sf' & sv' & -> & R & C').
          cbn [keep] in B'. rewrite <- ED in D'. destruct (IH _ _ _ _ _ _ _ (C' eq_refl) D' B') as (x & y & z & -> & Q).
          exists x, y, z. split; [reflexivity|]. congruence.
        * destruct (restore_again_step _ _ _ _ _ _ _ _ _ _ C TB I E) as (-> & ED & R & C').
          cbn [keep] in B'. rewrite <- ED in D'. destruct (IH _ _ _ _ _ _ _ C' D' B') as (x & y & z & -> & Q).
          exists x, y, z. split; [reflexivity|]. congruence.
      + inversion D as [|? ? d ? TB NI ND DJ D'|? ? d ? TB I D']; subst; cbn [if_saving] in E.
        * destruct (restore_first_step _ _ _ _ _ _ _ _ _ _ C TB NI ND DJ E) as (ED & sd' & sf' & sv' & -> & R & C').
          cbn [keep]. exists sd', sf', sv'. auto.
        * destruct (restore_again_step _ _ _ _ _ _ _ _ _ _ C TB I E) as (-> & ED & R & C'). cbn [keep]. eauto 10.
  Qed.

  Lemma restore_undoes_all ops p p' s' : disciplined (pf_deps p) [] ops -> bumps_with nan ops p saved_prefetch_new p' s' ->
    prefetch_restore s' p' = (Ok tt, p).
  Proof.
    intros D B. destruct (restore_ops ops [] p saved_data_new [] [] p' s') as (sd' & sf' & sv' & -> & R); auto.
    - constructor; [intros d []|intros d _; now destruct d|intros d id []|reflexivity|intros d id []|reflexivity].
    - unfold prefetch_restore. fold (restored sd' sf' sv' p'). rewrite R. unfold restored. rewrite restore_nothing. now destruct p.
  Qed.

  (** A datum that is known but feeds something not in the cache. *)
  Lemma bump_not_cached b d id p save v : for_prefetch save -> target b = Some d -> look (pf_data p) d = Some v ->
    In d [SpotFor id; DivsFor id; BorrowFor id; VolFor id] -> get id (pf_forwards p) = None ->
    exists m save', prefetch_bump nan b p save =
      (Err m, mkPrefetch (bumped_md b (pf_data p)) (pf_deps p) (pf_forwards p) (pf_vols p), save').
  Proof.
    intros F TB L I G. 
    assert (X : forall sd sf sv, prefetch_bump_saved nan b p sd sf sv = (Err "Cannot find prefetched forward",
       mkPrefetch (bumped_md b (pf_data p)) (pf_deps p) (pf_forwards p) (pf_vols p), option_map (save_datum d (pf_data p)) sd, sf, sv)).
    { intros sd sf sv. rewrite (bump_dispatch nan b p _ _ _ d TB). unfold known. rewrite L.
      destruct I as [<-|[<-|[<-|[<-|[]]]]]; cbn [refetch_for]; unfold refetch; cbn [negb andb pf_forwards]; rewrite G; reflexivity. }
    destruct save as [[x|x y z|x y]|]; try destruct F; unfold prefetch_bump; rewrite X; eauto.
  Qed.

  Lemma not_cached_bumped b d id p save v : for_prefetch save -> target b = Some d -> look (pf_data p) d = Some v ->
    In d [SpotFor id; DivsFor id; BorrowFor id; VolFor id] -> get id (pf_forwards p) = None ->
    exists m p' save', prefetch_bump nan b p save = (Err m, p', save') /\
      look (pf_data p') d = Some (after b v) /\ (forall d', d' <> d -> look (pf_data p') d' = look (pf_data p) d') /\
      pf_deps p' = pf_deps p /\ pf_forwards p' = pf_forwards p /\ pf_vols p' = pf_vols p.
  Proof.
    intros F TB L I G. destruct (bump_not_cached b d id p save v F TB L I G) as (m & save' & E).
    do 3 eexists. split; [exact E|]. cbn [pf_data pf_deps pf_forwards pf_vols].
    split; [now apply bumped_target|]. split; [intros d' D; now apply bumped_other with (d := d)|auto].
  Qed.

  (** A bump through the cache does to the data what it does without. *)
  Lemma refetch_data id a b' sf sv p r p' sf' sv' : refetch nan id a b' sf sv p = (r, p', sf', sv') ->
    pf_data p' = pf_data p /\ forall x, r = Ok x -> x = a || b'.
  Proof.
    unfold refetch, refetch_vol. intros E.
    assert (OK : forall (x : res bool) y z w, (x, y, z, w) = (r, p', sf', sv') -> pf_data y = pf_data p -> (forall v, x = Ok v -> v = a || b') ->
      pf_data p' = pf_data p /\ forall x, r = Ok x -> x = a || b') by (intros x y z w [= <- <- <- <-]; auto).
    destruct a, b'; cbn [negb andb orb] in *;
      repeat (match type of E with context [match ?c with _ => _ end] =>
                lazymatch c with context [match _ with _ => _ end] => fail | _ => destruct c end end; cbv iota beta in E);
      refine (OK _ _ _ _ E _ _); try reflexivity; intros ? Y; try discriminate Y; now injection Y as <-.
  Qed.

  Lemma refetch_each_data ids a sf sv p r p' sf' sv' : refetch_each nan ids a sf sv p = (r, p', sf', sv') ->
    pf_data p' = pf_data p /\ forall x, r = Ok x -> x = a.
  Proof.
    revert sf sv p. induction ids as [|id ids IH]; cbn [refetch_each]; intros sf sv p E.
    - injection E as <- <- <- <-. split; [reflexivity|intros x [= <-]; reflexivity].
    - destruct (refetch nan id a false sf sv p) as [[[r1 p1] sf1] sv1] eqn:R.
      destruct (refetch_data _ _ _ _ _ _ _ _ _ _ R) as [D _]. rewrite <- D.
      destruct r1; [eauto| |]; injection E as <- <- <- <-; split; try reflexivity; intros; discriminate.
  Qed.

  Lemma prefetch_data b d p save r p' save' : for_prefetch save -> target b = Some d -> prefetch_bump nan b p save = (r, p', save') ->
    pf_data p' = snd (fst (md_bump b (pf_data p) None)) /\ forall x, r = Ok x -> Ok x = fst (fst (md_bump b (pf_data p) None)).
  Proof.
    intros F TB E. destruct (md_bump b (pf_data p) None) as [[r0 md0] s0] eqn:M.
    destruct (bump_md_shape b (pf_data p) None r0 md0 s0 d I TB M) as [-> ->]. cbn [fst snd]. fold (known (pf_data p) d).
    assert (X : forall sd sf sv r p' sd' sf' sv', prefetch_bump_saved nan b p sd sf sv = (r, p', sd', sf', sv') ->
      pf_data p' = bumped_md b (pf_data p) /\ forall x, r = Ok x -> x = known (pf_data p) d).
    { intros sd sf sv r1 p1 sd1 sf1 sv1 E1. rewrite (bump_dispatch nan b p _ _ _ d TB) in E1.
      set (p0 := mkPrefetch _ _ _ _) in E1. destruct (refetch_for _ _ _ _ _ _) as [[[r2 p2] sf2] sv2] eqn:R. injection E1 as <- <- _ _ _.
      change (bumped_md b (pf_data p)) with (pf_data p0).
      destruct d; cbn [refetch_for] in R; try (destruct (refetch_data _ _ _ _ _ _ _ _ _ _ R) as [A B]; split; [exact A|intros x Y; rewrite (B x Y)]; destruct (known _ _); reflexivity).
      exact (refetch_each_data _ _ _ _ _ _ _ _ _ R). }
    destruct save as [[x|x y z|x y]|]; try destruct F; unfold prefetch_bump in E;
      (match type of E with context [prefetch_bump_saved ?a ?b ?c ?d ?e ?f] => destruct (prefetch_bump_saved a b c d e f) as [[[[r1 p1] sd1] sf1] sv1] eqn:Q end);
      injection E as <- <- _; destruct (X _ _ _ _ _ _ _ _ Q) as [A B]; (split; [exact A|]); intros ? Y; rewrite (B _ Y); reflexivity.
  Qed.

  Lemma prefetch_wrong_area b p save : ~ for_prefetch save -> exists m, prefetch_bump nan b p save = (Err m, p, save).
  Proof. intros F. destruct save as [[x|x y z|x y]|]; try (exfalso; apply F; exact I); unfold prefetch_bump; eauto. Qed.
End Restore.

