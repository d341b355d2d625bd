(** Lemmas about bumping and restoring market data. *)
From Coq Require Import ZArith List String Bool.
From Verif Require Import Prelude Num M_Dates M_Calendar M_Curves M_Fixings M_Forward M_Vol M_Instruments M_Deps M_Risk
  S_Deps S_Risk L_Fixings.
Import ListNotations.
Open Scope list_scope.

Section Maps.
  Context {A : Type}.
  Implicit Types m s : smap A.

  Lemma put_put k (v w : A) m : put k v (put k w m) = put k v m.
  Proof.
    induction m as [|[k' x] m IH]; cbn [put]; [now rewrite String.eqb_refl|].
    destruct (String.eqb k k') eqn:E; cbn [put]; rewrite E; [reflexivity|now rewrite IH].
  Qed.

  Lemma put_get k (v : A) m : get k m = Some v -> put k v m = m.
  Proof.
    induction m as [|[k' x] m IH]; cbn [get put]; [discriminate|].
    destruct (String.eqb k k') eqn:E; [now intros [= ->]|]. intros Q. now rewrite IH.
  Qed.

  Lemma put_comm k k' (v w : A) m : k <> k' -> get k m <> None -> put k v (put k' w m) = put k' w (put k v m).
  Proof.
    intros D. induction m as [|[k2 x] m IH]; cbn [get put]; [congruence|].
    destruct (String.eqb_spec k k2) as [->|Dk].
    - intros _. destruct (String.eqb_spec k' k2) as [->|Dk']; [congruence|]. cbn [put].
      rewrite String.eqb_refl. now destruct (String.eqb_spec k' k2).
    - intros Q. destruct (String.eqb_spec k' k2) as [->|Dk']; cbn [put].
      + rewrite String.eqb_refl. now destruct (String.eqb_spec k k2).
      + destruct (String.eqb_spec k k2); [congruence|]. destruct (String.eqb_spec k' k2); [congruence|]. now rewrite IH.
  Qed.

  Lemma put_new k (v : A) m : get k m = None -> put k v m = m ++ [(k, v)].
  Proof.
    induction m as [|[k' x] m IH]; cbn [get put]; [reflexivity|].
    destruct (String.eqb k k'); [discriminate|]. intros Q. cbn. now rewrite IH.
  Qed.

  Lemma keys_put k (v : A) m : get k m <> None -> keys (put k v m) = keys m.
  Proof.
    induction m as [|[k' x] m IH]; cbn [get put keys map]; [congruence|].
    destruct (String.eqb_spec k k'); cbn [map fst]; [reflexivity|]. intros Q. f_equal. now apply IH.
  Qed.

  Lemma get_put_ne k k' (v : A) m : get k m <> None -> get k (put k' v m) <> None.
  Proof.
    intros Q. destruct (String.eqb_spec k' k) as [->|D]; [rewrite get_put_same; congruence|now rewrite get_put_other].
  Qed.

  Lemma get_put_none k k' (v : A) m : get k' m <> None -> get k m = None -> get k (put k' v m) = None.
  Proof. intros P Q. destruct (String.eqb_spec k' k) as [->|D]; [congruence|now rewrite get_put_other]. Qed.

  Lemma copy_cons m kv s : copy_from_saved m (kv :: s) = copy_from_saved (put (fst kv) (snd kv) m) s.
  Proof. reflexivity. Qed.

  Lemma copy_app m s s' : copy_from_saved m (s ++ s') = copy_from_saved (copy_from_saved m s) s'.
  Proof. apply fold_left_app. Qed.

  (** A saved key may be changed freely. *)
  Lemma copy_put_saved k (v : A) s : forall m, get k s <> None -> get k m <> None -> copy_from_saved (put k v m) s = copy_from_saved m s.
  Proof.
    induction s as [|[k1 v1] s IH]; intros m Q M; [cbn in Q; congruence|]. rewrite !copy_cons. cbn [fst snd get] in *.
    destruct (String.eqb_spec k k1) as [->|D]; [now rewrite put_put|].
    rewrite <- put_comm by assumption. apply IH; [exact Q|now apply get_put_ne].
  Qed.

  Lemma copy_put_other k (v : A) s : forall m, get k s = None -> get k m <> None -> copy_from_saved (put k v m) s = put k v (copy_from_saved m s).
  Proof.
    induction s as [|[k1 v1] s IH]; intros m Q M; [reflexivity|]. rewrite !copy_cons. cbn [fst snd get] in *.
    destruct (String.eqb_spec k k1) as [->|D]; [discriminate|].
    rewrite <- put_comm by assumption. apply IH; [exact Q|now apply get_put_ne].
  Qed.

  Lemma get_copy_other k s : forall m, get k s = None -> get k (copy_from_saved m s) = get k m.
  Proof.
    induction s as [|[k1 v1] s IH]; intros m Q; [reflexivity|]. rewrite copy_cons. cbn [fst snd get] in *.
    destruct (String.eqb_spec k k1) as [->|D]; [discriminate|]. rewrite IH by exact Q. apply get_put_other. congruence.
  Qed.

  (** Saving a key before changing it. *)
  Lemma copy_save k (v w : A) s m : get k s = None -> get k m = Some v ->
    copy_from_saved (put k w m) (put k v s) = copy_from_saved m s.
  Proof.
    intros Q M. rewrite (put_new k v s Q). rewrite copy_app, copy_put_other by congruence. cbn.
    rewrite put_put. apply put_get. now rewrite get_copy_other.
  Qed.

  Lemma get_copy_saved k s : forall m, NoDup (keys s) -> forall v, get k s = Some v -> get k (copy_from_saved m s) = Some v.
  Proof.
    induction s as [|[k1 v1] s IH]; intros m N v Q; [discriminate|]. rewrite copy_cons. cbn [fst snd get keys map] in *.
    inversion N; subst. destruct (String.eqb_spec k k1) as [->|D]; [|now apply IH].
    injection Q as ->. rewrite get_copy_other; [apply get_put_same|].
    assert (G : forall t : smap A, ~ In k1 (map fst t) -> get k1 t = None).
    { induction t as [|[k2 v2] t IHt]; [reflexivity|]. cbn [get map fst In]. intros NI.
      destruct (String.eqb_spec k1 k2) as [->|]; [exfalso; apply NI; now left|]. apply IHt. intros I. apply NI. now right. }
    now apply G.
  Qed.

  Lemma get_none_in k s : get k s = None <-> ~ In k (keys s).
  Proof.
    induction s as [|[k2 v2] s IH]; cbn [get keys map fst In]; [easy|].
    destruct (String.eqb_spec k k2) as [->|D]; [split; [discriminate|intros Q; exfalso; apply Q; now left]|].
    rewrite IH. unfold keys. split; [intros Q [I|I]; [congruence|auto]|auto].
  Qed.

  Lemma nodup_put k (v : A) m : NoDup (keys m) -> NoDup (keys (put k v m)).
  Proof.
    intros N. destruct (get k m) eqn:G; [rewrite keys_put by congruence; exact N|].
    rewrite put_new by exact G. unfold keys. rewrite map_app. cbn. apply get_none_in in G.
    revert N G. unfold keys. induction (map fst m) as [|a l IH]; cbn; intros N G; [repeat constructor; auto|].
    inversion N; subst. constructor; [|apply IH; auto].
    rewrite in_app_iff. cbn. intros [I|[->|[]]]; [auto|]. apply G. now left.
  Qed.

  Lemma apply_bump_known k f m (v : A) sv : get k m = Some v ->
    apply_bump k f m sv = (true, put k (f v) m, option_map (put k v) sv).
  Proof. intros Q. unfold apply_bump. now rewrite Q. Qed.

  Lemma apply_bump_unknown k f m (sv : option (smap A)) : get k m = None -> apply_bump k f m sv = (false, m, sv).
  Proof. intros Q. unfold apply_bump. now rewrite Q. Qed.
End Maps.

Section Data.
  Context {T : Type} {N : Num T} {TR : Trans T}.
  Implicit Types md : market_data T.
  Implicit Types s : saved_data T.

  Definition saved_has s (d : datum) : bool :=
    match d with
    | SpotFor id => contains id (sd_spots s)
    | YieldFor cr => contains cr (sd_yields s)
    | BorrowFor id => contains id (sd_borrows s)
    | DivsFor id => contains id (sd_divs s)
    | VolFor id => contains id (sd_vols s)
    end.

  Definition saved_value s (d : datum) : option (value T) :=
    match d with
    | SpotFor id => option_map ASpot (get id (sd_spots s))
    | YieldFor cr => option_map ACurve (get cr (sd_yields s))
    | BorrowFor id => option_map ACurve (get id (sd_borrows s))
    | DivsFor id => option_map AStream (get id (sd_divs s))
    | VolFor id => option_map ASurface (get id (sd_vols s))
    end.

  Lemma contains_true {A} k (m : smap A) : contains k m = true <-> get k m <> None.
  Proof. unfold contains. destruct (get k m); split; congruence. Qed.
  Lemma contains_false {A} k (m : smap A) : contains k m = false <-> get k m = None.
  Proof. unfold contains. destruct (get k m); split; congruence. Qed.

  Lemma mkMarket_eta md : mkMarket (md_spot_date md) (md_spots md) (md_yields md) (md_borrows md) (md_divs md) (md_vols md) = md.
  Proof. now destruct md. Qed.
  Lemma mkSaved_eta s : mkSaved (sd_spots s) (sd_yields s) (sd_borrows s) (sd_divs s) (sd_vols s) = s.
  Proof. now destruct s. Qed.

  (** A bump of something unknown. *)
  Lemma bump_unknown b md sv d : target b = Some d -> look md d = None -> md_bump_saved b md sv = (Ok false, md, sv).
  Proof.
    destruct b; cbn [target]; intros [= <-] L; cbn [look] in L;
      (match type of L with option_map _ (get ?k ?m) = None => destruct (get k m) eqn:G; [discriminate|] end);
      cbn [md_bump_saved]; rewrite (apply_bump_unknown _ _ _ _ G); rewrite mkMarket_eta; destruct sv; cbn; rewrite ?mkSaved_eta; reflexivity.
  Qed.

  (** A bump of something known: what is saved. *)
  Definition save_datum (d : datum) md s : saved_data T :=
    match d with
    | SpotFor id => match get id (md_spots md) with Some x => mkSaved (put id x (sd_spots s)) (sd_yields s) (sd_borrows s) (sd_divs s) (sd_vols s) | None => s end
    | YieldFor id => match get id (md_yields md) with Some x => mkSaved (sd_spots s) (put id x (sd_yields s)) (sd_borrows s) (sd_divs s) (sd_vols s) | None => s end
    | BorrowFor id => match get id (md_borrows md) with Some x => mkSaved (sd_spots s) (sd_yields s) (put id x (sd_borrows s)) (sd_divs s) (sd_vols s) | None => s end
    | DivsFor id => match get id (md_divs md) with Some x => mkSaved (sd_spots s) (sd_yields s) (sd_borrows s) (put id x (sd_divs s)) (sd_vols s) | None => s end
    | VolFor id => match get id (md_vols md) with Some x => mkSaved (sd_spots s) (sd_yields s) (sd_borrows s) (sd_divs s) (put id x (sd_vols s)) | None => s end
    end.

  (** The market data after a bump. *)
  Definition bumped_md (b : bump T) md : market_data T := snd (fst (md_bump_saved b md None)).

  Lemma bump_shape b md sv d : target b = Some d ->
    md_bump_saved b md sv = (Ok (match look md d with Some _ => true | None => false end), bumped_md b md, option_map (save_datum d md) sv).
  Proof.
    intros TB. destruct (look md d) eqn:L.
    - revert L. destruct b; cbn [target] in TB; try discriminate TB; injection TB as <-; cbn [look]; intros L;
        (match type of L with option_map _ (get ?k ?m) = Some _ => destruct (get k m) eqn:G; [|discriminate] end);
        unfold bumped_md; cbn [md_bump_saved]; rewrite !(apply_bump_known _ _ _ _ _ G); destruct sv; cbn [option_map save_datum with_saved]; rewrite ?G; reflexivity.
    - unfold bumped_md. rewrite !(bump_unknown b md _ d TB L). cbn [fst snd].
      assert (E : forall s, save_datum d md s = s).
      { intros s. destruct d; cbn [look save_datum] in *; match goal with |- match get ?k ?m with _ => _ end = _ => destruct (get k m); [discriminate|reflexivity] end. }
      destruct sv; cbn [option_map]; now rewrite ?E.
  Qed.

  Lemma bumped_target b md d v : target b = Some d -> look md d = Some v -> look (bumped_md b md) d = Some (after b v).
  Proof.
    destruct b as [id f|id f|id f|id f|id f|f]; cbn [target]; intros [= <-]; cbn [look]; intros L;
      (match type of L with option_map _ (get ?k ?m) = Some _ => destruct (get k m) eqn:G; [|discriminate] end);
      injection L as <-; unfold bumped_md; cbn [md_bump_saved]; rewrite !(apply_bump_known _ _ _ _ _ G); cbn [fst snd look md_spots md_yields md_borrows md_divs md_vols];
      rewrite get_put_same; cbn [option_map]; destruct f; reflexivity.
  Qed.

  Lemma bumped_other b md d d' : target b = Some d -> d' <> d -> look (bumped_md b md) d' = look md d'.
  Proof.
    intros TB D. destruct (look md d) eqn:L; [|unfold bumped_md; now rewrite (bump_unknown b md None d TB L)].
    revert TB L. destruct b as [id f|id f|id f|id f|id f|f]; cbn [target]; intros [= <-]; cbn [look]; intros L;
      (match type of L with option_map _ (get ?k ?m) = Some _ => destruct (get k m) eqn:G; [|discriminate] end);
      unfold bumped_md; cbn [md_bump_saved]; rewrite !(apply_bump_known _ _ _ _ _ G); cbn [fst snd];
      destruct d'; cbn [look md_spots md_yields md_borrows md_divs md_vols]; try reflexivity;
      rewrite get_put_other by congruence; reflexivity.
  Qed.

  Lemma bumped_date b md : md_spot_date (bumped_md b md) = md_spot_date md.
  Proof.
    destruct b as [id f|id f|id f|id f|id f|f]; unfold bumped_md; cbn [md_bump_saved]; try reflexivity;
      match goal with |- context [apply_bump ?a ?b ?c ?d] => destruct (apply_bump a b c d) as [[? ?] ?] end; reflexivity.
  Qed.

  Lemma bumped_known b md d d' : target b = Some d -> look md d' <> None -> look (bumped_md b md) d' <> None.
  Proof.
    intros TB L. assert (DD : {d' = d} + {d' <> d}) by (repeat decide equality). destruct DD as [->|D].
    - destruct (look md d) as [v|] eqn:Q; [|congruence]. rewrite (bumped_target b md d v TB Q). discriminate.
    - now rewrite (bumped_other b md d d' TB D).
  Qed.

  Lemma bumped_unknown b md d d' : target b = Some d -> look md d' = None -> look (bumped_md b md) d' = None.
  Proof.
    intros TB L. assert (DD : {d' = d} + {d' <> d}) by (repeat decide equality). destruct DD as [->|D].
    - unfold bumped_md. now rewrite (bump_unknown b md None d TB L).
    - now rewrite (bumped_other b md d d' TB D).
  Qed.

  (** Restoring, one step at a time. *)
  Lemma restore_first b md s d : target b = Some d -> saved_has s d = false ->
    md_restore_saved (save_datum d md s) (bumped_md b md) = md_restore_saved s md.
  Proof.
    intros TB SH. destruct (look md d) as [v|] eqn:L.
    - revert TB L. destruct b as [id f|id f|id f|id f|id f|f]; cbn [target]; intros [= <-]; cbn [look saved_has] in *; intros L;
        (match type of L with option_map _ (get ?k ?m) = Some _ => destruct (get k m) eqn:G; [|discriminate] end);
        apply contains_false in SH; unfold bumped_md; cbn [md_bump_saved save_datum]; rewrite !(apply_bump_known _ _ _ _ _ G);
        rewrite G; cbn [fst snd]; unfold md_restore_saved;
        cbn [md_spot_date md_spots md_yields md_borrows md_divs md_vols sd_spots sd_yields sd_borrows sd_divs sd_vols];
        rewrite (copy_save _ _ _ _ _ SH G); reflexivity.
    - pose proof (bump_shape b md (Some s) d TB) as Sh. rewrite (bump_unknown b md _ d TB L) in Sh.
      unfold bumped_md. rewrite (bump_unknown b md _ d TB L). cbn [fst snd].
      assert (E : save_datum d md s = s) by (cbn [option_map] in Sh; injection Sh; congruence). now rewrite E.
  Qed.

  Lemma restore_again b md s d : target b = Some d -> (look md d <> None -> saved_has s d = true) ->
    md_restore_saved s (bumped_md b md) = md_restore_saved s md.
  Proof.
    intros TB SH. destruct (look md d) as [v|] eqn:L.
    - specialize (SH ltac:(congruence)). revert TB L.
      destruct b as [id f|id f|id f|id f|id f|f]; cbn [target]; intros [= <-]; cbn [look saved_has] in *; intros L;
        (match type of L with option_map _ (get ?k ?m) = Some _ => destruct (get k m) eqn:G; [|discriminate] end);
        apply contains_true in SH; unfold bumped_md; cbn [md_bump_saved]; rewrite !(apply_bump_known _ _ _ _ _ G);
        cbn [fst snd]; unfold md_restore_saved;
        cbn [md_spot_date md_spots md_yields md_borrows md_divs md_vols];
        rewrite copy_put_saved by (congruence || exact SH); reflexivity.
    - unfold bumped_md. now rewrite (bump_unknown b md _ d TB L).
  Qed.

  Lemma saved_has_save d d' md s : look md d <> None -> saved_has (save_datum d md s) d = true /\
    (saved_has s d' = true -> saved_has (save_datum d md s) d' = true) /\
    (d' <> d -> saved_has (save_datum d md s) d' = saved_has s d').
  Proof.
    intros L. destruct d as [id|id|id|id|id]; cbn [look save_datum] in *;
      (match type of L with option_map _ (get ?k ?m) <> None => destruct (get k m) eqn:G; [|exfalso; now apply L] end);
      (split; [cbn [saved_has]; apply contains_true; cbn [sd_spots sd_yields sd_borrows sd_divs sd_vols]; rewrite get_put_same; discriminate|]);
      (split; destruct d'; cbn [saved_has sd_spots sd_yields sd_borrows sd_divs sd_vols]; try reflexivity; try (intros Q; exact Q)).
    all: try (rewrite !contains_true; apply get_put_ne).
    all: intros Q; unfold contains; rewrite get_put_other by congruence; reflexivity.
  Qed.

  Lemma save_unknown d md s : look md d = None -> save_datum d md s = s.
  Proof.
    intros L. destruct d; cbn [look save_datum] in *; match goal with |- match get ?k ?m with _ => _ end = _ => destruct (get k m); [discriminate|reflexivity] end.
  Qed.

  Lemma restore_nothing md : md_restore_saved saved_data_new md = md.
  Proof. apply mkMarket_eta. Qed.

  (** Histories. *)
  Lemma history_step b saving ops md s d : target b = Some d ->
    bumped_data ((b, saving) :: ops) md (SaveData s) =
    bumped_data ops (bumped_md b md) (SaveData (if saving then save_datum d md s else s)).
  Proof.
    intros TB. cbn [bumped_data]. destruct saving; cbn [if_saving md_bump].
    - rewrite (bump_shape b md (Some s) d TB). cbn [option_map keep]. reflexivity.
    - rewrite (bump_shape b md None d TB). cbn [option_map keep]. reflexivity.
  Qed.

  Lemma restore_history ops : forall seen md s md' (s' : saveable T), saved_first seen ops ->
    (forall d, In d seen -> look md d <> None -> saved_has s d = true) ->
    (forall d, ~ In d seen -> saved_has s d = false) ->
    bumped_data ops md (SaveData s) = (md', s') ->
    exists t, s' = SaveData t /\ md_restore_saved t md' = md_restore_saved s md.
  Proof.
    induction ops as [|[b saving] ops IH]; intros seen md s md' s' SF C1 C2 E.
    - injection E as <- <-. now exists s.
    - assert (TB : exists d, target b = Some d) by (inversion SF; subst; eauto). destruct TB as [d TB].
      rewrite (history_step _ _ _ _ _ d TB) in E. inversion SF; subst;
        (assert (d0 = d) as -> by congruence).
      + edestruct (IH (d :: seen)) as (t & Q1 & Q2); [eassumption| | |exact E|].
        * intros d1 I L. destruct (look md d) as [v|] eqn:LD.
          -- destruct (saved_has_save d d1 md s ltac:(congruence)) as (X & Y & Z).
             destruct I as [->|I]; [exact X|]. apply Y. apply C1; [exact I|]. intros Q. apply L. now apply (bumped_unknown b md d).
          -- rewrite save_unknown by exact LD. destruct I as [->|I].
             ++ exfalso. apply L. now apply (bumped_unknown b md d1).
             ++ apply C1; [exact I|]. intros Q. apply L. now apply (bumped_unknown b md d).
        * intros d1 NI. destruct (look md d) as [v|] eqn:LD.
          -- destruct (saved_has_save d d1 md s ltac:(congruence)) as (X & Y & Z). rewrite Z by (intros ->; apply NI; now left).
             apply C2. intros I. apply NI. now right.
          -- rewrite save_unknown by exact LD. apply C2. intros I. apply NI. now right.
        * exists t. split; [exact Q1|]. rewrite Q2. apply restore_first; auto.
      + edestruct (IH seen) as (t & Q1 & Q2); [eassumption| | |exact E|].
        * intros d1 I L. apply C1; [exact I|]. intros Q. apply L. now apply (bumped_unknown b md d).
        * exact C2.
        * exists t. split; [exact Q1|]. rewrite Q2. apply restore_again with (d := d); auto.
  Qed.

  Lemma restore_undoes ops md md' (s : saveable T) : saved_first [] ops -> bumped_data ops md (SaveData saved_data_new) = (md', s) ->
    md_restore s md' = (Ok tt, md).
  Proof.
    intros SF E. destruct (restore_history ops [] md saved_data_new md' s SF) as (t & -> & Q);
      [intros d []|intros d _; now destruct d|exact E|].
    cbn [md_restore]. now rewrite Q, restore_nothing.
  Qed.

  (** What a restored datum is, in general. *)
  Definition good_saved s : Prop := NoDup (keys (sd_spots s)) /\ NoDup (keys (sd_yields s)) /\ NoDup (keys (sd_borrows s)) /\
    NoDup (keys (sd_divs s)) /\ NoDup (keys (sd_vols s)).

  Lemma good_save d md s : good_saved s -> good_saved (save_datum d md s).
  Proof.
    unfold good_saved. intros (A & B & C & D & E).
    destruct d as [id|id|id|id|id]; cbn [save_datum];
      match goal with |- context [get ?k ?m] => destruct (get k m) end; cbn; repeat split; auto; now apply nodup_put.
  Qed.

  Lemma restored_look s md d : good_saved s ->
    look (md_restore_saved s md) d = match saved_value s d with Some v => Some v | None => look md d end.
  Proof.
    intros (A & B & C & D & E).
    destruct d as [id|id|id|id|id]; unfold md_restore_saved; cbn [look saved_value md_spots md_yields md_borrows md_divs md_vols];
      match goal with |- context [option_map _ (get ?k ?m)] => idtac end.
    all: match goal with |- option_map _ (get ?k (copy_from_saved ?m ?t)) = _ => destruct (get k t) eqn:G;
      [rewrite (get_copy_saved k t m ltac:(assumption) _ G)|rewrite (get_copy_other k t m G)]; reflexivity end.
  Qed.


  Lemma saved_value_same d md s v : look md d = Some v -> saved_value (save_datum d md s) d = Some v.
  Proof.
    intros L. destruct d as [id|id|id|id|id]; cbn [look save_datum saved_value] in *;
      (match type of L with option_map _ (get ?k ?m) = _ => destruct (get k m) eqn:G; [|discriminate] end);
      cbn [sd_spots sd_yields sd_borrows sd_divs sd_vols]; rewrite get_put_same; exact L.
  Qed.

  Lemma saved_value_other d d' md s : d' <> d -> saved_value (save_datum d md s) d' = saved_value s d'.
  Proof.
    intros D. destruct d as [id|id|id|id|id]; cbn [save_datum];
      (match goal with |- context [get ?k ?m] => destruct (get k m) eqn:G; [|reflexivity] end);
      destruct d'; cbn [saved_value sd_spots sd_yields sd_borrows sd_divs sd_vols]; try reflexivity;
      rewrite get_put_other by congruence; reflexivity.
  Qed.

  (** A history, one operation at a time, whatever it bumps. *)
  Lemma history_any b saving ops md s : exists md' s',
    bumped_data ((b, saving) :: ops) md (SaveData s) = bumped_data ops md' (SaveData s') /\
    (good_saved s -> good_saved s') /\
    (forall d, ~ saves (b, saving) d -> saved_value s' d = saved_value s d) /\
    (forall d, look md d <> None -> look md' d <> None) /\
    (forall d v, saves (b, saving) d -> look md d = Some v -> saved_value s' d = Some v).
  Proof.
    destruct (target b) as [d|] eqn:TB.
    - rewrite (history_step _ _ _ _ _ d TB). exists (bumped_md b md), (if saving then save_datum d md s else s).
      split; [reflexivity|]. split; [|split; [|split]].
      + destruct saving; [apply good_save|auto].
      + intros d' NS. destruct saving; [|reflexivity]. apply saved_value_other. intros ->. apply NS. now split.
      + intros d' K. now apply (bumped_known b md d).
      + intros d' v (SV & TB') L. cbn [snd fst] in *. subst saving. assert (d' = d) as -> by congruence. now apply saved_value_same.
    - destruct b; cbn [target] in TB; try discriminate. exists md, s. split.
      + cbn [bumped_data]. destruct saving; reflexivity.
      + split; [auto|]. split; [auto|]. split; [auto|]. intros d v (_ & TB'). discriminate.
  Qed.

  Lemma saved_history ops : forall md s md' (s' : saveable T), good_saved s -> bumped_data ops md (SaveData s) = (md', s') ->
    exists t, s' = SaveData t /\ good_saved t /\ (forall d, look md d <> None -> look md' d <> None) /\
      forall d, (forall op, In op ops -> ~ saves op d) -> saved_value t d = saved_value s d.
  Proof.
    induction ops as [|[b saving] ops IH]; intros md s md' s' G E.
    - injection E as <- <-. exists s. auto.
    - destruct (history_any b saving ops md s) as (md1 & s1 & E1 & G1 & V1 & K1 & _). rewrite E1 in E.
      destruct (IH _ _ _ _ (G1 G) E) as (t & Q1 & Q2 & K & Q3). exists t. split; [exact Q1|]. split; [exact Q2|]. split; [auto|].
      intros d NS. rewrite Q3 by (intros op I; apply NS; now right). apply V1. apply NS. now left.
  Qed.

  Lemma good_new : good_saved saved_data_new.
  Proof. repeat split; constructor. Qed.

  Lemma bumped_app ops ops' : forall md (s : saveable T), bumped_data (ops ++ ops') md s =
    let '(md', s') := bumped_data ops md s in bumped_data ops' md' s'.
  Proof.
    induction ops as [|[b saving] ops IH]; intros md s; [reflexivity|]. cbn [app bumped_data].
    destruct (md_bump b md (if_saving saving s)) as [[r md'] s']. apply IH.
  Qed.

  (** Restoring gives each datum the value it had before it was last bumped with saving. *)
  Lemma restored_last before b after md d md1 (s1 : saveable T) md' (s' : saveable T) :
    look md d <> None -> saves (b, true) d -> (forall op, In op after -> ~ saves op d) ->
    bumped_data before md (SaveData saved_data_new) = (md1, s1) ->
    bumped_data (before ++ (b, true) :: after) md (SaveData saved_data_new) = (md', s') ->
    exists md2, md_restore s' md' = (Ok tt, md2) /\ look md2 d = look md1 d.
  Proof.
    intros K SB NS E1 E. rewrite bumped_app, E1 in E.
    destruct (saved_history _ _ _ _ _ good_new E1) as (t1 & -> & G1 & K1 & _). specialize (K1 d K).
    destruct (look md1 d) as [v|] eqn:L; [|congruence].
    destruct (history_any b true after md1 t1) as (md2 & s2 & E2 & G2 & _ & _ & V2). rewrite E2 in E.
    destruct (saved_history _ _ _ _ _ (G2 G1) E) as (t & -> & G & _ & V).
    exists (md_restore_saved t md'). split; [reflexivity|]. rewrite (restored_look t md' d G).
    now rewrite (V d NS), (V2 d v SB L).
  Qed.

  Lemma restored_unsaved ops md d md' (s' : saveable T) : (forall op, In op ops -> ~ saves op d) ->
    bumped_data ops md (SaveData saved_data_new) = (md', s') ->
    exists md2, md_restore s' md' = (Ok tt, md2) /\ look md2 d = look md' d.
  Proof.
    intros NS E. destruct (saved_history _ _ _ _ _ good_new E) as (t & -> & G & _ & V).
    exists (md_restore_saved t md'). split; [reflexivity|]. rewrite (restored_look t md' d G), (V d NS). now destruct d.
  Qed.

  Lemma bump_md_shape b md save r md' save' d : for_data save -> target b = Some d -> md_bump b md save = (r, md', save') ->
    r = Ok (match look md d with Some _ => true | None => false end) /\ md' = bumped_md b md.
  Proof.
    intros F TB E. destruct save as [[x|x y z|x y]|]; try destruct F; cbn [md_bump] in E;
      rewrite (bump_shape b md _ d TB) in E; cbn [option_map] in E; injection E as <- <- <-; auto.
  Qed.

  Lemma bump_does b md save r md' save' d v : for_data save -> target b = Some d -> look md d = Some v ->
    md_bump b md save = (r, md', save') ->
    r = Ok true /\ look md' d = Some (after b v) /\ md_spot_date md' = md_spot_date md /\
    (forall d', d' <> d -> look md' d' = look md d').
  Proof.
    intros F TB L E. destruct (bump_md_shape _ _ _ _ _ _ d F TB E) as (-> & ->). rewrite L.
    repeat split; [now apply bumped_target|apply bumped_date|]. intros d' D. now apply (bumped_other b md d).
  Qed.

  Lemma bump_unknown_id b md save d : for_data save -> target b = Some d -> look md d = None -> md_bump b md save = (Ok false, md, save).
  Proof.
    intros F TB L. destruct save as [[x|x y z|x y]|]; try destruct F; cbn [md_bump]; rewrite (bump_unknown b md _ d TB L); reflexivity.
  Qed.

  Lemma bump_date_refused f md save : for_data save -> exists m, md_bump (BSpotDate f) md save = (Err m, md, save).
  Proof. intros F. destruct save as [[x|x y z|x y]|]; try destruct F; cbn [md_bump md_bump_saved]; eauto. Qed.

  Lemma bump_wrong_area b md save : ~ for_data save -> exists m, md_bump b md save = (Err m, md, save).
  Proof. intros F. destruct save as [[x|x y z|x y]|]; try (exfalso; apply F; exact I); cbn [md_bump]; eauto. Qed.

  Lemma saving_no_effect b md s : fst (md_bump b md (Some (SaveData s))) = fst (md_bump b md None).
  Proof.
    destruct (target b) as [d|] eqn:TB.
    - cbn [md_bump]. rewrite !(bump_shape b md _ d TB). reflexivity.
    - destruct b; try discriminate. reflexivity.
  Qed.

  Lemma save_records b md s r md' save' d : target b = Some d -> md_bump b md (Some (SaveData s)) = (r, md', save') ->
    exists t, save' = Some (SaveData t).
  Proof. intros TB E. cbn [md_bump] in E. rewrite (bump_shape b md _ d TB) in E. injection E as <- <- <-. eexists. reflexivity. Qed.
End Data.

