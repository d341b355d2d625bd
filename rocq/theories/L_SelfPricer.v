(** Lemmas about the self-pricer. *)
From Coq Require Import ZArith List String Bool Lia Reals Lra.
From Verif Require Import Prelude Num M_Dates M_Calendar M_Curves M_Fixings M_Forward M_Vol M_Instruments M_Deps M_Risk M_Reports
  S_Instruments S_Risk S_Reports L_Num L_Fixings L_Risk L_Prefetch L_Reports.
Import ListNotations.
Open Scope list_scope.

Section Self.
  Context {T : Type} {N : Num T} {TR : Trans T}.
  Variable nan : T.
  Variable cdf : T -> T.
  Implicit Types p : prefetch T.

  Ltac split_matches E :=
    repeat (match type of E with context [match ?c with _ => _ end] =>
              lazymatch c with context [match _ with _ => _ end] => fail | _ => destruct c end end; cbv iota beta in E).
  Ltac split_goal :=
    repeat (match goal with |- context [match ?c with _ => _ end] =>
              lazymatch c with context [match _ with _ => _ end] => fail | _ => destruct c end end; cbv iota beta).

  Lemma refetch_saving_same id a b sf sv p : fst (fst (refetch nan id a b sf sv p)) = fst (fst (refetch nan id a b None None p)).
  Proof. unfold refetch, refetch_vol. split_goal; reflexivity. Qed.

  Lemma refetch_each_saving_same ids a : forall sf sv p,
    fst (fst (refetch_each nan ids a sf sv p)) = fst (fst (refetch_each nan ids a None None p)).
  Proof.
    induction ids as [|id ids IH]; cbn [refetch_each]; intros sf sv p; [reflexivity|].
    pose proof (refetch_saving_same id a false sf sv p) as Q. pose proof (refetch_saving_same id a false None None p) as Q0.
    destruct (refetch nan id a false sf sv p) as [[[r1 p1] f1] v1], (refetch nan id a false None None p) as [[[r2 p2] f2] v2].
    cbn [fst] in Q. injection Q as -> ->. destruct r2; try reflexivity. rewrite IH. symmetry. apply IH.
  Qed.

  Lemma prefetch_saving_same b p d f v : fst (prefetch_bump nan b p (Some (SavePrefetch d f v))) = fst (prefetch_bump nan b p None).
  Proof.
    unfold prefetch_bump. destruct (target b) as [t|] eqn:TB.
    - rewrite !(bump_dispatch nan b p _ _ _ t TB). 
      assert (Q : forall k q, fst (fst (refetch_for nan t k (Some f) (Some v) q)) = fst (fst (refetch_for nan t k None None q))).
      { intros k q. destruct t; cbn [refetch_for]; try apply refetch_saving_same. apply refetch_each_saving_same. }
      match goal with |- context [refetch_for nan t ?k (Some f) (Some v) ?q] => specialize (Q k q) end.
      destruct (refetch_for nan t _ (Some f) (Some v) _) as [[[r1 p1] f1] v1], (refetch_for nan t _ None None _) as [[[r2 p2] f2] v2].
      cbn [fst] in Q. injection Q as -> ->. reflexivity.
    - destruct b; try discriminate. unfold prefetch_bump_saved. split_goal; reflexivity.
  Qed.

  Lemma prefetch_unknown_same b p save p' save' : prefetch_bump nan b p save = (Ok false, p', save') -> p' = p.
  Proof.
    intros E. destruct (target b) as [t|] eqn:TB.
    - assert (F : for_prefetch save) by (destruct save as [[x|x y z|x y]|]; try discriminate E; exact I).
      destruct (prefetch_data nan b t p save _ _ _ F TB E) as [_ K]. specialize (K _ eq_refl).
      destruct (md_bump b (pf_data p) None) as [[r0 md0] s0] eqn:M. destruct (bump_md_shape b (pf_data p) None r0 md0 s0 t I TB M) as [-> ->].
      cbn [fst] in K. injection K as K.
      assert (L : look (pf_data p) t = None) by (destruct (look (pf_data p) t); [discriminate|reflexivity]).
      assert (X : forall sd sf sv r p' sd' sf' sv', prefetch_bump_saved nan b p sd sf sv = (r, p', sd', sf', sv') -> p' = p).
      { intros sd sf sv r1 p1 sd1 sf1 sv1. rewrite (bump_dispatch nan b p _ _ _ t TB). unfold known. rewrite L, refetch_unknown.
        intros Q. injection Q as _ <- _ _ _. rewrite (bumped_unknown_md b _ t TB L). now destruct p. }
      destruct save as [[x|x y z|x y]|]; try destruct F; unfold prefetch_bump in E;
        (match type of E with context [prefetch_bump_saved ?a ?b ?c ?d ?e ?f] => destruct (prefetch_bump_saved a b c d e f) as [[[[r1 p1] sd1] sf1] sv1] eqn:Q end);
        injection E as _ <- _; eapply X; exact Q.
    - destruct b as [| | | | |g]; try discriminate.
      assert (X : forall sd sf sv p' sd' sf' sv', prefetch_bump_saved nan (BSpotDate g) p sd sf sv = (Ok false, p', sd', sf', sv') -> p' = p).
      { intros sd sf sv p1 sd1 sf1 sv1. unfold prefetch_bump_saved. destruct (bsd_date g =? _)%Z; [intros Q; now inversion Q|].
        destruct (md_bump_spot_date _ _ _ _); try discriminate. destruct (refetch_all _ _) as [[]]; discriminate. }
      destruct save as [[x|x y z|x y]|]; try discriminate E; unfold prefetch_bump in E;
        (match type of E with context [prefetch_bump_saved ?a ?b ?c ?d ?e ?f] => destruct (prefetch_bump_saved a b c d e f) as [[[[r1 p1] sd1] sf1] sv1] eqn:Q end);
        injection E as -> <- _; eapply X; exact Q.
  Qed.

  Lemma refetch_areas id a b f v p r p' sf sv : refetch nan id a b (Some f) (Some v) p = (r, p', sf, sv) ->
    exists f' v', sf = Some f' /\ sv = Some v'.
  Proof. unfold refetch, refetch_vol. intros E. split_matches E; inversion E; subst; cbn [option_map]; eauto. Qed.

  Lemma refetch_each_areas ids a : forall f v p r p' sf sv, refetch_each nan ids a (Some f) (Some v) p = (r, p', sf, sv) ->
    exists f' v', sf = Some f' /\ sv = Some v'.
  Proof.
    induction ids as [|id ids IH]; cbn [refetch_each]; intros f v p r p' sf sv E; [inversion E; subst; eauto|].
    destruct (refetch nan id a false (Some f) (Some v) p) as [[[r1 p1] f1] v1] eqn:R.
    destruct (refetch_areas _ _ _ _ _ _ _ _ _ _ R) as (f' & v' & -> & ->). destruct r1; [eauto| |]; inversion E; subst; eauto.
  Qed.

  Lemma prefetch_area b p d f v r p' s' : prefetch_bump nan b p (Some (SavePrefetch d f v)) = (r, p', s') ->
    exists d' f' v', s' = Some (SavePrefetch d' f' v').
  Proof.
    unfold prefetch_bump. destruct (prefetch_bump_saved nan b p (Some d) (Some f) (Some v)) as [[[[r1 p1] sd1] sf1] sv1] eqn:Q.
    assert (X : exists d' f' v', sd1 = Some d' /\ sf1 = Some f' /\ sv1 = Some v').
    { destruct (target b) as [t|] eqn:TB.
      - rewrite (bump_dispatch nan b p _ _ _ t TB) in Q. destruct (refetch_for _ _ _ _ _ _) as [[[r2 p2] f2] v2] eqn:RF.
        injection Q as <- <- <- <- <-. cbn [option_map].
        assert (exists f' v', f2 = Some f' /\ v2 = Some v') as (f' & v' & -> & ->).
        { destruct t; cbn [refetch_for] in RF; first [eapply refetch_areas; exact RF|eapply refetch_each_areas; exact RF]. }
        eauto 6.
      - destruct b as [| | | | |g]; try discriminate. unfold prefetch_bump_saved in Q. destruct (bsd_date g =? _)%Z; [inversion Q; subst; eauto 6|].
        destruct (md_bump_spot_date _ _ _ _); [|inversion Q; subst; eauto 6|inversion Q; subst; eauto 6].
        destruct (refetch_all _ _). inversion Q; subst; eauto 6. }
    destruct X as (d' & f' & v' & -> & -> & ->). intros E. inversion E; subst. eauto.
  Qed.

  Lemma pair_disciplined deps (b b' : bump T) : same_target b b' -> disciplined deps [] [(b, true); (b', false)] /\ target b <> None /\ target b' = target b.
  Proof.
    intros [(id & f & f' & -> & ->)|(id & f & f' & -> & ->)]; (split; [|split; [discriminate|reflexivity]]).
    - apply (dis_first _ _ _ (SpotFor id)); [reflexivity|intros []|repeat constructor; intros []|intros ? ? []|].
      apply (dis_again _ _ _ (SpotFor id)); [reflexivity|now left|constructor].
    - apply (dis_first _ _ _ (VolFor id)); [reflexivity|intros []|repeat constructor; intros []|intros ? ? []|].
      apply (dis_again _ _ _ (VolFor id)); [reflexivity|now left|constructor].
  Qed.

  Lemma bump_outcome b p save r p' save' t : target b = Some t -> prefetch_bump nan b p save = (Ok r, p', save') ->
    r = known (pf_data p) t /\ pf_data p' = bumped_md b (pf_data p).
  Proof.
    intros TB E. assert (F : for_prefetch save) by (destruct save as [[x|x y z|x y]|]; try discriminate E; exact I).
    destruct (prefetch_data nan b t p save _ _ _ F TB E) as [D K]. specialize (K _ eq_refl).
    destruct (md_bump b (pf_data p) None) as [[r0 md0] s0] eqn:M. destruct (bump_md_shape b (pf_data p) None r0 md0 s0 t I TB M) as [-> ->].
    cbn [fst snd] in K, D. injection K as K. auto.
  Qed.

  Lemma self_well_behaved : well_behaved (self_ops nan cdf) saved_prefetch_new.
  Proof.
    constructor; cbn [self_ops op_new_saveable op_bump op_restore].
    - reflexivity.
    - intros b sp. unfold self_bump, saved_prefetch_new. pose proof (prefetch_saving_same b (sp_context sp) saved_data_new [] []) as Q.
      destruct (prefetch_bump nan b (sp_context sp) (Some _)) as [[r1 p1] s1], (prefetch_bump nan b (sp_context sp) None) as [[r2 p2] s2].
      cbn [fst] in *. now injection Q as -> ->.
    - intros b sp save p' save'. unfold self_bump. destruct (prefetch_bump nan b (sp_context sp) save) as [[r1 p1] s1] eqn:Q. intros E.
      inversion E; subst. apply prefetch_unknown_same in Q as ->. now destruct sp.
    - intros b b' sp r p1 s1 r' p2 s2 ST. unfold self_bump.
      destruct (prefetch_bump nan b (sp_context sp) (Some saved_prefetch_new)) as [[r1 q1] t1] eqn:Q1. intros E1. injection E1 as -> <- ->.
      cbn [sp_context sp_instruments]. destruct (prefetch_bump nan b' q1 None) as [[r2 q2] t2] eqn:Q2. intros E2. injection E2 as -> <- ->.
      destruct (pair_disciplined (pf_deps (sp_context sp)) b b' ST) as (D & NT & TT). destruct (target b) as [t|] eqn:TB; [|congruence].
      destruct (bump_outcome _ _ _ _ _ _ t TB Q1) as [-> D1]. destruct (bump_outcome _ _ _ _ _ _ t TT Q2) as [-> D2]. split.
      { rewrite D1. unfold known. destruct (look (pf_data (sp_context sp)) t) eqn:L.
        - rewrite (bumped_target b _ t _ TB L). reflexivity.
        - rewrite (bumped_unknown b _ t t TB L). reflexivity. }
      pose proof Q1 as QA. unfold saved_prefetch_new in QA. apply prefetch_area in QA as (d' & f' & v' & ->).
      exists (SavePrefetch d' f' v'). split; [reflexivity|]. split; [|reflexivity].
      assert (BW : bumps_with nan [(b, true); (b', false)] (sp_context sp) saved_prefetch_new q2 (SavePrefetch d' f' v')).
      { eapply bw_step; [exact Q1|]. cbn [keep]. eapply bw_step; [exact Q2|]. unfold keep.
        destruct s2 as [t2|]; [|apply bw_nil]. exfalso. unfold prefetch_bump in Q2. destruct (prefetch_bump_saved _ _ _ _ _ _) as [[[[? ?] ?] ?] ?]. discriminate. }
      unfold self_restore. cbn [sp_context sp_instruments]. rewrite (restore_undoes_all nan _ _ _ _ D BW). now destruct sp.
  Qed.
End Self.
