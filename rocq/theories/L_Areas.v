(** Save areas that are cleared and used again, and pricers made from fixing tables. *)
From Coq Require Import ZArith List String Bool Reals.
From Verif Require Import Prelude Num M_Dates M_Calendar M_Fixings M_Forward M_Vol M_Instruments M_Deps M_Risk M_Reports M_MonteCarlo
  S_Instruments S_Deps S_Risk S_Reports S_MonteCarlo L_Num L_Instruments L_Risk L_Prefetch L_PrefetchTop L_Diffusion L_Models L_Paths L_MonteCarlo.
Import ListNotations.
Open Scope list_scope.

Section Areas.
  Context {T : Type} {N : Num T} {TR : Trans T}.
  Variable nan : T.

  Lemma data_area ops : forall (md : market_data T) d md' s', bumped_data ops md (SaveData d) = (md', s') -> clear s' = SaveData saved_data_new.
  Proof.
    induction ops as [|(b, saving) ops IH]; intros md d md' s'; cbn [bumped_data].
    - intros E. injection E as _ <-. reflexivity.
    - destruct (md_bump b md (if_saving saving (SaveData d))) as [[r m] sv] eqn:Q.
      assert (K : exists e, keep sv (SaveData d) = SaveData e).
      { destruct saving; cbn [if_saving md_bump] in Q.
        - destruct (md_bump_saved b md (Some d)) as [[r0 m0] [e|]]; injection Q as _ _ <-; cbn [keep option_map]; eauto.
        - destruct (md_bump_saved b md None) as [[r0 m0] e]; injection Q as _ _ <-; cbn [keep]; eauto. }
      destruct K as (e & ->). apply IH.
  Qed.

  Lemma bump_area b (p : prefetch T) saving d f v r p' s' : prefetch_bump nan b p (if_saving saving (SavePrefetch d f v)) = (r, p', s') ->
    exists d' f' v', keep s' (SavePrefetch d f v) = SavePrefetch d' f' v'.
  Proof.
    destruct saving; cbn [if_saving prefetch_bump]; intros Q.
    - destruct (prefetch_bump_saved nan b p (Some d) (Some f) (Some v)) as [[[[r0 q] [e|]] [f'|]] [v'|]]; injection Q as _ _ <-; cbn [keep]; eauto.
    - destruct (prefetch_bump_saved nan b p None None None) as [[[[r0 q] e] f'] v']; injection Q as _ _ <-; cbn [keep]; eauto.
  Qed.

  Lemma prefetch_area ops (p p' : prefetch T) s s' : bumps_with nan ops p s p' s' -> (exists d f v, s = SavePrefetch d f v) -> clear s' = saved_prefetch_new.
  Proof.
    induction 1 as [p s|b saving ops p s r p' s' p'' s'' B H IH|b saving p s r p' s' B]; intros (d & f & v & ->).
    - reflexivity.
    - apply IH. exact (bump_area _ _ _ _ _ _ _ _ _ B).
    - destruct (bump_area _ _ _ _ _ _ _ _ _ B) as (d' & f' & v' & ->). reflexivity.
  Qed.

  Lemma inner_area b (d : diffusion T) i sv : snd (fst (diffusion_bump_saved nan b d i sv)) = snd (prefetch_bump nan b (bd_context d) i).
  Proof.
    unfold diffusion_bump_saved. destruct (prefetch_bump nan b (bd_context d) i) as [[[x|m|m] c] i']; cbn [fst snd]; [|reflexivity..].
    match goal with |- snd (fst (match ?t with pair _ _ => _ end)) = _ => destruct t as [[? ?] ?] end. reflexivity.
  Qed.

  Lemma diffusion_area b (d : diffusion T) saving d0 f v paths r d' s' :
    diffusion_bump nan b d (if_saving saving (SaveDiffusion (SavePrefetch d0 f v) paths)) = (r, d', s') ->
    exists d1 f1 v1 paths1, keep s' (SaveDiffusion (SavePrefetch d0 f v) paths) = SaveDiffusion (SavePrefetch d1 f1 v1) paths1.
  Proof.
    destruct saving; cbn [if_saving diffusion_bump]; intros Q.
    - pose proof (inner_area b d (Some (SavePrefetch d0 f v)) (Some paths)) as I.
      destruct (diffusion_bump_saved nan b d (Some (SavePrefetch d0 f v)) (Some paths)) as [[[r0 q] i] e]. cbn [fst snd] in I.
      destruct (prefetch_bump nan b (bd_context d) (Some (SavePrefetch d0 f v))) as [[r1 p] i'] eqn:B. cbn [snd] in I. subst i'.
      destruct (bump_area b (bd_context d) true _ _ _ _ _ _ B) as (d1 & f1 & v1 & K).
      destruct i as [i|], e as [e|]; injection Q as _ _ <-; cbn [keep] in *; subst; eauto 6.
    - destruct (diffusion_bump_saved nan b d None None) as [[[r0 q] e] f']; injection Q as _ _ <-; cbn [keep]; eauto 6.
  Qed.

  Lemma mc_area cdf visit redraws h (mp mp' : mc_pricer T) s s' : pricer_bumps (mc_ops nan cdf visit redraws) h mp s mp' s' ->
    (exists d f v paths, s = SaveDiffusion (SavePrefetch d f v) paths) -> clear s' = diffusion_saveable.
  Proof.
    assert (K : forall b saving p d f v paths r p' s', op_bump (mc_ops nan cdf visit redraws) b p (if_saving saving (SaveDiffusion (SavePrefetch d f v) paths)) = (r, p', s') ->
      exists d1 f1 v1 paths1, keep s' (SaveDiffusion (SavePrefetch d f v) paths) = SaveDiffusion (SavePrefetch d1 f1 v1) paths1).
    { intros b saving p d f v paths r p' sv. cbn [op_bump mc_ops]. unfold mc_bump.
      destruct (diffusion_bump nan b (mp_model p) _) as [[r0 q] e] eqn:Q. intros E. injection E as _ _ <-. exact (diffusion_area _ _ _ _ _ _ _ _ _ _ Q). }
    induction 1 as [p s|b saving ops p s r p' s' p'' s'' B H IH|b saving p s r p' s' B]; intros (d & f & v & paths & ->).
    - reflexivity.
    - apply IH. exact (K _ _ _ _ _ _ _ _ _ _ B).
    - destruct (K _ _ _ _ _ _ _ _ _ _ B) as (d' & f' & v' & paths' & ->). reflexivity.
  Qed.
End Areas.

Lemma data_reused {T} {N : Num T} : forall earlier (md0 md : market_data T) s, bumped_data earlier md0 (SaveData saved_data_new) = (md, s) ->
  md_restore (clear s) md = (Ok tt, md) /\
  forall ops md' s', saved_first [] ops -> bumped_data ops md (clear s) = (md', s') -> md_restore s' md' = (Ok tt, md).
Proof.
  intros earlier md0 md s E. rewrite (data_area _ _ _ _ _ E).
  assert (K : forall ops md' s', saved_first [] ops -> bumped_data ops md (SaveData saved_data_new) = (md', s') -> md_restore s' md' = (Ok tt, md))
    by (intros; eapply restore_undoes; eassumption).
  split; [|exact K]. apply (K []); [constructor|reflexivity].
Qed.

Lemma prefetch_reused {T} {N : Num T} {TR : Trans T} : forall nan earlier (p0 p : prefetch T) s, bumps_with nan earlier p0 saved_prefetch_new p s ->
  prefetch_restore (clear s) p = (Ok tt, p) /\
  forall ops p' s', disciplined (pf_deps p) [] ops -> bumps_with nan ops p (clear s) p' s' -> prefetch_restore s' p' = (Ok tt, p).
Proof.
  intros nan earlier p0 p s E. rewrite (prefetch_area nan _ _ _ _ _ E) by (repeat eexists).
  assert (K : forall ops p' s', disciplined (pf_deps p) [] ops -> bumps_with nan ops p saved_prefetch_new p' s' -> prefetch_restore s' p' = (Ok tt, p))
    by (intros; eapply restore_undoes_all; eassumption).
  split; [|exact K]. apply (K []); constructor.
Qed.

Lemma mc_reused {T} {N : Num T} {TR : Trans T} : forall (nan : T) cdf visit redraws earlier mp0 mp s, let ops := mc_ops nan cdf visit redraws in
  pricer_bumps ops earlier mp0 (op_new_saveable ops mp0) mp s ->
  op_restore ops (clear s) mp = (Ok tt, mp) /\
  forall h mp' s', careful (pf_deps (bd_context (mp_model mp))) [] h -> pricer_bumps ops h mp (clear s) mp' s' -> op_restore ops s' mp' = (Ok tt, mp).
Proof.
  intros nan cdf visit redraws earlier mp0 mp s ops E. rewrite (mc_area nan _ _ _ _ _ _ _ _ E) by (repeat eexists).
  assert (K : forall h mp' s', careful (pf_deps (bd_context (mp_model mp))) [] h -> pricer_bumps ops h mp diffusion_saveable mp' s' ->
    op_restore ops s' mp' = (Ok tt, mp)) by (intros h mp' s' C B; exact (mc_restore_undoes nan cdf visit redraws h mp mp' s' C B)).
  split; [|exact K]. apply (K []); constructor.
Qed.

(** ** Pricers made from an instrument and a table of fixings *)

Lemma fixed_portfolio_is (i : instrument R) t l : fixed_portfolio i t = Ok l ->
  fix_all [(1%R, i)] t = Ok (Some l) \/ (fix_all [(1%R, i)] t = Ok None /\ l = [(1%R, i)]).
Proof.
  unfold fixed_portfolio. intros E. destruct (fix_instrument t i) as [d|m|m] eqn:F; [|discriminate..]. cbn [bind] in E.
  assert (A : exists ds, Forall2 (fun h d => fix_instrument t (snd h) = Ok d) [(1%R, i)] ds /\ ds = [d]) by (exists [d]; split; [repeat constructor; exact F|reflexivity]).
  destruct A as (ds & A & ->). destruct d as [d|]; injection E as <-.
  - left. apply fix_all_ok. exists [Some d]. split; [exact A|]. cbn [existsb orb replaced_all combine flat_map]. f_equal.
    assert (M : map (fun x : R * instrument R => (1 * fst x, snd x)%R) d = d).
    { transitivity (map (fun x : R * instrument R => x) d); [|apply map_id]. apply map_ext. intros (w, j). cbn [fst snd]. f_equal. apply Rmult_1_l. }
    unfold replaced_all. cbn. rewrite app_nil_r. symmetry. exact (f_equal Some M).
  - right. split; [|reflexivity]. apply fix_all_ok. exists [None]. split; [exact A|]. reflexivity.
Qed.

Lemma portfolio_worth i t l fx now x : fixed_portfolio i t = Ok l -> truthful fx t -> worth fx now i x -> adds_up (worth fx now) l x.
Proof.
  intros E TR W. assert (A : adds_up (worth fx now) [(1%R, i)] x).
  { replace x with (1 * x + 0)%R by ring. constructor; [exact W|constructor]. }
  destruct (fixed_portfolio_is _ _ _ E) as [F|(_ & ->)]; [exact (fix_worth _ _ _ TR _ _ _ A F)|exact A].
Qed.

Lemma portfolio_fixed (i : instrument R) t l : fixed_portfolio i t = Ok l -> plain_underlyings t i -> fix_all l t = Ok None.
Proof.
  intros E P. destruct (fixed_portfolio_is _ _ _ E) as [F|(F & ->)]; [|exact F].
  apply (fix_all_twice t [(1%R, i)]); [|exact F]. constructor; [exact P|constructor].
Qed.

Lemma factory_worth nan i t md sp : self_pricer_factory nan i t md = Ok sp -> self_pricer_new nan (sp_instruments sp) md = Ok sp /\
  (forall fx now x, truthful fx t -> worth fx now i x -> adds_up (worth fx now) (sp_instruments sp) x) /\
  (plain_underlyings t i -> fix_all (sp_instruments sp) t = Ok None).
Proof.
  unfold self_pricer_factory. intros E. destruct (fixed_portfolio i t) as [l|m|m] eqn:F; [|discriminate..]. cbn [bind] in E.
  assert (sp_instruments sp = l) as ->.
  { unfold self_pricer_new in E. destruct (portfolio_dependencies l (md_spot_date md)); [|discriminate..]. cbn [bind] in E.
    destruct (prefetch_new nan md _); [|discriminate..]. cbn [bind] in E. now injection E as <-. }
  split; [exact E|]. split; [intros; eapply portfolio_worth; eassumption|intros; eapply portfolio_fixed; eassumption].
Qed.

Lemma mc_factory_worth nan visit draws f i t md mp : mc_pricer_factory nan visit draws f i t md = Ok mp -> mc_pricer_new nan visit draws (mp_instruments mp) f md = Ok mp /\
  (forall fx now x, truthful fx t -> worth fx now i x -> adds_up (worth fx now) (mp_instruments mp) x) /\
  (plain_underlyings t i -> fix_all (mp_instruments mp) t = Ok None).
Proof.
  unfold mc_pricer_factory. intros E. destruct (fixed_portfolio i t) as [l|m|m] eqn:F; [|discriminate..]. cbn [bind] in E.
  assert (mp_instruments mp = l) as ->.
  { unfold mc_pricer_new in E. destruct (mc_portfolio l (md_spot_date md)) as [(deps, tl)|m|m]; [|discriminate..]. cbn [bind] in E.
    destruct (prefetch_new nan md _); [|discriminate..]. cbn [bind] in E. destruct (diffusion_new _ _ _ _ _ _); [|discriminate..]. cbn [bind] in E. now injection E as <-. }
  split; [exact E|]. split; [intros; eapply portfolio_worth; eassumption|intros; eapply portfolio_fixed; eassumption].
Qed.
