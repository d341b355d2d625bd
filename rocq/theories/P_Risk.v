(** Properties of bumping and restoring market data (C39 to C43). *)
From Coq Require Import ZArith List String Bool Reals.
From Verif Require Import Prelude Num M_Dates M_Calendar M_Curves M_Fixings M_Forward M_Vol M_Instruments M_Deps M_Risk M_Reports
  S_Deps S_Risk L_Num L_Risk L_Prefetch L_PrefetchTop L_InstrumentCases L_DepsPricing L_RiskCases.
Import ListNotations.
Open Scope list_scope.
Open Scope R_scope.

(** ** C39: a bump changes only its target *)

(** The datum it is a bump of changes as the bump says; the date and all else stay. *)
Theorem C39_changes_target : forall T (N : Num T) (b : bump T) md save r md' save' d v,
  for_data save -> target b = Some d -> look md d = Some v -> md_bump b md save = (r, md', save') ->
  r = Ok true /\ look md' d = Some (after b v) /\ md_spot_date md' = md_spot_date md /\
  forall d', d' <> d -> look md' d' = look md d'.
Proof. exact (fun T N => bump_does). Qed.
Print Assumptions C39_changes_target.

(** An unknown id is reported and nothing changes. *)
Theorem C39_unknown : forall T (N : Num T) (b : bump T) md save d,
  for_data save -> target b = Some d -> look md d = None -> md_bump b md save = (Ok false, md, save).
Proof. exact (fun T N => bump_unknown_id). Qed.
Print Assumptions C39_unknown.

(** The spot date is not bumped this way, and nothing changes. *)
Theorem C39_spot_date : forall T (N : Num T) f (md : market_data T) save, for_data save -> exists m, md_bump (BSpotDate f) md save = (Err m, md, save).
Proof. exact (fun T N => bump_date_refused). Qed.
Print Assumptions C39_spot_date.

(** A save area of another kind is refused and nothing changes. *)
Theorem C39_wrong_area : forall T (N : Num T) (b : bump T) md save, ~ for_data save -> exists m, md_bump b md save = (Err m, md, save).
Proof. exact (fun T N => bump_wrong_area). Qed.
Print Assumptions C39_wrong_area.

(** Saving makes no difference to the outcome or the data. *)
Theorem C39_saving_irrelevant : forall T (N : Num T) (b : bump T) md s, fst (md_bump b md (Some (SaveData s))) = fst (md_bump b md None).
Proof. exact (fun T N => saving_no_effect). Qed.
Print Assumptions C39_saving_irrelevant.

(** Through the cache the data change as they would without it, and so does the outcome of a bump that succeeds. *)
Theorem C39_through_cache : forall T (N : Num T) (TR : Trans T) nan (b : bump T) d p save r p' save',
  for_prefetch save -> target b = Some d -> prefetch_bump nan b p save = (r, p', save') ->
  pf_data p' = snd (fst (md_bump b (pf_data p) None)) /\ forall x, r = Ok x -> Ok x = fst (fst (md_bump b (pf_data p) None)).
Proof. exact (fun T N TR => prefetch_data). Qed.
Print Assumptions C39_through_cache.

Example C39_applies : target (BSpot "BP" (RelativeSpot 1)) = Some (SpotFor "BP") /\
  look (flat_market 100) (SpotFor "BP") = Some (ASpot 100) /\ look (flat_market 100) (SpotFor "SHELL") = None /\
  look (flat_market 100) (VolFor "BP") <> None /\ ~ for_data (Some (@saved_prefetch_new R)).
Proof. repeat split; try discriminate. intros []. Qed.

(** ** C40: restoring undoes saved bumps *)

(** Whatever is bumped is saved the first time, and not again. *)
Theorem C40_restore : forall T (N : Num T) ops (md : market_data T) md' s, saved_first [] ops ->
  bumped_data ops md (SaveData saved_data_new) = (md', s) -> md_restore s md' = (Ok tt, md).
Proof. exact (fun T N => restore_undoes). Qed.
Print Assumptions C40_restore.

(** In any history at all, a datum goes back to what it was when it was last saved. *)
Theorem C40_last_saved : forall T (N : Num T) before b later (md : market_data T) d md1 s1 md' s',
  look md d <> None -> saves (b, true) d -> (forall op, In op later -> ~ saves op d) ->
  bumped_data before md (SaveData saved_data_new) = (md1, s1) ->
  bumped_data (before ++ (b, true) :: later) md (SaveData saved_data_new) = (md', s') ->
  exists md2, md_restore s' md' = (Ok tt, md2) /\ look md2 d = look md1 d.
Proof. exact (fun T N => restored_last). Qed.
Print Assumptions C40_last_saved.

(** And stays as it is if it was never saved. *)
Theorem C40_unsaved : forall T (N : Num T) ops (md : market_data T) d md' s', (forall op, In op ops -> ~ saves op d) ->
  bumped_data ops md (SaveData saved_data_new) = (md', s') ->
  exists md2, md_restore s' md' = (Ok tt, md2) /\ look md2 d = look md' d.
Proof. exact (fun T N => restored_unsaved). Qed.
Print Assumptions C40_unsaved.

(** So two saved bumps of the same datum are not undone. *)
Theorem C40_twice_refuted : forall s x, s <> 0 -> x <> 0 -> exists md' s' md2 s2 md3,
  md_bump (BSpot "BP" (RelativeSpot x)) (flat_market s) (Some (SaveData saved_data_new)) = (Ok true, md', Some s') /\
  md_bump (BSpot "BP" (RelativeSpot x)) md' (Some s') = (Ok true, md2, Some s2) /\
  md_restore s2 md2 = (Ok tt, md3) /\ look (flat_market s) (SpotFor "BP") = Some (ASpot s) /\
  look md3 (SpotFor "BP") = Some (ASpot (s * (1 + x))) /\ s * (1 + x) <> s.
Proof. exact twice_not_restored. Qed.
Print Assumptions C40_twice_refuted.

Example C40_applies : saved_first [] some_bumps /\ exists md' s', bumped_data some_bumps (flat_market 100) (SaveData saved_data_new) = (md', s') /\
  look md' (VolFor "BP") <> look (flat_market 100) (VolFor "BP").
Proof.
  split.
  - apply (sf_first _ _ (SpotFor "BP")); [reflexivity|intros []|]. apply (sf_again _ _ (SpotFor "BP")); [reflexivity|now left|].
    apply (sf_first _ _ (VolFor "BP")); [reflexivity|intros [E|[]]; discriminate|constructor].
  - do 2 eexists. split; [reflexivity|discriminate].
Qed.

(** ** C41: cached market data never goes stale *)

(** What the context gives for the dependencies is what the market data give. *)
Theorem C41_answers : forall T (N : Num T) (TR : Trans T) nan today rs l deps, collect_all today rs = Ok deps -> all_come_to today rs l -> one_per_id l ->
  forall (md : market_data T) p, prefetch_new nan md deps = Ok p ->
  (forall u d, In (ForwardOf u d) l -> exists h f, forward_curve_hwm u deps = Some h /\ md_forward_curve nan md u h = Ok f /\
     forall e, ctx_forward_curve (prefetch_context nan p) u e = Ok f) /\
  (forall u d d', In (ForwardOf u d) l -> In (VolOf u d') l -> exists h v, vol_surface_hwm u deps = Some h /\
     (forall g, md_vol_surface nan md u h g = Ok v) /\
     forall e g, ctx_vol_surface (prefetch_context nan p) u e g = Ok v).
Proof. exact (fun T N TR => cache_answers). Qed.
Print Assumptions C41_answers.

(** After bumps that succeed the context is the one that would be built from the bumped data. *)
Theorem C41_fresh : forall T (N : Num T) (TR : Trans T) nan today rs l deps, collect_all today rs = Ok deps -> all_come_to today rs l -> one_per_id l ->
  forall (md : market_data T) p p', prefetch_new nan md deps = Ok p -> bumps_to nan p p' -> prefetch_new nan (pf_data p') deps = Ok p'.
Proof. exact (fun T N TR => cache_fresh). Qed.
Print Assumptions C41_fresh.

(** So a pricer whose context is bumped is the one that would be made with the bumped data, the spot date being the same. *)
Theorem C41_pricer : forall T (N : Num T) (TR : Trans T) nan instruments (md : market_data T) l sp p', self_pricer_new nan instruments md = Ok sp ->
  all_come_to (md_spot_date md) (map (fun h => WantSpot (snd h)) instruments) l -> one_per_id l ->
  bumps_to nan (sp_context sp) p' -> md_spot_date (pf_data p') = md_spot_date md ->
  self_pricer_new nan instruments (pf_data p') = Ok (mkSelfPricer instruments p').
Proof. exact (fun T N TR => pricer_fresh). Qed.
Print Assumptions C41_pricer.

(** Not so if two equities have the same id: a spot bump makes the forward that of the other. *)
Theorem C41_same_id_refuted : forall nan s x, s <> 0 -> 1 + x <> 0 -> exists p p' f g v w,
  prefetch_new nan (flat_market s) (deps_of same_ids) = Ok p /\
  prefetch_bump nan (BSpot "BP" (RelativeSpot x)) p None = (Ok true, p', None) /\
  ctx_forward_curve (prefetch_context nan p') stock 15%Z = Ok f /\ forward_at nan f 15%Z = Ok v /\
  md_forward_curve nan (pf_data p') stock 15%Z = Ok g /\ forward_at nan g 15%Z = Ok w /\ v <> w.
Proof. exact same_id_stale. Qed.
Print Assumptions C41_same_id_refuted.

Example C41_applies : forall nan s, collect_all 0%Z [WantSpot call_100; WantSpot put_100] = Ok (deps_of call_and_put) /\
  all_come_to 0%Z [WantSpot call_100; WantSpot put_100] twice_asked /\ one_per_id twice_asked /\
  (exists p, prefetch_new nan (flat_market s) (deps_of call_and_put) = Ok p /\
   exists p', bumps_to nan p p' /\ look (pf_data p') (SpotFor "BP") = Some (ASpot (s * (1 + 1)))).
Proof.
  intros nan s. split; [exact two_collected|]. split; [exact two_asked|]. split; [exact one_stock_twice|].
  exists (cache nan s call_and_put rate). split; [apply two_cached|]. exists (cache nan (s * (1 + 1)) call_and_put rate). split; [|reflexivity].
  eapply bt_step; [exact (spot_bumped_unsaved nan s call_and_put (RelativeSpot 1) eq_refl eq_refl)|apply bt_refl].
Qed.

(** ** C42: restoring the prefetching context *)

(** Whatever is bumped is saved the first time and not again, and nothing is derived from two of the data that are bumped. *)
Theorem C42_restore : forall T (N : Num T) (TR : Trans T) nan ops (p p' : prefetch T) s', disciplined (pf_deps p) [] ops ->
  bumps_with nan ops p saved_prefetch_new p' s' -> prefetch_restore s' p' = (Ok tt, p).
Proof. exact (fun T N TR => restore_undoes_all). Qed.
Print Assumptions C42_restore.

(** A saved yield bump is not undone when two options are on the same equity: the data are restored and the forward is not. *)
Theorem C42_shared_underlying_refuted : forall nan s x, s <> 0 -> x <> 0 -> exists p p' s' p'' f f' v v',
  prefetch_new nan (flat_market s) (deps_of call_and_put) = Ok p /\
  prefetch_bump nan (BYield "BP-CR" (FlatContinuouslyCompounded x)) p (Some saved_prefetch_new) = (Ok true, p', Some s') /\
  prefetch_restore s' p' = (Ok tt, p'') /\ pf_data p'' = pf_data p /\
  ctx_forward_curve (prefetch_context nan p) stock 15%Z = Ok f /\ forward_at nan f 15%Z = Ok v /\
  ctx_forward_curve (prefetch_context nan p'') stock 15%Z = Ok f' /\ forward_at nan f' 15%Z = Ok v' /\ v <> v'.
Proof. exact shared_not_restored. Qed.
Print Assumptions C42_shared_underlying_refuted.

(** Nor are saved bumps of a spot and of the dividends that make the same forward. *)
Theorem C42_two_feeds_refuted : forall nan s x y, s <> 0 -> x <> 0 -> exists p p' s' p2 s2 p3 f f' v v',
  prefetch_new nan (flat_market s) (deps_of call_only) = Ok p /\
  prefetch_bump nan (BSpot "BP" (RelativeSpot x)) p (Some saved_prefetch_new) = (Ok true, p', Some s') /\
  prefetch_bump nan (BDivs "BP" (BumpAllRelative y)) p' (Some s') = (Ok true, p2, Some s2) /\
  prefetch_restore s2 p2 = (Ok tt, p3) /\ pf_data p3 = pf_data p /\
  ctx_forward_curve (prefetch_context nan p) stock 15%Z = Ok f /\ forward_at nan f 15%Z = Ok v /\
  ctx_forward_curve (prefetch_context nan p3) stock 15%Z = Ok f' /\ forward_at nan f' 15%Z = Ok v' /\ v <> v'.
Proof. exact two_feeds_not_restored. Qed.
Print Assumptions C42_two_feeds_refuted.

(** A bump of the spot date is never saved, and no restore brings the date back. *)
Theorem C42_spot_date : forall T (N : Num T) (TR : Trans T) nan b (p : prefetch T) s p' save' p'' s'',
  prefetch_bump nan (BSpotDate b) p (Some s) = (Ok true, p', save') ->
  save' = Some s /\ md_spot_date (pf_data p) <> bsd_date b /\
  (prefetch_restore s'' p' = (Ok tt, p'') -> md_spot_date (pf_data p'') = bsd_date b).
Proof. exact (fun T N TR => spot_date_unsaved). Qed.
Print Assumptions C42_spot_date.

Example C42_applies : forall nan s, exists p p' s',
  prefetch_new nan (flat_market s) (deps_of call_only) = Ok p /\ disciplined (pf_deps p) [] some_bumps /\
  bumps_with nan some_bumps p saved_prefetch_new p' s' /\
  look (pf_data p') (VolFor "BP") = Some (ASurface (ParallelBumpVol flat_vol 1)).
Proof.
  intros nan s. destruct (some_bumped nan s) as (p & p' & s' & P & B & L). exists p, p', s'. split; [exact P|]. split; [|split; [exact B|exact L]].
  rewrite one_cached in P. injection P as <-. apply some_disciplined.
Qed.

(** ** C43: failed bumps through the cache are not atomic *)

(** If there is no forward in the cache, a bump of a known spot, of dividends, of borrow or of a surface fails and has been
    done. *)
Theorem C43_not_cached : forall T (N : Num T) (TR : Trans T) nan (b : bump T) d id p save v,
  for_prefetch save -> target b = Some d -> look (pf_data p) d = Some v ->
  In d [SpotFor id; DivsFor id; BorrowFor id; VolFor id] -> get id (pf_forwards p) = None ->
  exists m p' save', prefetch_bump nan b p save = (Err m, p', save') /\
    look (pf_data p') d = Some (after b v) /\ (forall d', d' <> d -> look (pf_data p') d' = look (pf_data p) d') /\
    pf_deps p' = pf_deps p /\ pf_forwards p' = pf_forwards p /\ pf_vols p' = pf_vols p.
Proof. exact (fun T N TR => not_cached_bumped). Qed.
Print Assumptions C43_not_cached.

(** A save area of another kind is refused before anything changes. *)
Theorem C43_wrong_area : forall T (N : Num T) (TR : Trans T) nan (b : bump T) p save, ~ for_prefetch save -> exists m, prefetch_bump nan b p save = (Err m, p, save).
Proof. exact (fun T N TR => prefetch_wrong_area). Qed.
Print Assumptions C43_wrong_area.

Example C43_applies : forall nan s, exists sp, self_pricer_new nan [(1, stock)] (flat_market s) = Ok sp /\
  look (pf_data (sp_context sp)) (SpotFor "BP") = Some (ASpot s) /\ get "BP" (pf_forwards (sp_context sp)) = None.
Proof. exact equity_not_cached. Qed.
