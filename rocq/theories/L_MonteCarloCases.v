(** Worked Monte-Carlo pricers: concrete cases and counterexamples. *)
From Coq Require Import ZArith List String Bool Lia Reals Lra Permutation.
From Verif Require Import Prelude Num M_Dates M_Search M_Calendar M_Curves M_Fixings M_Forward M_Vol M_Instruments M_Deps M_Risk M_Reports M_MonteCarlo
  S_Vol S_Deps S_Risk S_Reports S_MonteCarlo L_Num L_Fixings L_Risk L_Vol L_VolTime L_VolCases L_Prefetch L_PrefetchTop L_Diffusion L_Models L_Paths L_MonteCarlo
  L_InstrumentCases L_DepsPricing L_RiskCases L_ReportCases.
Import ListNotations.
Open Scope list_scope.
Open Scope R_scope.

Definition vanilla15 (pc : put_or_call) : vanilla R := option_on stock 15%Z pc CashSettled.
Definition option15 (pc : put_or_call) : instrument R := ISpotEuropean (vanilla15 pc) 100.
Definition wants15 (pc : put_or_call) : list (request R) := [WantSpot (option15 pc)].
Definition at15 : ddf R := mkDDF 15%Z 0.
Definition mark15 (s : R) : mark := mkMark (s * exp growth) var15 0.
Definition steps15 (most : R) : nat := Nat.max 1 (Z.to_nat (nceil (var15 / most))).
Definition drawn (draws : nat -> nat -> R) (n steps : nat) : matrix R := map (fun k => map (draws k) (seq 0 steps)) (seq 0 n).

Definition model15 (nan s most : R) (n : nat) (draws : nat -> nat -> R) (pc : put_or_call) : diffusion R :=
  mkDiffusion [at15] [expiry_flow (vanilla15 pc)] (cache nan s (wants15 pc) rate) [stock] [steps15 most] n [drawn draws n (steps15 most)]
    [map (path_of [mark15 s] [steps15 most]) (drawn draws n (steps15 most))].
Definition pricer15 (nan s most : R) (n : nat) (draws : nat -> nat -> R) (pc : put_or_call) (w : R) : mc_pricer R :=
  mkMcPricer (mkFactory most n) [(w, option15 pc)] (model15 nan s most n draws pc).

Lemma carried15 nan s : forward_at nan (carried s rate 15%Z) 15%Z = Ok (s * exp growth).
Proof. exact (carried_at nan s rate 15%Z 15%Z growth (Z.le_refl _) (rate_rt nan 15%Z)). Qed.

Lemma marked15 nan s : marked nan (carried s rate 15%Z) flat_vol [at15] [mark15 s].
Proof.
  constructor; [|constructor]. cbn [mark15 mk_forward mk_variance mk_displacement at15 ddf_date]. split; [apply carried15|]. split; [|reflexivity].
  exact (proj1 (flat_variance nan _)).
Qed.

Lemma var15_positive : 0 < var15.
Proof. unfold var15. lra. Qed.

Lemma drawn_length draws n steps : Forall (fun g => List.length g = steps) (drawn draws n steps).
Proof. apply Forall_forall. intros g I. apply in_map_iff in I. destruct I as (k & <- & _). now rewrite map_length, seq_length. Qed.

Lemma ceil_one : nceil 1 = 1%Z.
Proof.
  unfold nceil. rnum. destruct (Rtrunc_nonneg 1) as [A B]; [lra|]. assert (T : Rtrunc 1 = 1%Z).
  { replace (IZR (Rtrunc 1) + 1) with (IZR (Rtrunc 1 + 1)) in B by (now rewrite plus_IZR). apply le_IZR in A. apply lt_IZR in B. lia. }
  rewrite T. rcase; [lra|reflexivity].
Qed.

Lemma steps15_some most : (1 <= steps15 most)%nat.
Proof. unfold steps15. lia. Qed.

Lemma ceil_zero : nceil 0 = 0%Z.
Proof.
  unfold nceil. rnum. destruct (Rtrunc_nonneg 0) as [A B]; [lra|]. assert (T : Rtrunc 0 = 0%Z).
  { replace (IZR (Rtrunc 0) + 1) with (IZR (Rtrunc 0 + 1)) in B by (now rewrite plus_IZR). apply le_IZR in A. apply lt_IZR in B. lia. }
  rewrite T. rcase; [lra|reflexivity].
Qed.

Section Cases.
  Variable nan : R.
  Variable cdf : R -> R.
  Variable visit : smap (instrument R * list (ddf R)) -> smap (instrument R * list (ddf R)).
  Hypothesis visits : forall l, Permutation (visit l) l.

  Lemma portfolio15 w pc : mc_portfolio [(w, option15 pc)] 0%Z =
    Ok (deps_of (wants15 pc), mkTimeline [("BP"%string, (stock, [at15]))] [expiry_flow (vanilla15 pc)]).
  Proof. destruct pc; reflexivity. Qed.

  Lemma cached15 s pc : prefetch_new nan (flat_market s) (deps_of (wants15 pc)) = Ok (cache nan s (wants15 pc) rate).
  Proof. destruct pc; [exact (cached nan s rate (wants15 Put) (start_zero nan) eq_refl eq_refl)|exact (cached nan s rate (wants15 Call) (start_zero nan) eq_refl eq_refl)]. Qed.

  Lemma path15 s pc g steps : (1 <= steps)%nat -> Forall (fun row => List.length row = steps) g ->
    fetch_path nan stock (prefetch_context nan (cache nan s (wants15 pc) rate)) [at15] g [steps] = Ok (map (path_of [mark15 s] [steps]) g).
  Proof.
    intros L G. eapply fetch_path_ok; [cbn; lia|reflexivity|reflexivity|apply marked15| |].
    - constructor; [|constructor]. split; [cbn [mark15 mk_variance]; pose proof var15_positive; lra|exact L].
    - eapply Forall_impl; [|exact G]. intros row ->. cbn. lia.
  Qed.

  Lemma substeps15 s pc most : calculate_substepping nan [at15] (prefetch_context nan (cache nan s (wants15 pc) rate)) [stock] most = Ok [steps15 most].
  Proof.
    unfold calculate_substepping. cbn [List.length Nat.eqb negb guard bind foldM].
    change (ctx_forward_curve (prefetch_context nan (cache nan s (wants15 pc) rate)) stock (last_date [at15])) with (@Ok (forward R) (carried s rate 15%Z)).
    cbn [bind]. change (ctx_vol_surface (prefetch_context nan (cache nan s (wants15 pc) rate)) stock (last_date [at15]) (Ok (carried s rate 15%Z))) with (@Ok (vol_surface R) flat_vol).
    cbn [bind map substep_loop at15 ddf_date]. rewrite carried15. cbn [bind]. rewrite (proj1 (flat_variance nan _)). cbn [bind].
    pose proof var15_positive. rnum. rcase; [lra|]. cbn [negb guard bind]. unfold steps15. do 5 f_equal. rewrite Rminus_0_r. reflexivity.
  Qed.

  Lemma pricer15_new s most n draws pc w : (0 < n)%nat ->
    mc_pricer_new nan visit draws [(w, option15 pc)] (mkFactory most n) (flat_market s) = Ok (pricer15 nan s most n draws pc w).
  Proof.
    intros NP. unfold mc_pricer_new. change (md_spot_date (flat_market s)) with 0%Z. rewrite portfolio15. cbn [bind]. rewrite cached15. cbn [bind].
    unfold diffusion_new. cbn [tl_observations]. rewrite (visit_one visit visits). cbn [map fst snd df_path_substep df_n_paths]. rewrite substeps15. cbn [bind].
    unfold fetch_gaussians. pose proof (steps15_some most) as K.
    replace (list_sum [steps15 most]) with (steps15 most) by (unfold list_sum; cbn [fold_right]; lia).
    replace (Nat.ltb 0 (steps15 most)) with true by (symmetry; apply Nat.ltb_lt; lia). cbn [List.length].
    replace (Nat.ltb 0 n) with true by (symmetry; now apply Nat.ltb_lt). cbn [Nat.ltb Nat.leb assert_ bind]. fold (drawn draws n (steps15 most)).
    unfold fetch_paths. cbn [List.length Nat.ltb Nat.leb assert_ bind]. replace (Nat.leb 1 n) with true by (symmetry; now apply Nat.leb_le). cbn [assert_ bind combine mapM fst snd].
    unfold drawn in *. rewrite path15; [|exact K|apply drawn_length]. destruct n as [|n]; [lia|]. reflexivity.
  Qed.

  (** Bumping it. *)
  Lemma deps15 pc : col_forward_curves (deps_of (wants15 pc)) = [("BP"%string, (stock, 15%Z))] /\ instrument_by_id "BP" (deps_of (wants15 pc)) = Some stock /\
    vol_surface_hwm stock (deps_of (wants15 pc)) = Some 15%Z.
  Proof. destruct pc; repeat split; reflexivity. Qed.

  Lemma spot15 s most n draws pc f : diffusion_bump nan (BSpot "BP" f) (model15 nan s most n draws pc) None = (Ok true, model15 nan (apply_spot f s) most n draws pc, None).
  Proof.
    destruct (deps15 pc) as (A & B & _). unfold diffusion_bump, diffusion_bump_saved. cbn [model15 bd_context]. rewrite (spot_bumped_unsaved nan s (wants15 pc) f A B).
    cbn beta iota zeta. unfold refetch_path, with_paths. cbn [negb bd_context bd_paths bd_instruments bd_gaussians bd_observations bd_substepping bd_flows bd_n_paths model15].
    change (asset_of "BP" [stock]) with (Some O). cbn [nth_error option_map]. rewrite path15; [|apply steps15_some|apply drawn_length]. reflexivity.
  Qed.

  Lemma spot15_saved s most n draws pc f sd sf sv saved : diffusion_bump nan (BSpot "BP" f) (model15 nan s most n draws pc) (Some (SaveDiffusion (SavePrefetch sd sf sv) saved)) =
    (Ok true, model15 nan (apply_spot f s) most n draws pc,
     Some (SaveDiffusion (SavePrefetch (mkSaved (put "BP" s (sd_spots sd)) (sd_yields sd) (sd_borrows sd) (sd_divs sd) (sd_vols sd)) (put "BP" (carried s rate 15%Z) sf) sv)
       (put_nat 0 (map (path_of [mark15 s] [steps15 most]) (drawn draws n (steps15 most))) saved))).
  Proof.
    destruct (deps15 pc) as (A & B & _). unfold diffusion_bump, diffusion_bump_saved. cbn [model15 bd_context]. rewrite (spot_bumped nan s (wants15 pc) f sf sv sd A B).
    cbn beta iota zeta. unfold refetch_path, with_paths. cbn [negb bd_context bd_paths bd_instruments bd_gaussians bd_observations bd_substepping bd_flows bd_n_paths model15].
    change (asset_of "BP" [stock]) with (Some O). cbn [nth_error option_map]. rewrite path15; [|apply steps15_some|apply drawn_length]. reflexivity.
  Qed.

  (** The price of what is paid at expiry. *)
  Lemma flow15 s pc : price nan cdf (prefetch_context nan (cache nan s (wants15 pc) rate)) (expiry_flow (vanilla15 pc)) (mkDT 0%Z Open_) = Ok 1.
  Proof.
    unfold price, expiry_flow. cbn [prices van_credit_id vanilla15 option_on van_pay_date van_expiry van_settlement van_underlying].
    change (ctx_yield_curve (prefetch_context nan (cache nan s (wants15 pc) rate)) "OPT-CR" 15%Z) with (@Ok (curve R) zero). cbn [bind mapM].
    change (dt_leb (mkDT 0%Z Open_) (mkDT 15%Z Open_)) with true. cbn [apply_rule bind dt_date]. unfold df, zero. rewrite !zero_rt. cbn [bind].
    change (15 =? 0)%Z with false. cbn match. rnum. replace (0 - 0) with 0 by ring. rewrite exp_0. reflexivity.
  Qed.

  (** Its volatility moved up or down. *)
  Definition var_moved (x : R) : R := (15 + 0) / 365 * Rmax (/ 5 + x) 0 ^ 2.
  Definition moved_cache (s x : R) (pc : put_or_call) : prefetch R :=
    mkPrefetch (mkMarket 0%Z [("BP"%string, s)] [("BP-CR"%string, rate); ("OPT-CR"%string, zero)] [("BP"%string, zero)]
      [("BP"%string, stream_new [] zero)] [("BP"%string, ParallelBumpVol flat_vol x)]) (deps_of (wants15 pc)) [("BP"%string, carried s rate 15%Z)]
      [("BP"%string, ParallelBumpVol flat_vol x)].
  Definition moved_model (s x most : R) (n : nat) (draws : nat -> nat -> R) (pc : put_or_call) : diffusion R :=
    mkDiffusion [at15] [expiry_flow (vanilla15 pc)] (moved_cache s x pc) [stock] [steps15 most] n [drawn draws n (steps15 most)]
      [map (path_of [mkMark (s * exp growth) (var_moved x) 0] [steps15 most]) (drawn draws n (steps15 most))].

  Lemma moved_variance x k : variance nan (ParallelBumpVol flat_vol x) at15 k = Ok (var_moved x).
  Proof.
    apply variance_real. apply parallel. unfold volatility_is, flat_vol. cbn [volatilities map]. rewrite every_years by (cbn; lia). cbn [bind].
    do 2 f_equal. cbn [at15 ddf_date ddf_frac]. replace (IZR (15 - 0)) with 15 by reflexivity. field.
  Qed.

  Lemma var_moved_nonneg x : 0 <= var_moved x.
  Proof. unfold var_moved. apply Rmult_le_pos; [lra|apply pow2_ge_0]. Qed.

  Lemma vol_moved s x pc sd sf sv :
    prefetch_bump nan (BVol "BP" (FlatAdditive x)) (cache nan s (wants15 pc) rate) (Some (SavePrefetch sd sf sv)) =
    (Ok true, moved_cache s x pc, Some (SavePrefetch (mkSaved (sd_spots sd) (sd_yields sd) (sd_borrows sd) (sd_divs sd) (put "BP" flat_vol (sd_vols sd))) sf (put "BP" flat_vol sv))).
  Proof.
    destruct (deps15 pc) as (_ & I & V). unfold prefetch_bump. rewrite (bump_dispatch nan (BVol "BP" (FlatAdditive x)) _ _ _ _ (VolFor "BP") eq_refl).
    unfold refetch_for, known. change (look (pf_data (cache nan s (wants15 pc) rate)) (VolFor "BP")) with (Some (ASurface flat_vol)). cbv iota.
    match goal with |- context [mkPrefetch ?d _ _ _] =>
      use_refetch (refetch_flat nan d (wants15 pc) (carried s rate 15%Z) (Some sf) (Some sv) flat_vol (ParallelBumpVol flat_vol x) eq_refl V I) end.
    reflexivity.
  Qed.
  Lemma vol_moved_unsaved s x pc : prefetch_bump nan (BVol "BP" (FlatAdditive x)) (cache nan s (wants15 pc) rate) None = (Ok true, moved_cache s x pc, None).
  Proof.
    destruct (deps15 pc) as (_ & I & V). unfold prefetch_bump. rewrite (bump_dispatch nan (BVol "BP" (FlatAdditive x)) _ _ _ _ (VolFor "BP") eq_refl).
    unfold refetch_for, known. change (look (pf_data (cache nan s (wants15 pc) rate)) (VolFor "BP")) with (Some (ASurface flat_vol)). cbv iota.
    match goal with |- context [mkPrefetch ?d _ _ _] =>
      use_refetch (refetch_flat nan d (wants15 pc) (carried s rate 15%Z) None None flat_vol (ParallelBumpVol flat_vol x) eq_refl V I) end.
    reflexivity.
  Qed.

  Lemma moved_path s x pc g steps : (1 <= steps)%nat -> Forall (fun row => List.length row = steps) g ->
    fetch_path nan stock (prefetch_context nan (moved_cache s x pc)) [at15] g [steps] = Ok (map (path_of [mkMark (s * exp growth) (var_moved x) 0] [steps]) g).
  Proof.
    intros L G. eapply fetch_path_ok; [cbn; lia|reflexivity|reflexivity| | |].
    - constructor; [|constructor]. cbn [mk_forward mk_variance mk_displacement at15 ddf_date]. split; [apply carried15|]. split; [apply moved_variance|reflexivity].
    - constructor; [|constructor]. split; [|exact L]. cbn [mk_variance]. rewrite Rminus_0_r. apply var_moved_nonneg.
    - eapply Forall_impl; [|exact G]. intros row ->. cbn. lia.
  Qed.

  Lemma vol15 s x most n draws pc : diffusion_bump nan (BVol "BP" (FlatAdditive x)) (model15 nan s most n draws pc) None = (Ok true, moved_model s x most n draws pc, None).
  Proof.
    unfold diffusion_bump, diffusion_bump_saved. cbn [model15 bd_context]. rewrite vol_moved_unsaved.
    cbn beta iota zeta. unfold refetch_path, with_paths. cbn [negb bd_context bd_paths bd_instruments bd_gaussians bd_observations bd_substepping bd_flows bd_n_paths model15].
    change (asset_of "BP" [stock]) with (Some O). cbn [nth_error option_map]. rewrite moved_path; [|apply steps15_some|apply drawn_length]. reflexivity.
  Qed.

  Lemma vol15_saved s x most n draws pc sd sf sv saved :
    diffusion_bump nan (BVol "BP" (FlatAdditive x)) (model15 nan s most n draws pc) (Some (SaveDiffusion (SavePrefetch sd sf sv) saved)) =
    (Ok true, moved_model s x most n draws pc,
     Some (SaveDiffusion (SavePrefetch (mkSaved (sd_spots sd) (sd_yields sd) (sd_borrows sd) (sd_divs sd) (put "BP" flat_vol (sd_vols sd))) sf (put "BP" flat_vol sv))
       (put_nat 0 (map (path_of [mark15 s] [steps15 most]) (drawn draws n (steps15 most))) saved))).
  Proof.
    unfold diffusion_bump, diffusion_bump_saved. cbn [model15 bd_context]. rewrite vol_moved.
    cbn beta iota zeta. unfold refetch_path, with_paths. cbn [negb bd_context bd_paths bd_instruments bd_gaussians bd_observations bd_substepping bd_flows bd_n_paths model15].
    change (asset_of "BP" [stock]) with (Some O). cbn [nth_error option_map]. rewrite moved_path; [|apply steps15_some|apply drawn_length]. reflexivity.
  Qed.

  (** The steps are not enough any more. *)
  Variable redraws : bump_time -> mc_pricer R -> nat -> nat -> R.
  Notation ops := (mc_ops nan cdf visit redraws).

  Lemma steps_stale s draws pc w : exists mp mp' curve surface marks,
    mc_pricer_new nan visit draws [(w, option15 pc)] (mkFactory var15 1) (flat_market s) = Ok mp /\ pricer_reaches ops mp mp' /\
    ctx_forward_curve (op_context ops mp') stock 15%Z = Ok curve /\ ctx_vol_surface (op_context ops mp') stock 15%Z (Ok curve) = Ok surface /\
    marked nan curve surface (looks_at (option15 pc)) marks /\ ~ enough_steps var15 marks (bd_substepping (mp_model mp')).
  Proof.
    exists (pricer15 nan s var15 1 draws pc w), (mkMcPricer (mkFactory var15 1) [(w, option15 pc)] (moved_model s 1 var15 1 draws pc)),
      (carried s rate 15%Z), (ParallelBumpVol flat_vol 1), [mkMark (s * exp growth) (var_moved 1) 0].
    split; [apply pricer15_new; lia|]. split.
    { eapply (pr_step ops) with (b := BVol "BP" (FlatAdditive 1)) (save := None); [|constructor]. cbn [op_bump mc_ops]. unfold mc_bump. cbn [pricer15 mp_model]. rewrite vol15. reflexivity. }
    split; [reflexivity|]. split; [reflexivity|]. split.
    { destruct pc; (constructor; [|constructor]; cbn [mk_forward mk_variance mk_displacement at15 ddf_date]; split; [apply carried15|]; split; [apply moved_variance|reflexivity]). }
    cbn [mp_model bd_substepping moved_model]. unfold steps15. replace (var15 / var15) with 1 by (field; pose proof var15_positive; lra).
    rewrite ceil_one. intros Q. inversion Q as [|? ? ? ? (_ & Q1 & _) _ E1]; subst.
    cbn [mk_variance Z.to_nat Pos.to_nat Pos.iter_op Nat.max INR] in Q1. unfold var_moved, var15 in Q1. rewrite Rmax_left in Q1 by lra. lra.
  Qed.

  (** A spot and a surface bumped, both saved: the paths saved last are those of the bumped spot. *)
  Lemma zero_paths s most n pc : (0 < n)%nat ->
    mc_paths (model15 nan s most n (fun _ _ => 0) pc) stock = Ok (repeat [s * exp growth] n).
  Proof.
    intros NP. unfold mc_paths. cbn [model15 bd_instruments bd_paths]. change (asset_of (instrument_id stock) [stock]) with (Some O). cbn [nth_error]. f_equal.
    unfold drawn. rewrite map_map. clear NP. generalize 0%nat at 2. induction n as [|n IH]; intros a; cbn [seq map repeat]; [reflexivity|]. f_equal; [|apply IH].
    apply path_zero. apply Forall_forall. intros g I. apply in_map_iff in I. now destruct I as (? & <- & _).
  Qed.

  Definition left_over (s' : R) (draws : nat -> nat -> R) (s most : R) (n : nat) (pc : put_or_call) (w : R) : mc_pricer R :=
    mkMcPricer (mkFactory most n) [(w, option15 pc)]
      (with_paths (model15 nan s most n draws pc) (cache nan s (wants15 pc) rate) (bd_paths (model15 nan s' most n draws pc))).

  Lemma both_saved s x y most n draws pc w : (0 < n)%nat -> exists mp mp' sv,
    mc_pricer_new nan visit draws [(w, option15 pc)] (mkFactory most n) (flat_market s) = Ok mp /\
    pricer_bumps ops [(BSpot "BP" (RelativeSpot x), true); (BVol "BP" (FlatAdditive y), true)] mp (op_new_saveable ops mp) mp' sv /\
    op_restore ops sv mp' = (Ok tt, left_over (apply_spot (RelativeSpot x) s) draws s most n pc w) /\
    mp = left_over s draws s most n pc w.
  Proof.
    intros NP. do 3 eexists. split; [now apply pricer15_new|]. split.
    { eapply (pb_step ops).
      - cbn [op_bump op_new_saveable mc_ops if_saving]. unfold mc_bump, diffusion_saveable, saved_prefetch_new. cbn [pricer15 mp_model]. rewrite spot15_saved. reflexivity.
      - cbn [keep]. eapply (pb_last ops). cbn [op_bump op_new_saveable mc_ops if_saving]. unfold mc_bump. cbn [pricer15 mp_model mp_factory mp_instruments].
        rewrite vol15_saved. reflexivity. }
    split; [|reflexivity].
    cbn [keep op_restore mc_ops]. unfold mc_restore. cbn [mp_model mp_factory mp_instruments]. unfold left_over. reflexivity.
  Qed.

  (** Prices. *)
  Lemma left_price s' draws s most n pc w : (0 < n)%nat -> op_price ops (left_over s' draws s most n pc w) =
    Ok (w * mean (map (pays (option15 pc)) (map (path_of [mark15 s'] [steps15 most]) (drawn draws n (steps15 most))))).
  Proof.
    intros NP. set (paths := map (path_of _ _) _). cbn [op_price mc_ops]. unfold mc_pricer_price. cbn [left_over mp_instruments mp_model foldM snd fst].
    rewrite (mc_price_mean nan cdf _ (option15 pc) (vanilla15 pc) paths).
    - cbn [with_paths bd_context model15 pf_data cache md_spot_date]. rewrite flow15. cbn [rmap bind]. f_equal. rnum. lra.
    - reflexivity.
    - unfold paths, mc_paths. cbn [with_paths model15 bd_instruments bd_paths]. reflexivity.
    - apply Forall_forall. intros row I. apply in_map_iff in I. destruct I as (g & <- & _). rewrite path_length. now destruct pc.
    - reflexivity.
    - unfold paths, drawn. now rewrite !map_length, seq_length.
  Qed.

  Lemma price15 draws s most n pc w : (0 < n)%nat -> op_price ops (pricer15 nan s most n draws pc w) =
    Ok (w * mean (map (pays (option15 pc)) (map (path_of [mark15 s] [steps15 most]) (drawn draws n (steps15 most))))).
  Proof. exact (left_price s draws s most n pc w). Qed.

  Lemma zero_drawn s most n : map (path_of [mark15 s] [steps15 most]) (drawn (fun _ _ => 0) n (steps15 most)) = repeat [s * exp growth] n.
  Proof.
    unfold drawn. rewrite map_map. generalize 0%nat at 2. induction n as [|n IH]; intros a; cbn [seq map repeat]; [reflexivity|]. f_equal; [|apply IH].
    apply path_zero. apply Forall_forall. intros g I. apply in_map_iff in I. now destruct I as (? & <- & _).
  Qed.

  Lemma mean_repeat (x : R) n : (0 < n)%nat -> mean (repeat x n) = x.
  Proof.
    intros L. transitivity (mean (map (fun _ => x) (repeat tt n))); [|apply mean_const; now rewrite repeat_length]. f_equal. clear L. induction n as [|n IH]; cbn; [reflexivity|]. now f_equal.
  Qed.

  Lemma left_zero_price s' s most n pc w : (0 < n)%nat -> op_price ops (left_over s' (fun _ _ => 0) s most n pc w) = Ok (w * pays (option15 pc) [s' * exp growth]).
  Proof.
    intros NP. rewrite left_price by exact NP. rewrite zero_drawn. do 2 f_equal. rewrite <- (mean_repeat (pays (option15 pc) [s' * exp growth]) n NP). f_equal.
    clear NP. induction n as [|n IH]; cbn [repeat map]; [reflexivity|]. now rewrite IH.
  Qed.

  Lemma grows : 1 < exp growth.
  Proof. rewrite <- exp_0. apply exp_increasing. unfold growth. lra. Qed.

  Lemma not_restored : exists mp mp' sv mp'' x x',
    mc_pricer_new nan visit (fun _ _ => 0) [(1, option15 Call)] (mkFactory 1 1) (flat_market 100) = Ok mp /\
    pricer_bumps ops [(BSpot "BP" (RelativeSpot 1), true); (BVol "BP" (FlatAdditive 1), true)] mp (op_new_saveable ops mp) mp' sv /\
    op_restore ops sv mp' = (Ok tt, mp'') /\ op_context ops mp'' = op_context ops mp /\
    op_price ops mp = Ok x /\ op_price ops mp'' = Ok x' /\ x <> x'.
  Proof.
    destruct (both_saved 100 1 1 1 1 (fun _ _ => 0) Call 1) as (mp & mp' & sv & A & B & C & D); [lia|].
    rewrite D in A, B. pose proof (left_zero_price 100 100 1 1 Call 1 (Nat.lt_0_succ _)) as P1.
    pose proof (left_zero_price (apply_spot (RelativeSpot 1) 100) 100 1 1 Call 1 (Nat.lt_0_succ _)) as P2.
    exists (left_over 100 (fun _ _ => 0) 100 1 1 Call 1), mp', sv. do 3 eexists. split; [exact A|]. split; [exact B|]. split; [exact C|]. split; [reflexivity|].
    split; [exact P1|]. split; [exact P2|]. cbn [option15 pays vanilla15 option_on van_put_or_call apply_spot]. rnum. pose proof grows. rewrite !Rmax_left by lra. lra.
  Qed.

  (** The same call and put, by simulation and by formula. *)
  Lemma discounts_differ s : (forall x, cdf (- x) = 1 - cdf x) -> 0 <= s -> s * exp growth <> 100 -> exists mc mp sp x y z,
    mc_pricer_new nan visit (fun _ _ => 0) [(1, call_100)] (mkFactory 1 1) (flat_market s) = Ok mc /\
    mc_pricer_new nan visit (fun _ _ => 0) [(1, put_100)] (mkFactory 1 1) (flat_market s) = Ok mp /\
    self_pricer_new nan [(1, call_100); (-1, put_100)] (flat_market s) = Ok sp /\
    (exists path, mc_paths (mp_model mc) stock = Ok [path] /\ mc_paths (mp_model mp) stock = Ok [path] /\ path = [s * exp growth]) /\
    op_price ops mc = Ok x /\ op_price ops mp = Ok y /\ self_price nan cdf sp = Ok z /\
    x - y = s * exp growth - 100 /\ z = exp (- growth) * (s * exp growth - 100) /\ x - y <> z.
  Proof.
    intros sym S N. exists (pricer15 nan s 1 1 (fun _ _ => 0) Call 1), (pricer15 nan s 1 1 (fun _ _ => 0) Put 1), (holding nan s). do 3 eexists.
    split; [apply pricer15_new; lia|]. split; [apply pricer15_new; lia|]. split; [apply holding_new|].
    split. { eexists. split; [exact (zero_paths s 1 1 Call (Nat.lt_0_succ _))|]. split; [exact (zero_paths s 1 1 Put (Nat.lt_0_succ _))|reflexivity]. }
    split; [exact (left_zero_price s s 1 1 Call 1 (Nat.lt_0_succ _))|]. split; [exact (left_zero_price s s 1 1 Put 1 (Nat.lt_0_succ _))|].
    split; [exact (holding_price nan cdf s sym S)|]. cbn [option15 pays vanilla15 option_on van_put_or_call].
    assert (A : 1 * Rmax (s * exp growth - 100) 0 - 1 * Rmax (100 - s * exp growth) 0 = s * exp growth - 100).
    { unfold Rmax. repeat destruct (Rle_dec _ _); lra. }
    assert (E : exp (- growth) * exp growth = 1) by (rewrite <- exp_plus, Rplus_opp_l; apply exp_0). rewrite A. split; [reflexivity|]. split; [transitivity (s * (exp (- growth) * exp growth) - 100 * exp (- growth)); [rewrite E; ring|ring]|].
    intros Q. assert (Z : (s * exp growth - 100) * (1 - exp (- growth)) = 0) by (transitivity (s * exp growth - 100 - s * (exp (- growth) * exp growth) + 100 * exp (- growth)); [ring|rewrite E; lra]).
    apply Rmult_integral in Z. destruct Z as [Z|Z]; [lra|]. pose proof grows. nra.
  Qed.

  (** Two options on one stock. *)
  Lemma two15_portfolio : mc_portfolio call_less_put 0%Z =
    Ok (deps_of call_and_put, mkTimeline [("BP"%string, (stock, [at15; at15]))] [expiry_flow (vanilla15 Call); expiry_flow (vanilla15 Put)]).
  Proof.
    pose proof two_collected as E. unfold collect_all in E. cbn [foldM collect] in E. inv_bind E. inv_bind E. injection E as E.
    unfold mc_portfolio, call_less_put. cbn [foldM fst snd].
    match goal with H : collect_spot call_100 _ = Ok _ |- _ => rewrite H end. cbn [bind].
    match goal with |- context [mc_dependencies call_100 ?t] => let t' := eval cbv [mc_dependencies call_100 observe add_flow tl_observations tl_flows get put app] in (mc_dependencies call_100 t) in
      change (mc_dependencies call_100 t) with t' end. cbn [bind fst snd].
    match goal with H : collect_spot put_100 _ = Ok _ |- _ => rewrite H end. cbn [bind]. rewrite E. reflexivity.
  Qed.

  Lemma two15_new : exists mp, mc_pricer_new nan visit (fun _ _ => 0) call_less_put (mkFactory var15 1) (flat_market 100) = Ok mp.
  Proof.
    eexists. unfold mc_pricer_new. change (md_spot_date (flat_market 100)) with 0%Z. rewrite two15_portfolio. cbn [bind]. rewrite two_cached. cbn [bind].
    unfold diffusion_new. cbn [tl_observations]. rewrite (visit_one visit visits). cbn [map fst snd df_path_substep df_n_paths].
    assert (S : calculate_substepping nan [at15; at15] (prefetch_context nan (cache nan 100 call_and_put rate)) [stock] var15 = Ok [1%nat; 1%nat]).
    { unfold calculate_substepping. cbn [List.length Nat.eqb negb guard bind foldM].
      change (ctx_forward_curve (prefetch_context nan (cache nan 100 call_and_put rate)) stock (last_date [at15; at15])) with (@Ok (forward R) (carried 100 rate 15%Z)).
      cbn [bind]. change (ctx_vol_surface (prefetch_context nan (cache nan 100 call_and_put rate)) stock (last_date [at15; at15]) (Ok (carried 100 rate 15%Z))) with (@Ok (vol_surface R) flat_vol).
      cbn [bind map substep_loop at15 ddf_date]. rewrite carried15. cbn [bind]. rewrite (proj1 (flat_variance nan _)). cbn [bind].
      pose proof var15_positive. rnum. rcase; [lra|]. cbn [negb guard bind]. rcase; [lra|]. cbn [negb guard bind].
      replace ((var15 - 0) / var15) with 1 by (field; lra). replace ((var15 - var15) / var15) with 0 by (field; lra). rewrite ceil_one, ceil_zero. reflexivity. }
    rewrite S. cbn [bind fetch_gaussians list_sum fold_right Nat.add List.length Nat.ltb Nat.leb assert_ seq map]. unfold fetch_paths.
    cbn [List.length Nat.ltb Nat.leb assert_ bind combine mapM fst snd].
    erewrite (fetch_path_ok nan stock _ [at15; at15]) with (marks := [mark15 100; mark15 100]); [cbn [bind]; reflexivity|cbn; lia|reflexivity|reflexivity| | |].
    - pose proof (marked15 nan 100) as M. inversion M; subst. constructor; [assumption|]. exact M.
    - pose proof var15_positive. cbn [mark15 gained mk_variance]. repeat constructor; cbn [INR]; lra.
    - repeat constructor.
  Qed.

  Lemma steps_one : steps15 var15 = 1%nat.
  Proof. unfold steps15. replace (var15 / var15) with 1 by (field; pose proof var15_positive; lra). now rewrite ceil_one. Qed.

  (** A draw of minus two deviations' worth. *)
  Definition deep : nat -> nat -> R := fun _ _ => - 2 / sqrt var15.
  Lemma deep_path s : path_of [mark15 s] [1%nat] [- 2 / sqrt var15] = [- (s * exp growth)].
  Proof.
    pose proof var15_positive as V. pose proof (sqrt_lt_R0 _ V). unfold path_of. cbn [List.length seq map nth mark15 mk_forward mk_displacement].
    cbn [firstn list_sum fold_right Nat.add]. unfold grown, deviations. cbn [gained mk_variance combine map fst snd repeat List.concat app INR firstn product fold_right].
    f_equal. change (mk_variance (mark15 s)) with var15. replace ((var15 - 0) / 1) with var15 by field. field. lra.
  Qed.

  Lemma below_zero s : 0 < s -> exists mp x, mc_pricer_new nan visit deep [(1, put_100)] (mkFactory var15 1) (flat_market s) = Ok mp /\
    mc_paths (mp_model mp) stock = Ok [[- (s * exp growth)]] /\ - (s * exp growth) < 0 /\
    price nan cdf (op_context ops mp) (expiry_flow (vanilla15 Put)) (mkDT 0%Z Open_) = Ok 1 /\ op_price ops mp = Ok x /\ 100 < x.
  Proof.
    intros S. pose proof (exp_pos growth) as G. assert (P : 0 < s * exp growth) by (apply Rmult_lt_0_compat; lra).
    exists (pricer15 nan s var15 1 deep Put 1). eexists. split; [apply pricer15_new; lia|]. split.
    { unfold mc_paths. cbn [pricer15 mp_model model15 bd_instruments bd_paths]. change (asset_of (instrument_id stock) [stock]) with (Some O). cbn [nth_error]. f_equal.
      rewrite steps_one. unfold drawn, deep. cbn [seq map]. f_equal. apply deep_path. }
    split; [lra|]. split; [apply flow15|]. split; [apply price15; lia|]. rewrite steps_one. unfold drawn, deep. cbn [seq map]. rewrite deep_path.
    unfold mean. cbn [fold_right List.length INR option15 vanilla15 option_on van_put_or_call pays]. rewrite Rmax_left by lra. lra.
  Qed.

  (** Two paths with opposite draws. *)
  Definition toss : nat -> nat -> R := fun k _ => match k with O => 1 | _ => - 1 end.
  Lemma toss_balanced s pc w : exists mp g, mc_pricer_new nan visit toss [(w, option15 pc)] (mkFactory var15 2) (flat_market s) = Ok mp /\
    map (fun k => map (toss k) (seq 0 (List.length g))) (seq 0 2) = sign_changes g /\ List.length g = list_sum (bd_substepping (mp_model mp)).
  Proof.
    exists (pricer15 nan s var15 2 toss pc w), [1]. split; [apply pricer15_new; lia|]. split; [reflexivity|]. cbn [pricer15 mp_model model15 bd_substepping]. now rewrite steps_one.
  Qed.

  (** Time passes expiry. *)
  Lemma not_settled s draws : exists mp, mc_pricer_new nan visit draws [(1, call_100)] (mkFactory 1 1) (flat_market s) = Ok mp /\
    forall mp', op_bump_time ops (to_day 20%Z) mp <> (Ok tt, mp').
  Proof.
    exists (pricer15 nan s 1 1 draws Call 1). split; [apply pricer15_new; lia|]. generalize (eq_refl (mp_instruments (pricer15 nan s 1 1 draws Call 1))).
    assert (U : update_instruments nan (to_day 20%Z) (mp_instruments (pricer15 nan s 1 1 draws Call 1)) (op_context ops (pricer15 nan s 1 1 draws Call 1))
      (pf_deps (bd_context (mp_model (pricer15 nan s 1 1 draws Call 1)))) = Ok (true, settled s)) by exact (one_expires nan s).
    revert U. generalize (pricer15 nan s 1 1 draws Call 1) at 1 2 3 4 6. intros mp U I mp' E.
    destruct (kept_alive nan cdf visit visits redraws (to_day 20%Z) mp mp' 1 (vanilla15 Call) 100 I E) as (_ & _ & _ & V & _).
    rewrite U in V. discriminate.
  Qed.

  (** The histories theorems about restoring are about. *)
  Lemma careful15 s x most n draws pc w : (0 < n)%nat -> exists mp mp' sv h, mc_pricer_new nan visit draws [(w, option15 pc)] (mkFactory most n) (flat_market s) = Ok mp /\
    h = [(BSpot "BP" (RelativeSpot x), true)] /\ careful (pf_deps (bd_context (mp_model mp))) [] h /\
    pricer_bumps ops h mp (op_new_saveable ops mp) mp' sv /\ mp' = pricer15 nan (s * (1 + x)) most n draws pc w.
  Proof.
    intros NP. do 4 eexists. split; [now apply pricer15_new|]. split; [reflexivity|]. split.
    { apply (ca_first _ _ _ (SpotFor "BP")); [reflexivity|intros []|repeat constructor; intros []|intros ? ? []|constructor]. }
    split.
    { eapply (pb_last ops). cbn [op_bump op_new_saveable mc_ops if_saving]. unfold mc_bump, diffusion_saveable, saved_prefetch_new. cbn [pricer15 mp_model]. rewrite spot15_saved. reflexivity. }
    unfold pricer15. cbn [mp_factory mp_instruments apply_spot]. reflexivity.
  Qed.

  Lemma reached15 s f most n draws pc w : pricer_reaches ops (pricer15 nan s most n draws pc w) (pricer15 nan (apply_spot f s) most n draws pc w).
  Proof.
    eapply (pr_step ops) with (b := BSpot "BP" f) (save := None); [|constructor]. cbn [op_bump mc_ops]. unfold mc_bump. cbn [pricer15 mp_model]. rewrite spot15. reflexivity.
  Qed.

End Cases.

(** Five days pass. *)
Definition day5_vol : vol_surface R := ConstantExpiry flat_vol ((IZR (5 - 0) + 0 - 0) / 365) (mkDDF 5%Z 0).
Definition day5_forward (s : R) : forward R := EquityForward NullRule rate zero zero (mkBoot 5%Z 15%Z [])
  (s * exp (0 - 5 * (IZR 5 / 365) - (0 - 5 * (IZR 5 / 365)))) (0 - 5 * (IZR 5 / 365)).
Definition day5_market (s : R) : market_data R := mkMarket 5%Z [("BP"%string, s)] [("BP-CR"%string, rate); ("OPT-CR"%string, zero)] [("BP"%string, zero)]
  [("BP"%string, stream_new [] zero)] [("BP"%string, flat_vol)].

Lemma day5_surface nan s : md_vol_surface nan (day5_market s) stock 15%Z (Ok (day5_forward s)) = Ok day5_vol.
Proof.
  unfold md_vol_surface. change (find_data _ _ _) with (@Ok (vol_surface R) flat_vol). cbn [bind md_spot_date vol_time_dynamics_of stock day5_market].
  unfold time_modify, flat_vol. cbn [vs_base vs_calendar ddf_date]. change (5 =? 0)%Z with false. cbv iota.
  rnum. rewrite ddf_new_zero. cbn [bind]. rewrite every_years by (cbn; lia). cbn [bind ddf_date ddf_frac].
  match goal with |- context [approx_eq ?a ?b ?c] => replace (approx_eq a b c) with false; [reflexivity|] end. symmetry.
  unfold approx_eq, nlit. rnum. unfold Rabs. destruct (Rcase_abs _); rcase; try reflexivity; cbn in *; lra.
Qed.

Lemma day5_curve nan s : md_forward_curve nan (day5_market s) stock 15%Z = Ok (day5_forward s).
Proof.
  change (equity_forward_new nan 5%Z s NullRule rate zero (stream_new [] zero) 15%Z = Ok (day5_forward s)).
  unfold equity_forward_new, log_discount_with_borrow, discount_with_borrow. cbn [apply_rule bind].
  unfold log_discount_with_borrow. rewrite rate_rt. unfold zero. rewrite zero_rt. cbn [bind]. reflexivity.
Qed.

Definition day5_cache (s : R) : prefetch R := mkPrefetch (day5_market s) (deps_of call_only) [("BP"%string, day5_forward s)] [("BP"%string, day5_vol)].
Lemma day5_bumped nan s : prefetch_bump nan (BSpotDate (mkBumpSpotDate 5%Z StickySpot)) (cache nan s call_only rate) None = (Ok true, day5_cache s, None).
Proof.
  unfold prefetch_bump, prefetch_bump_saved. cbn [bsd_date bsd_dynamics cache pf_data md_spot_date]. change (5 =? 0)%Z with false. cbn [negb].
  unfold md_bump_spot_date. cbn [bsd_date bsd_dynamics bind pf_deps md_spots md_yields md_borrows md_divs md_vols]. unfold refetch_all, walk_dependencies.
  cbn [pf_data pf_deps]. change (pf_deps (cache nan s call_only rate)) with (deps_of call_only). change (col_forward_curves (deps_of call_only)) with [("BP"%string, (stock, 15%Z))]. cbn [walk_loop].
  fold (day5_market s). rewrite day5_curve. change (vol_surface_hwm stock (deps_of call_only)) with (Some 15%Z). cbv iota beta. rewrite day5_surface. reflexivity.
Qed.

Lemma day5_marked nan s : exists F V, marked nan (day5_forward s) day5_vol [at15] [mkMark F V 0] /\ 0 <= V.
Proof.
  assert (A : exists F, forward_at nan (day5_forward s) 15%Z = Ok F).
  { eexists. unfold day5_forward, forward_at, discounted_sum_from_base, sum_at. cbn [boot_hwm boot_acc]. change (15 <? 15)%Z with false.
    change (binary_search_by (@nil (accumulation R)) (fun p => (acc_ex_date p ?= 15)%Z)) with (Missing 0). cbn [Nat.eqb bind apply_rule].
    unfold log_discount_with_borrow. rewrite rate_rt. unfold zero. rewrite zero_rt. cbn [bind]. reflexivity. }
  destruct A as (F & A). exists F, (Rmax ((15 - 5) / 365) 0 * (/ 5) ^ 2). split; [|rewrite Rmax_left by lra; lra].
  constructor; [|constructor]. cbn [mk_forward mk_variance mk_displacement at15 ddf_date]. split; [exact A|]. split; [|reflexivity].
  apply variance_real. unfold volatility_is, day5_vol, flat_vol. cbn [volatilities map]. rewrite every_years by (cbn; lia). cbn [bind].
  do 2 f_equal. rewrite nmax_max. change n0 with 0. cbn [ddf_date ddf_frac]. change (IZR (15 - 0)) with 15. change (IZR (5 - 0)) with 5. rnum. cbn [at15 ddf_date ddf_frac]. change (IZR (15 - 0)) with 15. f_equal. field.
Qed.

Lemma time_simulated nan cdf visit : (forall l, Permutation (visit l) l) -> forall redraws draws s n w, (0 < n)%nat -> exists mp mp',
  mc_pricer_new nan visit draws [(w, call_100)] (mkFactory 1 n) (flat_market s) = Ok mp /\
  op_bump_time (mc_ops nan cdf visit redraws) (to_day 5%Z) mp = (Ok tt, mp') /\ md_spot_date (pf_data (bd_context (mp_model mp'))) = 5%Z.
Proof.
  intros visits redraws draws s n w NP. destruct (day5_marked nan s) as (F & V & M & VP).
  exists (pricer15 nan s 1 n draws Call w). eexists. split; [exact (pricer15_new nan cdf visit visits s 1 n draws Call w NP)|].
  cbn [op_bump_time mc_ops]. unfold mc_bump_time, apply_time_bump. cbn [pricer15 mp_model mp_instruments mp_factory model15 bd_context bind].
  change (pf_deps (cache nan s (wants15 Call) rate)) with (deps_of call_only). change (wants15 Call) with call_only. change (option15 Call) with call_100.
  assert (U : update_instruments nan (to_day 5%Z) [(w, call_100)] (prefetch_context nan (cache nan s call_only rate)) (deps_of call_only) = Ok (false, [(w, call_100)])).
  { unfold update_instruments. change (fixing_map _ _ _ _ _) with (@Ok (list (string * list (datetime * R))) []). reflexivity. }
  rewrite U. cbn [to_day bt_spot_date_bump]. unfold diffusion_bump, diffusion_bump_saved. cbn [bd_context].
  match goal with |- context [prefetch_bump ?a ?b ?c ?d] => change (prefetch_bump a b c d) with (prefetch_bump nan (BSpotDate (mkBumpSpotDate 5%Z StickySpot)) (cache nan s call_only rate) None) end.
  rewrite day5_bumped. cbn beta iota zeta.
  unfold refetch_all_paths, with_paths. cbn [bd_observations bd_gaussians bd_context bd_instruments bd_substepping bd_n_paths bd_flows bd_paths model15].
  unfold fetch_paths. cbn [List.length Nat.ltb Nat.leb assert_ bind combine mapM fst snd]. destruct n as [|n]; [lia|]. cbn [assert_ bind]. erewrite (fetch_path_ok nan stock _ [at15]) with (marks := [mkMark F V 0]); [cbn [bind rmap]; split; reflexivity|cbn; lia|reflexivity|reflexivity|exact M| |].
  - constructor; [|constructor]. split; [cbn [mk_variance]; lra|apply steps15_some].
  - eapply Forall_impl; [|apply drawn_length]. cbn beta. intros row ->. cbn. lia.
Qed.
