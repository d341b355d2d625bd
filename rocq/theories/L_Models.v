(** Lemmas about Monte-Carlo pricers: what they are made of, and that bumping them keeps their paths up to date. *)
From Coq Require Import ZArith List String Bool Lia.
From Verif Require Import Prelude Num M_Dates M_Calendar M_Curves M_Fixings M_Forward M_Vol M_Instruments M_Deps M_Risk M_Reports M_MonteCarlo
  S_Deps S_Risk S_Reports S_MonteCarlo L_Num L_Fixings L_Risk L_Prefetch L_PrefetchTop L_SelfPricer L_Diffusion.
Import ListNotations.
Open Scope list_scope.

Section Fresh.
  Context {T : Type} {N : Num T} {TR : Trans T}.
  Variable nan : T.
  Implicit Types d : diffusion T.
  Implicit Types p : prefetch T.

  Lemma refetch_deps id a b' sf sv p r p' sf' sv' : refetch nan id a b' sf sv p = (r, p', sf', sv') -> pf_deps p' = pf_deps p.
  Proof.
    unfold refetch, refetch_vol. intros E.
    assert (OK : forall (x : res bool) y z w, (x, y, z, w) = (r, p', sf', sv') -> pf_deps y = pf_deps p -> pf_deps p' = pf_deps p)
      by (intros x y z w [= <- <- <- <-]; auto).
    destruct a, b'; cbn [negb andb orb] in *;
      repeat (match type of E with context [match ?c with _ => _ end] =>
                lazymatch c with context [match _ with _ => _ end] => fail | _ => destruct c end end; cbv iota beta in E);
      refine (OK _ _ _ _ E _); reflexivity.
  Qed.

  Lemma refetch_each_deps ids a sf sv p r p' sf' sv' : refetch_each nan ids a sf sv p = (r, p', sf', sv') -> pf_deps p' = pf_deps p.
  Proof.
    revert sf sv p. induction ids as [|id ids IH]; cbn [refetch_each]; intros sf sv p E.
    - now injection E as <- <- <- <-.
    - destruct (refetch nan id a false sf sv p) as [[[r1 p1] sf1] sv1] eqn:R. apply refetch_deps in R. rewrite <- R.
      destruct r1; [eauto| |]; now injection E as <- <- <- <-.
  Qed.

  Lemma fetch_path_context u p p' obs g subs : pf_forwards p' = pf_forwards p -> pf_vols p' = pf_vols p ->
    fetch_path nan u (prefetch_context nan p') obs g subs = fetch_path nan u (prefetch_context nan p) obs g subs.
  Proof. intros A B. unfold fetch_path, prefetch_context. cbn [ctx_forward_curve ctx_vol_surface]. now rewrite A, B. Qed.

  (** One asset, its draws, and the path they give in the context. *)
  Definition one_path d u g path : Prop := bd_instruments d = [u] /\ bd_gaussians d = [g] /\ bd_paths d = [path].
  Definition fresh_path d u g path : Prop :=
    fetch_path nan u (prefetch_context nan (bd_context d)) (bd_observations d) g (bd_substepping d) = Ok path.
  Definition fresh_model d : Prop := exists u g path, one_path d u g path /\ fresh_path d u g path.

  Lemma each_path_fresh u g ids : forall saved d path r d' s', one_path d u g path ->
    refetch_each_path nan ids true saved d = (Ok r, d', s') ->
    exists path', d' = with_paths d (bd_context d) [path'] /\ (ids = [] /\ path' = path \/ fresh_path d u g path').
  Proof.
    induction ids as [|id ids IH]; intros saved d path r d' s' (I & G & P) E; cbn [refetch_each_path] in E.
    - injection E as _ <- _. exists path. rewrite <- P, with_same. auto.
    - unfold refetch_path in E. cbn [negb] in E. rewrite I, G, P in E. cbn [asset_of] in E. destruct (String.eqb id (instrument_id u)); cbn [option_map] in E; [|discriminate].
      cbn [nth_error] in E. destruct (fetch_path _ _ _ _ _ _) as [path1|m|m] eqn:F; try discriminate. cbn [set_nth] in E.
      eapply (IH _ _ path1) in E; [|repeat split; assumption]. destruct E as (path' & -> & X). exists path'. split; [reflexivity|]. right.
      destruct X as [[_ ->]|X]; [exact F|exact X].
  Qed.

  Lemma saved_steps b d save r d' save' : diffusion_bump nan b d save = (Ok r, d', save') ->
    exists inner saved i' s', diffusion_bump_saved nan b d inner saved = (Ok r, d', i', s').
  Proof.
    unfold diffusion_bump. destruct save as [[x|x y z|x y]|]; try discriminate;
      destruct (diffusion_bump_saved _ _ _ _ _) as [[[r1 d1] i1] s1] eqn:E; intros Q; inversion Q; subst; do 4 eexists; exact E.
  Qed.

  Lemma fresh_model_step b d save r d' save' : fresh_model d -> diffusion_bump nan b d save = (Ok r, d', save') ->
    fresh_model d' /\ d' = with_paths d (bd_context d') (bd_paths d') /\
    exists inner r1 inner', prefetch_bump nan b (bd_context d) inner = (Ok r1, bd_context d', inner').
  Proof.
    intros (u & g & path & OP & FP) E. apply saved_steps in E. destruct E as (inner & saved & i' & s' & E). destruct (target b) as [t|] eqn:TB.
    - rewrite (diffusion_dispatch nan b t d inner saved TB) in E. destruct (prefetch_bump nan b (bd_context d) inner) as [[[a|m|m] c] i] eqn:E1;
        cbn beta iota zeta in E; try discriminate. destruct (refetch_each_path _ _ _ _ _) as [[r2 d2] s2] eqn:E2. injection E as -> <- <- <-. destruct a.
      + pose proof E2 as E3. eapply each_path_fresh in E3; [|destruct OP as (Q1 & Q2 & Q3); repeat split; [exact Q1|exact Q2|exact Q3]].
        destruct E3 as (path' & -> & X). cbn [with_paths bd_context bd_paths]. split; [|split; [reflexivity|eauto]].
        exists u, g, path'. destruct OP as (Q1 & Q2 & Q3). split; [repeat split; assumption|].
        destruct X as [[M ->]|X]; [|exact X]. unfold fresh_path in *. cbn [with_paths bd_context bd_observations bd_substepping].
        rewrite <- FP. assert (Y : pf_forwards c = pf_forwards (bd_context d) /\ pf_vols c = pf_vols (bd_context d)); [|now apply fetch_path_context].
        assert (ED : exists cr, t = YieldFor cr). { destruct t; try discriminate M. eauto. } destruct ED as (cr & ->). cbn [moves] in M.
        assert (DP : exists sd sf sv sd' sf' sv', prefetch_bump_saved nan b (bd_context d) sd sf sv = (Ok true, c, sd', sf', sv')).
        { unfold prefetch_bump in E1. destruct inner as [[x|x y z|x y]|]; try discriminate;
            destruct (prefetch_bump_saved _ _ _ _ _ _) as [[[[? ?] ?] ?] ?] eqn:F in E1; inversion E1; subst; do 6 eexists; exact F. }
        destruct DP as (sd & sf & sv & sd' & sf' & sv' & DP). rewrite (bump_dispatch nan b _ _ _ _ _ TB) in DP. cbn [refetch_for pf_deps] in DP.
        assert (DE : pf_deps c = pf_deps (bd_context d)).
        { destruct (refetch_each nan _ _ _ _ _) as [[[x1 x2] x3] x4] eqn:F in DP. injection DP as -> -> _ _ _. apply refetch_each_deps in F. exact F. }
        rewrite DE in M. rewrite M in DP. cbn [refetch_each] in DP. now inversion DP; subst.
      + rewrite each_path_none in E2. inversion E2; subst. apply prefetch_unknown_same in E1 as F. subst c. rewrite with_same.
        split; [exists u, g, path; auto|]. split; [now rewrite with_same|eauto].
    - unfold diffusion_bump_saved in E. destruct b as [| | | | |gg]; try discriminate. destruct (prefetch_bump nan _ (bd_context d) inner) as [[[a|m|m] c] i] eqn:E1;
        cbn beta iota zeta in E; try discriminate. destruct a.
      + unfold refetch_all_paths, fetch_paths in E. destruct OP as (Q1 & Q2 & Q3). cbn [with_paths bd_observations bd_context bd_gaussians bd_instruments bd_substepping bd_n_paths] in E.
        rewrite Q1, Q2 in E. destruct (assert_ _ _); cbn [bind rmap] in E; try discriminate. destruct (assert_ _ _); cbn [bind rmap] in E; try discriminate.
        destruct (assert_ _ _); cbn [bind rmap] in E; try discriminate. cbn [combine mapM fst snd] in E.
        destruct (fetch_path _ _ _ _ _ _) as [path'|m|m] eqn:F; cbn [bind rmap] in E; try discriminate. injection E as _ <- <- <-.
        cbn [with_paths bd_context bd_paths]. split; [|split; [reflexivity|eauto]]. exists u, g, path'. split; [repeat split; assumption|exact F].
      + apply prefetch_unknown_same in E1 as F. subst c. inversion E; subst. rewrite with_same. split; [exists u, g, path; auto|]. split; [now rewrite with_same|eauto].
  Qed.

  Variable cdf : T -> T.
  Variable visit : smap (instrument T * list (ddf T)) -> smap (instrument T * list (ddf T)).
  Variable redraws : bump_time -> mc_pricer T -> nat -> nat -> T.
  Let ops := mc_ops nan cdf visit redraws.

  Lemma fresh_reaches mp mp' : pricer_reaches ops mp mp' -> fresh_model (mp_model mp) ->
    fresh_model (mp_model mp') /\ bumps_to nan (bd_context (mp_model mp)) (bd_context (mp_model mp')) /\
    mp' = mkMcPricer (mp_factory mp) (mp_instruments mp) (with_paths (mp_model mp) (bd_context (mp_model mp')) (bd_paths (mp_model mp'))).
  Proof.
    induction 1 as [mp|mp b save r mp1 save' mp2 E _ IH]; intros FM.
    - split; [exact FM|]. split; [constructor|]. rewrite with_same. now destruct mp.
    - unfold ops in E. cbn [mc_ops op_bump] in E. unfold mc_bump in E. destruct (diffusion_bump nan b (mp_model mp) save) as [[r1 d1] s1] eqn:E1.
      injection E as -> <- ->. destruct (fresh_model_step _ _ _ _ _ _ FM E1) as (F1 & D1 & inner & r1 & inner' & PB). cbn [mp_model mp_factory mp_instruments] in IH.
      destruct (IH F1) as (F2 & B2 & Q). split; [exact F2|]. split; [eapply bt_step; eauto|]. rewrite Q at 1. rewrite D1 at 1. now rewrite with_with.
  Qed.

  (** What a new model is made of. *)
  Lemma new_model draws t p f d : diffusion_new nan visit draws t p f = Ok d ->
    exists id u obs g path, visit (tl_observations t) = [(id, (u, obs))] /\
      calculate_substepping nan obs (prefetch_context nan p) [u] (df_path_substep f) = Ok (bd_substepping d) /\
      g = map (fun k => map (draws k) (seq 0 (list_sum (bd_substepping d)))) (seq 0 (df_n_paths f)) /\
      (0 < df_n_paths f)%nat /\ (0 < List.length obs)%nat /\
      fetch_path nan u (prefetch_context nan p) obs g (bd_substepping d) = Ok path /\
      d = mkDiffusion obs (tl_flows t) p [u] (bd_substepping d) (df_n_paths f) [g] [path].
  Proof.
    unfold diffusion_new. intros E. inv_bind E. inv_bind E. inv_bind E. injection E as <-. cbn [bd_substepping].
    unfold fetch_gaussians in *. repeat match goal with H : bind (assert_ _ _) _ = Ok _ |- _ => inv_bind H end.
    destruct (visit (tl_observations t)) as [|[id [u obs]] [|asset rest]]; cbn [map fst snd] in *; try discriminate.
    match goal with H : Ok [_] = Ok _ |- _ => injection H as <- end.
    match goal with H : fetch_paths _ _ _ _ _ _ _ = Ok _ |- _ => unfold fetch_paths in H; inv_bind H; inv_bind H; inv_bind H; cbn [combine mapM fst snd] in H; inv_bind H; injection H as <- end.
    repeat match goal with H : assert_ _ _ = Ok _ |- _ => apply assert_ok in H end.
    do 5 eexists. split; [reflexivity|]. split; [eassumption|]. split; [reflexivity|]. split; [apply Nat.ltb_lt; eassumption|]. split; [apply Nat.ltb_lt; eassumption|].
    split; [eassumption|]. reflexivity.
  Qed.

  Lemma new_model_fresh draws t p f d : diffusion_new nan visit draws t p f = Ok d -> fresh_model d /\ bd_context d = p.
  Proof.
    intros E. destruct (new_model _ _ _ _ _ E) as (id & u & obs & g & path & _ & _ & _ & _ & _ & F & ->). split; [|reflexivity].
    exists u, g, path. split; [repeat split|exact F].
  Qed.

  Lemma portfolio_splits instruments today deps t : mc_portfolio instruments today = Ok (deps, t) ->
    portfolio_dependencies instruments today = Ok deps.
  Proof.
    unfold mc_portfolio, portfolio_dependencies. generalize (collector_new (T := T) today). generalize (mkTimeline (T := T) [] []).
    induction instruments as [|h ins IH]; intros t0 s0 E; cbn [foldM fst snd] in *; [congruence|].
    inv_bind E. match goal with H : bind _ _ = Ok _ |- _ => inv_bind H; inv_bind H; injection H as <- end.
    match goal with H : collect_spot _ _ = Ok _ |- _ => rewrite H end. cbn [bind]. exact (IH _ _ E).
  Qed.

  Lemma mc_new draws instruments f md mp : mc_pricer_new nan visit draws instruments f md = Ok mp ->
    exists deps t p, mc_portfolio instruments (md_spot_date md) = Ok (deps, t) /\ prefetch_new nan md deps = Ok p /\
      diffusion_new nan visit draws t p f = Ok (mp_model mp) /\ mp = mkMcPricer f instruments (mp_model mp).
  Proof.
    unfold mc_pricer_new. intros E. inv_bind E. match goal with x : collector T * timeline T |- _ => destruct x as [deps t] end. inv_bind E. inv_bind E. injection E as <-. cbn [mp_model]. eauto 10.
  Qed.

  (** A bumped pricer is the one that would be made with the bumped data and as many steps, the spot date being the same. *)
  Lemma mc_fresh draws instruments f md l mp mp' mp'' : mc_pricer_new nan visit draws instruments f md = Ok mp ->
    all_come_to (md_spot_date md) (map (fun h => WantSpot (snd h)) instruments) l -> one_per_id l ->
    pricer_reaches ops mp mp' -> let md' := pf_data (bd_context (mp_model mp')) in
    md_spot_date md' = md_spot_date md -> mc_pricer_new nan visit draws instruments f md' = Ok mp'' ->
    bd_substepping (mp_model mp'') = bd_substepping (mp_model mp') -> mp'' = mp'.
  Proof.
    intros E D O B md' S E' SS. apply mc_new in E. destruct E as (deps & t & p & EP & EC & EM & Q0).
    apply mc_new in E'. destruct E' as (deps' & t' & p' & EP' & EC' & EM' & Q1). fold md' in EP'.
    rewrite S, EP in EP'. injection EP' as <- <-. apply fresh_reaches in B; [|now apply new_model_fresh in EM].
    destruct B as (F & BT & Q). rewrite Q0 in Q. cbn [mp_model mp_factory mp_instruments] in Q. destruct (new_model_fresh _ _ _ _ _ EM) as [_ CP]. rewrite CP in BT.
    apply portfolio_splits in EP. rewrite portfolio_collects in EP. pose proof (cache_fresh nan _ _ l deps EP D O md p _ EC BT) as CF. fold md' in CF.
    fold md' in EC'. rewrite CF in EC'. injection EC' as <-. clear md' S CF.
    destruct (new_model _ _ _ _ _ EM) as (id & u & obs & g & path & V1 & V2 & V3 & V4 & V4b & V5 & V6).
    destruct (new_model _ _ _ _ _ EM') as (id' & u' & obs' & g' & path' & W1 & W2 & W3 & W4 & W4b & W5 & W6).
    rewrite V1 in W1. injection W1 as <- <- <-. destruct F as (u2 & g2 & path2 & (F1 & F2 & F3) & FP). unfold fresh_path in FP.
    destruct mp' as [f' ins' m']. cbn [mp_model] in *. injection Q as -> -> Q. rewrite V6 in Q. unfold with_paths in Q.
    cbn [bd_observations bd_flows bd_instruments bd_substepping bd_n_paths bd_gaussians] in Q. set (subs := bd_substepping (mp_model mp)) in *. clearbody subs.
    destruct m' as [o fl c ins subs' n gs ps]. cbn [bd_observations bd_flows bd_instruments bd_substepping bd_n_paths bd_gaussians bd_paths bd_context] in *.
    injection Q as -> -> -> -> -> ->. injection F1 as <-. injection F2 as <-. rewrite F3. rewrite SS in *. rewrite <- V3 in W3. subst g'.
    rewrite Q1, W6. congruence.
  Qed.
End Fresh.
