(** Lemmas about implied volatility. *)
From Coq Require Import ZArith List String Bool Lia Reals Lra.
From Verif Require Import Prelude Num M_Brent M_Dates M_Curves M_Forward M_Vol M_Instruments M_Deps M_Risk M_Reports M_MonteCarlo M_Solver
  S_Math S_Risk S_Reports S_Solver L_Num L_Fixings L_Brent L_BrentEnds L_Risk L_Prefetch L_SelfPricer.
Import ListNotations.
Open Scope list_scope.

(** A search over a function with a state that does what a function without one does. *)
Section Simulation.
  Context {T : Type} {N : Num T} {W : Type}.
  Variable step : T -> W -> res T * W.
  Variable f : T -> res T.
  Variable rel : list T -> W -> Prop.
  Hypothesis Step : forall log w x, rel log w -> fst (step x w) = f x /\ (is_ok (f x) = true -> rel (x :: log) (snd (step x w))).

  (** The states go together, unless the last evaluation failed. *)
  Definition together (log : list T) (w : W) : Prop := rel log w \/ exists x rest, log = x :: rest /\ is_ok (f x) = false.

  Ltac failed := cbn [fst snd]; (split; [reflexivity|]); right; do 2 eexists; (split; [reflexivity|]);
    match goal with F : f _ = _ |- _ => rewrite F; reflexivity end.

  Lemma loop_follows tol n : forall s log w, rel log w ->
    fst (brent_loop _ step tol n s w) = fst (brent_loop _ (logged f) tol n s log) /\
    together (snd (brent_loop _ (logged f) tol n s log)) (snd (brent_loop _ step tol n s w)).
  Proof.
    induction n as [|n IH]; intros s log w R; [unfold together; cbn; auto|]. cbn [brent_loop].
    destruct (_ || _); [unfold together; cbn; auto|]. destruct (brent_de _ _) as [d e].
    set (x := brent_trial _ _ _). destruct (Step log w x R) as [E C].
    change (logged f x log) with (f x, x :: log). destruct (step x w) as [r w']. cbn [fst snd] in E, C. subst r.
    destruct (f x) as [y|m|m] eqn:F; [|failed|failed]. apply IH. now apply C.
  Qed.

  Lemma zbrent_follows nan x1 x2 tol n w : rel [] w ->
    fst (zbrent _ step nan x1 x2 tol n w) = fst (zbrent _ (logged f) nan x1 x2 tol n []) /\
    together (snd (zbrent _ (logged f) nan x1 x2 tol n [])) (snd (zbrent _ step nan x1 x2 tol n w)).
  Proof.
    intros R. unfold zbrent. destruct (Step [] w x1 R) as [E1 C1].
    change (logged f x1 []) with (f x1, [x1]). destruct (step x1 w) as [r1 w1]. cbn [fst snd] in *. subst r1.
    destruct (f x1) as [y1|m|m] eqn:F1; [|failed|failed].
    destruct (Step [x1] w1 x2 (C1 eq_refl)) as [E2 C2].
    change (logged f x2 [x1]) with (f x2, [x2; x1]). destruct (step x2 w1) as [r2 w2]. cbn [fst snd] in *. subst r2.
    destruct (f x2) as [y2|m|m] eqn:F2; [|failed|failed].
    destruct (same_sign y1 y2); [unfold together; cbn; auto|]. apply loop_follows. now apply C2.
  Qed.
End Simulation.

Section Generic.
  Context {T : Type} {N : Num T} {TR : Trans T} {P : Type}.
  Variable nan : T.
  Variable ops : pricer_ops T P.
  Hypothesis Replaceable : replaceable ops.

  Lemma single_spec p id : single_vol_id ops p = Ok id <-> depends_on_vols ops p [id].
  Proof.
    unfold single_vol_id, depends_on_vols. split.
    - intros E. inv_bind E. exists a. split; [assumption|]. destruct (col_vol_surfaces a) as [|[k [u h]] [|x l]]; cbn in *; [discriminate| |discriminate].
      now injection E as <-.
    - intros (deps & -> & M). cbn [bind]. destruct (col_vol_surfaces deps) as [|[k [u h]] [|x l]]; cbn in *; try discriminate. now injection M as ->.
  Qed.

  Lemma solve_ambiguous s target lo hi p ids : depends_on_vols ops p ids -> List.length ids <> 1%nat ->
    exists m, solve nan ops s target lo hi p = (Err m, p).
  Proof.
    intros (deps & E & M) L. unfold solve, single_vol_id. rewrite E. cbn [bind].
    destruct (col_vol_surfaces deps) as [|[k [u h]] [|x l]]; cbn [map] in M; subst ids; [cbn; eauto|cbn in L; congruence|cbn; eauto].
  Qed.

  (** Where the pricer is after trying some volatilities, the last one first. *)
  Definition tried (id : string) (p : P) (log : list T) (w : P) : Prop :=
    match log with [] => w = p | v :: _ => with_vol ops id v p w end.

  Lemma solve_follows s target lo hi p id : single_vol_id ops p = Ok id -> exists log,
    zbrent _ (logged (excess ops id p target)) nan lo hi (iv_tolerance s) (iv_max_iter s) [] = (fst (solve nan ops s target lo hi p), log) /\
    together (excess ops id p target) (tried id p) log (snd (solve nan ops s target lo hi p)).
  Proof.
    intros E. unfold solve. rewrite E. set (step := fun vol q => _).
    assert (K : forall log w x, tried id p log w ->
      let b := op_bump ops (BVol id (ReplaceVol x)) w None in let b' := op_bump ops (BVol id (ReplaceVol x)) p None in
      fst (fst b) = fst (fst b') /\ (is_ok (fst (fst b')) = true -> b = b')).
    { intros [|v log] w x R; cbn in R; [subst w; cbn; auto|]. destruct R as (r & sv & B). exact (Replaceable _ _ x _ _ _ _ B). }
    destruct (zbrent_follows step (excess ops id p target) (tried id p)) with (nan := nan) (x1 := lo) (x2 := hi)
      (tol := iv_tolerance s) (n := iv_max_iter s) (w := p) as [A B].
    - intros log w x R. unfold step, price_given_vol, excess. cbn [price_after tried]. destruct (K _ _ x R) as [K1 K2]. unfold with_vol.
      destruct (op_bump ops (BVol id (ReplaceVol x)) p None) as [[[r|m|m] p'] sv] eqn:Q; cbn [fst snd is_ok] in K1, K2.
      + rewrite (K2 eq_refl). cbn [fst snd rmap bind]. split; [reflexivity|]. intros _. eauto.
      + destruct (op_bump ops _ w None) as [[r' w'] s']. cbn [fst] in K1. subst r'. cbn [fst snd rmap bind]. split; [reflexivity|discriminate].
      + destruct (op_bump ops _ w None) as [[r' w'] s']. cbn [fst] in K1. subst r'. cbn [fst snd rmap bind]. split; [reflexivity|discriminate].
    - reflexivity.
    - eexists. split; [|exact B]. rewrite A. apply surjective_pairing.
  Qed.
End Generic.

Section Real.
  Context {P : Type}.
  Variable nan : R.
  Variable ops : pricer_ops R P.
  Hypothesis Replaceable : replaceable ops.
  Open Scope R_scope.

  Lemma solve_encloses s target lo hi p vol p' : solve nan ops s target lo hi p = (Ok vol, p') -> exists id log,
    depends_on_vols ops p [id] /\ enclosed (excess ops id p target) (iv_tolerance s) vol log /\
    exists last rest, log = last :: rest /\ with_vol ops id last p p'.
  Proof.
    intros E. destruct (single_vol_id ops p) as [id|m|m] eqn:I; [|unfold solve in E; rewrite I in E; discriminate..].
    destruct (solve_follows nan ops Replaceable s target lo hi p id I) as (log & Z & L). rewrite E in Z, L. cbn [fst snd] in Z, L.
    pose proof (proj2 (zbrent_outcome _ _ _ _ _ _ _ _ Z)) as O. cbn [outcome_of] in O.
    apply zbrent_enclosed in Z. exists id, log. split; [now apply single_spec|]. split; [exact Z|].
    destruct Z as (fb & _ & IN & _). destruct L as [L|(x & rest & -> & F)].
    - destruct log as [|v log]; [destruct IN|]. cbn [tried] in L. eauto.
    - destruct (O x (or_introl eq_refl)) as (y & Y). rewrite Y in F. discriminate.
  Qed.

  (** With a target between the prices at the bounds and enough iterations there is an answer. *)
  Lemma solve_ends s target lo hi p id j : 0 < iv_tolerance s -> Rabs (hi - lo) < iv_tolerance s / 2 * 2 ^ j -> ((j + 1) * (j + 1) <= iv_max_iter s)%nat ->
    depends_on_vols ops p [id] ->
    (forall v, Rmin lo hi - 3 * Rabs (hi - lo) <= v <= Rmax lo hi + 3 * Rabs (hi - lo) -> exists x, price_after ops [BVol id (ReplaceVol v)] p = Ok x) ->
    (forall x y, price_after ops [BVol id (ReplaceVol lo)] p = Ok x -> price_after ops [BVol id (ReplaceVol hi)] p = Ok y -> x <= target <= y \/ y <= target <= x) ->
    exists vol p', solve nan ops s target lo hi p = (Ok vol, p').
  Proof.
    intros Ht Hw Hn D Tot Br. apply single_spec in D. destruct (solve_follows nan ops Replaceable s target lo hi p id D) as (log & Z & _).
    destruct (zbrent_ends nan lo hi (iv_tolerance s) j (iv_max_iter s) (excess ops id p target) Ht Hw Hn) as (b & log' & E & _).
    - intros x Nx. destruct (Tot x Nx) as (y & Y). unfold excess. rewrite Y. cbn [rmap bind]. eauto.
    - intros y1 y2. unfold excess. destruct (price_after ops [BVol id (ReplaceVol lo)] p) as [x| |]; try discriminate. destruct (price_after ops [BVol id (ReplaceVol hi)] p) as [y| |]; try discriminate.
      cbn [rmap bind]. intros E1 E2. injection E1 as <-. injection E2 as <-. rnum. specialize (Br x y eq_refl eq_refl). nra.
    - rewrite Z in E. destruct (solve nan ops s target lo hi p) as [r p']. injection E as -> _. cbn. eauto.
  Qed.

  (** If the price increases with the size of the volatility, one that gives the target is near the answer. *)
  Lemma solve_near s target lo hi p vol p' id : solve nan ops s target lo hi p = (Ok vol, p') -> depends_on_vols ops p [id] ->
    (forall v w x y, 0 < Rabs v < Rabs w -> price_after ops [BVol id (ReplaceVol v)] p = Ok x ->
       price_after ops [BVol id (ReplaceVol w)] p = Ok y -> x < y) ->
    forall v, 0 < v -> price_after ops [BVol id (ReplaceVol v)] p = Ok target ->
    let within x y := Rabs (x - y) <= 4 * / 4503599627370496 * Rabs vol + Rabs (iv_tolerance s) in
    within (Rabs vol) v \/ within vol 0.
  Proof.
    intros E D M v V0 V within. destruct (solve_encloses _ _ _ _ _ _ _ E) as (id' & log & D' & (fb & FB & _ & K) & _).
    assert (id' = id) as ->. { apply single_spec in D, D'. congruence. }
    unfold excess in *. rnum.
    assert (G : forall x y, rmap (fun x => x - target) (price_after ops [BVol id (ReplaceVol x)] p) = Ok y ->
              price_after ops [BVol id (ReplaceVol x)] p = Ok (y + target)).
    { intros x y. destruct (price_after ops [BVol id (ReplaceVol x)] p) as [z|m|m]; cbn [rmap bind]; intros Q; try discriminate. injection Q as <-. f_equal. ring. }
    apply G in FB. pose proof (Rabs_pos vol) as PV. pose proof (Rabs_pos (iv_tolerance s)) as PT. pose proof (Rle_abs (iv_tolerance s)) as T0.
    assert (EV : 0 <= / 4503599627370496 * Rabs vol) by (apply Rmult_le_pos; [left; apply Rinv_0_lt_compat; lra|assumption]).
    assert (AV : Rabs v = v) by (apply Rabs_right; lra).
    assert (X : forall y fy, y <> 0 -> price_after ops [BVol id (ReplaceVol y)] p = Ok (fy + target) ->
      (Rabs y < v /\ fy < 0) \/ Rabs y = v \/ (v < Rabs y /\ 0 < fy)).
    { intros y fy Y0 Y. pose proof (Rabs_pos_lt y Y0). destruct (Rtotal_order (Rabs y) v) as [L|[L|L]].
      - left. split; [assumption|]. assert (B : 0 < Rabs y < Rabs v) by lra. pose proof (M _ _ _ _ B Y V). lra.
      - auto.
      - right. right. split; [lra|]. assert (B : 0 < Rabs v < Rabs y) by lra. pose proof (M _ _ _ _ B V Y). lra. }
    destruct (Req_dec vol 0) as [->|VN]; [right; unfold within; rewrite Rminus_diag_eq, Rabs_R0 by reflexivity; rewrite Rabs_R0 in *; lra|].
    destruct K as [->|(c & fc & FC & _ & O & DI)].
    - left. unfold within. destruct (X vol 0 VN FB) as [(_ & F)|[->|(_ & F)]]; [lra| |lra]. rewrite Rminus_diag_eq, Rabs_R0 by reflexivity. lra.
    - destruct (Req_dec c 0) as [->|CN]; [right; unfold within; rewrite Rminus_0_l, Rabs_Ropp in DI; rewrite Rminus_0_r; lra|].
      left. unfold within. apply G in FC. pose proof (Rabs_triang_inv2 c vol) as TI.
      destruct (X _ _ VN FB) as [(X1 & Y1)|[X1|(X1 & Y1)]], (X _ _ CN FC) as [(X2 & Y2)|[X2|(X2 & Y2)]].
      + exfalso; nra.
      + rewrite <- X2, <- Rabs_Ropp, Ropp_minus_distr. lra.
      + revert TI. rewrite (Rabs_right (Rabs c - Rabs vol)), (Rabs_left (Rabs vol - v)) by lra. lra.
      + rewrite X1, Rminus_diag_eq, Rabs_R0 by reflexivity. lra.
      + rewrite X1, Rminus_diag_eq, Rabs_R0 by reflexivity. lra.
      + rewrite X1, Rminus_diag_eq, Rabs_R0 by reflexivity. lra.
      + revert TI. rewrite (Rabs_left (Rabs c - Rabs vol)), (Rabs_right (Rabs vol - v)) by lra. lra.
      + rewrite <- X2, <- Rabs_Ropp, Ropp_minus_distr. lra.
      + exfalso; nra.
  Qed.
End Real.

Section Self.
  Context {T : Type} {N : Num T} {TR : Trans T}.
  Variable nan : T.
  Variable cdf : T -> T.

  Lemma replaced_twice id v w (md : market_data T) :
    bumped_md (BVol id (ReplaceVol w)) (bumped_md (BVol id (ReplaceVol v)) md) = bumped_md (BVol id (ReplaceVol w)) md /\
    known (bumped_md (BVol id (ReplaceVol v)) md) (VolFor id) = known md (VolFor id).
  Proof.
    unfold bumped_md, known. cbn [md_bump_saved look]. unfold apply_bump. destruct (get id (md_vols md)) as [s|] eqn:G; cbn [fst snd md_vols].
    - rewrite !get_put_same. cbn [fst snd md_spots md_spot_date md_yields md_borrows md_divs md_vols apply_vol vs_calendar vs_base option_map].
      rewrite put_put. auto.
    - rewrite G. auto.
  Qed.

  Lemma prefetch_replaceable id v w (p p' : prefetch T) r s :
    prefetch_bump nan (BVol id (ReplaceVol v)) p None = (Ok r, p', s) ->
    let b := prefetch_bump nan (BVol id (ReplaceVol w)) p' None in let b' := prefetch_bump nan (BVol id (ReplaceVol w)) p None in
    fst (fst b) = fst (fst b') /\ (is_ok (fst (fst b')) = true -> b = b').
  Proof.
    cbn zeta.
    unfold prefetch_bump. rewrite !(bump_dispatch nan (BVol id _) _ _ _ _ (VolFor id) eq_refl). cbn [option_map].
    destruct (replaced_twice id v w (pf_data p)) as [RT KN].
    destruct (known (pf_data p) (VolFor id)) eqn:K.
    - cbn [refetch_for]. unfold refetch at 1. cbn [negb andb pf_forwards pf_deps].
      destruct (get id (pf_forwards p)) as [F|] eqn:GF; [|discriminate]. destruct (instrument_by_id id (pf_deps p)) as [u|] eqn:IU; [|discriminate].
      unfold refetch_vol. cbn [pf_vols pf_deps pf_data]. destruct (get id (pf_vols p)) as [V|] eqn:GV.
      + destruct (vol_surface_hwm u (pf_deps p)) as [h|] eqn:HW; [|discriminate]. cbn [option_map].
        destruct (md_vol_surface nan _ u h (Ok F)) as [V1|m|m] eqn:MV; [|discriminate|discriminate]. intros E. injection E as <- <- <-.
        cbn [pf_data pf_deps pf_forwards pf_vols]. rewrite KN, RT. unfold refetch. cbn [negb andb pf_forwards pf_deps].
        rewrite GF, IU. unfold refetch_vol. cbn [pf_vols pf_deps pf_data]. rewrite get_put_same, GV, HW. cbn [option_map].
        destruct (md_vol_surface nan (bumped_md (BVol id (ReplaceVol w)) (pf_data p)) u h (Ok F)) as [V2|m|m] eqn:MV2.
        * rewrite put_put. auto.
        * split; [reflexivity|discriminate].
        * split; [reflexivity|discriminate].
      + intros E. injection E as <- <- <-. cbn [pf_data pf_deps pf_forwards pf_vols]. rewrite KN, RT. auto.
    - rewrite refetch_unknown. intros E. injection E as <- <- <-. cbn [pf_data pf_deps pf_forwards pf_vols]. rewrite KN, RT, !refetch_unknown. auto.
  Qed.

  Lemma self_replaceable : replaceable (self_ops nan cdf).
  Proof.
    intros id v w sp sp' r s. cbn [op_bump self_ops]. unfold self_bump.
    destruct (prefetch_bump nan (BVol id (ReplaceVol v)) (sp_context sp) None) as [[r1 p1] s1] eqn:Q. intros E. injection E as -> <- ->.
    cbn [sp_context sp_instruments].
    destruct (prefetch_replaceable _ v w _ _ _ _ Q) as [A B]. cbn zeta in A, B.
    destruct (prefetch_bump nan (BVol id (ReplaceVol w)) p1 None) as [[r2 p2] s2], (prefetch_bump nan (BVol id (ReplaceVol w)) (sp_context sp) None) as [[r3 p3] s3].
    cbn [fst snd] in *. split; [exact A|]. intros O. now injection (B O) as -> -> ->.
  Qed.

  (** The Monte-Carlo pricer. *)
  Variable visit : smap (instrument T * list (M_Calendar.ddf T)) -> smap (instrument T * list (M_Calendar.ddf T)).
  Variable redraws : bump_time -> mc_pricer T -> nat -> nat -> T.

  Lemma set_nth_twice {A} k (x y : A) l : set_nth k x (set_nth k y l) = set_nth k x l.
  Proof. revert k. induction l as [|a l IH]; intros [|k]; cbn; try reflexivity. now rewrite IH. Qed.

  Lemma set_nth_some {A} k (x : A) l y : nth_error l k = Some y -> nth_error (set_nth k x l) k = Some x.
  Proof. revert k. induction l as [|a l IH]; intros [|k]; cbn; try discriminate; auto. Qed.

  Lemma diffusion_replaceable id v w (d d' : diffusion T) r s :
    diffusion_bump nan (BVol id (ReplaceVol v)) d None = (Ok r, d', s) ->
    let b := diffusion_bump nan (BVol id (ReplaceVol w)) d' None in let b' := diffusion_bump nan (BVol id (ReplaceVol w)) d None in
    fst (fst b) = fst (fst b') /\ (is_ok (fst (fst b')) = true -> b = b').
  Proof.
    unfold diffusion_bump, diffusion_bump_saved.
    destruct (prefetch_bump nan (BVol id (ReplaceVol v)) (bd_context d) None) as [[[r1|m|m] c1] s1] eqn:Q; [|discriminate|discriminate].
    pose proof (prefetch_replaceable id v w _ _ _ _ Q) as PR.
    destruct (bump_outcome nan (BVol id (ReplaceVol v)) _ _ _ _ _ (VolFor id) eq_refl Q) as [K1 _].
    destruct r1.
    - unfold refetch_path at 1. cbn [negb bd_instruments with_paths]. destruct (asset_of id (bd_instruments d)) as [k|] eqn:AS; [|discriminate].
      cbn [with_paths bd_paths bd_gaussians bd_context bd_observations bd_substepping].
      destruct (nth_error (bd_paths d) k) as [path|] eqn:N1; [|discriminate]. destruct (nth_error (bd_instruments d) k) as [u|] eqn:N2; [|discriminate].
      destruct (nth_error (bd_gaussians d) k) as [g|] eqn:N3; [|discriminate].
      destruct (fetch_path nan u _ _ _ _) as [path1|m|m]; [|discriminate|discriminate]. intros E. injection E as <- <- <-. cbn zeta.
      cbn [bd_context with_paths]. destruct PR as [P1 P2]. destruct (prefetch_bump nan (BVol id (ReplaceVol w)) (bd_context d) None) as [[[r2|m|m] c2] s2] eqn:Q2;
        cbn [fst snd is_ok] in *; [rewrite (P2 eq_refl); cbn [fst snd]|destruct (prefetch_bump nan _ c1 None) as [[r3 c3] s3]; cbn [fst snd is_ok] in *; subst r3; split; [reflexivity|discriminate]..].
      destruct (bump_outcome nan (BVol id (ReplaceVol w)) _ _ _ _ _ (VolFor id) eq_refl Q2) as [K2 _]. rewrite <- K1 in K2. subst r2.
      unfold refetch_path. cbn [negb bd_instruments with_paths bd_paths bd_gaussians bd_context bd_observations bd_substepping].
      rewrite AS, N1, N2, N3, (set_nth_some _ _ _ _ N1).
      destruct (fetch_path nan u (prefetch_context nan c2) _ _ _) as [path2|m|m]; cbn [fst snd is_ok]; [|split; [reflexivity|discriminate]..].
      split; [reflexivity|]. intros _. unfold with_paths. cbn [bd_instruments with_paths bd_paths bd_gaussians bd_context bd_observations bd_substepping bd_flows bd_n_paths].
      rewrite set_nth_twice. reflexivity.
    - unfold refetch_path at 1. cbn [negb]. intros E. injection E as <- <- <-. cbn [bd_context with_paths bd_paths]. destruct PR as [P1 P2].
      destruct (prefetch_bump nan (BVol id (ReplaceVol w)) (bd_context d) None) as [[[r2|m|m] c2] s2] eqn:Q2;
        cbn [fst snd is_ok] in *; [rewrite (P2 eq_refl); auto|destruct (prefetch_bump nan _ c1 None) as [[r3 c3] s3]; cbn [fst snd is_ok] in *; subst r3; split; [reflexivity|discriminate]..].
  Qed.

  Lemma mc_replaceable : replaceable (mc_ops nan cdf visit redraws).
  Proof.
    intros id v w mp mp' r s. cbn [op_bump mc_ops]. unfold mc_bump.
    destruct (diffusion_bump nan (BVol id (ReplaceVol v)) (mp_model mp) None) as [[r1 d1] s1] eqn:Q. intros E. injection E as -> <- ->.
    cbn [mp_model mp_factory mp_instruments]. destruct (diffusion_replaceable id v w _ _ _ _ Q) as [A B]. cbn zeta in A, B.
    destruct (diffusion_bump nan (BVol id (ReplaceVol w)) d1 None) as [[r2 d2] s2], (diffusion_bump nan (BVol id (ReplaceVol w)) (mp_model mp) None) as [[r3 d3] s3].
    cbn [fst snd] in *. split; [exact A|]. intros O. now injection (B O) as -> -> ->.
  Qed.
End Self.
