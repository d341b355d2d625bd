(** The expected delta and gamma that Monte Carlo reports for a European option. *)
From Coq Require Import ZArith List String Bool Lia Reals Lra Psatz Permutation.
From Verif Require Import Prelude Num L_Num M_Dates M_Calendar M_Curves M_Fixings M_Forward M_Vol M_Black76 M_Instruments M_Deps M_Risk M_Reports M_MonteCarlo
  S_Math S_Vol S_Deps S_Risk S_Reports S_MonteCarlo S_Greeks S_Expectation S_McGreeks
  L_Fixings L_Vol L_Normal L_Deps L_Risk L_Prefetch L_PrefetchTop L_Reports L_Diffusion L_Models L_Paths L_MonteCarlo
  L_Expectation L_Gauss L_Expected L_Unbiased L_BlackLimit L_McGreeks.
From Verif Require L_Greeks L_BlackGreeks L_BlackPrices.
Import ListNotations.
Open Scope list_scope.
Open Scope R_scope.

Section Alike.
  Variables (nan : R) (cdf : R -> R).
  Variable visit : smap (instrument R * list (ddf R)) -> smap (instrument R * list (ddf R)).
  Hypothesis visits : forall l, Permutation (visit l) l.
  Variable redraws : bump_time -> mc_pricer R -> nat -> nat -> R.
  Let ops := mc_ops nan cdf visit redraws.

  (** Pricers that differ in their draws only. *)
  Definition alike (mp mp' : mc_pricer R) : Prop := exists fa ins obs fl c u steps n g g' path path',
    mp = mkMcPricer fa ins (mkDiffusion obs fl c [u] steps n [g] [path]) /\ mp' = mkMcPricer fa ins (mkDiffusion obs fl c [u] steps n [g'] [path']) /\
    (0 < List.length obs)%nat /\ List.length steps = List.length obs /\ (forall n, In n steps -> (1 <= n)%nat) /\
    Forall (fun row => List.length row = list_sum steps) g'.

  Lemma other_draws u c obs g g' steps path : (0 < List.length obs)%nat -> List.length steps = List.length obs -> (forall n, In n steps -> (1 <= n)%nat) ->
    Forall (fun row => List.length row = list_sum steps) g' -> fetch_path nan u c obs g steps = Ok path -> exists path', fetch_path nan u c obs g' steps = Ok path'.
  Proof.
    intros OL SL S1 GL F. assert (X : exists curve surface, ctx_forward_curve c u (last_date obs) = Ok curve /\ ctx_vol_surface c u (last_date obs) (Ok curve) = Ok surface).
    { unfold fetch_path in F. repeat inv_bind F. eauto. }
    destruct X as (curve & surface & C & S). destruct (fetch_path_spec _ _ _ _ _ _ _ _ _ F SL C S) as (marks & M & GP & _).
    eexists. apply (fetch_path_ok nan u c obs g' steps curve surface marks OL C S M); [|exact GL].
    clear - GP S1. induction GP as [|v n vs ns H GP IH]; constructor; [|apply IH; intros; apply S1; now right].
    assert (L : (1 <= n)%nat) by (apply S1; now left). split; [|exact L]. assert (0 < INR n) by (apply lt_0_INR; lia).
    replace v with (v / INR n * INR n) by (field; lra). apply Rmult_le_pos; lra.
  Qed.

  Lemma alike_bump i g mp mp' r mp1 sv : alike mp mp' -> op_bump ops (BSpot i g) mp None = (Ok r, mp1, sv) ->
    exists mp1' sv', op_bump ops (BSpot i g) mp' None = (Ok r, mp1', sv') /\ alike mp1 mp1'.
  Proof.
    intros (fa & ins & obs & fl & c & u & steps & n & gs & gs' & path & path' & -> & -> & OL & SL & S1 & GL). unfold ops. cbn [mc_ops op_bump].
    unfold mc_bump. cbn [mp_model mp_factory mp_instruments]. unfold diffusion_bump, diffusion_bump_saved. cbn [bd_context bd_paths].
    destruct (prefetch_bump nan (BSpot i g) c None) as [[r1 c1] i1]. destruct r1 as [b|m|m]; cbv iota beta; try discriminate.
    unfold refetch_path, with_paths. cbn [bd_observations bd_flows bd_context bd_instruments bd_substepping bd_n_paths bd_gaussians bd_paths].
    destruct b; cbn [negb].
    - cbn [asset_of]. destruct (String.eqb i (instrument_id u)); cbn [option_map]; [|discriminate]. cbn [nth_error].
      destruct (fetch_path nan u (prefetch_context nan c1) obs gs steps) as [p1|m|m] eqn:FP; try discriminate. cbn [set_nth].
      destruct (other_draws _ _ _ _ gs' _ _ OL SL S1 GL FP) as (p1' & ->). intros Q. injection Q as <- <- <-. cbn [set_nth]. do 2 eexists. split; [reflexivity|].
      do 12 eexists. split; [reflexivity|]. split; [reflexivity|]. auto.
    - intros Q. injection Q as <- <- <-. do 2 eexists. split; [reflexivity|]. do 12 eexists. split; [reflexivity|]. split; [reflexivity|]. auto.
  Qed.
  Lemma alike_context mp mp' : alike mp mp' -> bd_context (mp_model mp') = bd_context (mp_model mp).
  Proof. intros (fa & ins & obs & fl & c & u & steps & n & gs & gs' & path & path' & -> & -> & _). reflexivity. Qed.

  Section One.
    Variables (w : R) (i : instrument R) (v : vanilla R) (f : diffusion_factory R) (md : market_data R).
    Hypothesis O : option_of i = Some v.
    Variables (draws draws' : nat -> nat -> R) (mp mp' : mc_pricer R).
    Hypothesis E : mc_pricer_new nan visit draws [(w, i)] f md = Ok mp.
    Hypothesis E' : mc_pricer_new nan visit draws' [(w, i)] f md = Ok mp'.

    Lemma alike_new : alike mp mp'.
    Proof.
      destruct (redeal nan cdf visit redraws draws draws' _ _ _ _ E) as (mp2 & E2 & _ & SB & OB & IB). rewrite E' in E2. injection E2 as <-.
      destruct (mc_new _ _ _ _ _ _ _ E) as (deps & t & p & EP & EC & EM & Q). destruct (mc_new _ _ _ _ _ _ _ E') as (deps' & t' & p' & EP' & EC' & EM' & Q').
      rewrite EP in EP'. injection EP' as <- <-. rewrite EC in EC'. injection EC' as <-.
      destruct (new_model _ _ _ _ _ _ _ EM) as (id & u & obs & g & path & V1 & V2 & V3 & V4 & V5 & V6 & V7).
      destruct (new_model _ _ _ _ _ _ _ EM') as (id' & u' & obs' & g' & path' & W1 & W2 & W3 & W4 & W5 & W6 & W7).
      rewrite V1 in W1. injection W1 as <- <- <-. destruct (substeps_length _ _ _ _ _ _ V2) as [SL S1]. rewrite SB in W3, W7.
      exists f, [(w, i)], obs, (tl_flows t), p, u, (bd_substepping (mp_model mp)), (df_n_paths f), g, g', path, path'.
      split; [rewrite Q, V7; cbn [mp_model bd_substepping]; now rewrite V7 at 1|]. split; [rewrite Q', W7; reflexivity|]. split; [exact V5|]. split; [exact SL|]. split; [exact S1|].
      rewrite W3. apply Forall_forall. intros row I. apply in_map_iff in I. destruct I as (j & <- & _). now rewrite map_length, seq_length.
    Qed.

    Lemma alike_price q q' x : pricer_reaches ops mp q -> pricer_reaches ops mp' q' -> alike q q' -> op_price ops q = Ok x -> exists x', op_price ops q' = Ok x'.
    Proof.
      intros R R' A P. destruct (one_option nan cdf visit visits redraws draws w i v f md mp q O E R) as (paths & _ & _ & _ & _ & PR).
      destruct (one_option nan cdf visit visits redraws draws' w i v f md mp' q' O E' R') as (paths' & _ & _ & _ & _ & PR').
      fold ops in PR, PR'. rewrite PR in P. rewrite PR'. unfold ops in P |- *. cbn [mc_ops op_context] in P |- *. rewrite (alike_context _ _ A).
      match type of P with rmap _ ?z = _ => destruct z as [y|m|m] end; try discriminate. eexists. reflexivity.
    Qed.

    Lemma alike_after bs : forall q q' x, Forall (fun b => exists j g, b = BSpot j g) bs -> pricer_reaches ops mp q -> pricer_reaches ops mp' q' -> alike q q' ->
      price_after ops bs q = Ok x -> exists x', price_after ops bs q' = Ok x'.
    Proof.
      assert (TR : forall a b c, pricer_reaches ops a b -> pricer_reaches ops b c -> pricer_reaches ops a c).
      { intros a b c H. induction H; intros; [assumption|]. eapply pr_step; [eassumption|auto]. }
      induction bs as [|b bs IH]; intros q q' x F R R' A P; cbn [price_after] in *; [eapply alike_price; eassumption|].
      inversion F as [|? ? (j & g & ->) F']; subst. destruct (op_bump ops (BSpot j g) q None) as [[[r|m|m] q1] sv] eqn:B; try discriminate.
      destruct (alike_bump _ _ _ _ _ _ _ A B) as (q1' & sv' & B' & A'). rewrite B'. eapply (IH q1); [exact F'| | |exact A'|exact P].
      - eapply TR; [exact R|]. eapply pr_step; [exact B|constructor].
      - eapply TR; [exact R'|]. eapply pr_step; [exact B'|constructor].
    Qed.

    Lemma alike_report h m : calculate nan ops mp [DeltaGammaGenerator h] = Ok [DeltaGammaReport h m] ->
      exists m', calculate nan ops mp' [DeltaGammaGenerator h] = Ok [DeltaGammaReport h m'] /\ forall id, get id m <> None -> get id m' <> None.
    Proof.
      intros CE. pose proof (mc_well_behaved nan cdf visit redraws) as WB. fold ops in WB. pose proof alike_new as A.
      destruct (report_read nan ops _ WB h mp m CE) as (u & ids & PU & RI & ALL & EN).
      destruct (alike_price mp mp' u (pr_refl _ _) (pr_refl _ _) A PU) as (u' & PU').
      assert (RI' : reported_ids ops mp' = Ok ids). { rewrite <- RI. unfold reported_ids, ops. cbn [mc_ops op_dependencies]. now rewrite (alike_context _ _ A). }
      destruct (report_made nan ops _ WB h mp' u' ids PU' RI') as (m' & CE').
      { intros id I. assert (K : get id m <> None) by now apply ALL. destruct (get id m) as [e|] eqn:GE; [|congruence].
        destruct (EN id e GE) as (s & x & y & CS & PX & PY & _).
        assert (F1 : Forall (fun b : bump R => exists j g, b = BSpot j g) [BSpot id (RelativeSpot h)]) by (repeat constructor; eauto).
        destruct (alike_after _ mp mp' x F1 (pr_refl _ _) (pr_refl _ _) A PX) as (x' & PX').
        match type of PY with price_after _ ?bs _ = _ => assert (F2 : Forall (fun b : bump R => exists j g, b = BSpot j g) bs) by (repeat constructor; eauto) end.
        destruct (alike_after _ mp mp' y F2 (pr_refl _ _) (pr_refl _ _) A PY) as (y' & PY').
        exists s, x', y'. split; [|split; assumption]. unfold ops in CS |- *. cbn [mc_ops op_context] in CS |- *. now rewrite (alike_context _ _ A). }
      exists m'. split; [exact CE'|]. intros id K. destruct (report_read nan ops _ WB h mp' m' CE') as (_ & ids' & _ & RI2 & ALL' & _).
      rewrite RI' in RI2. injection RI2 as <-. apply ALL', ALL, K.
    Qed.
  End One.
End Alike.

Section Expected.
  Variables (nan : R) (cdf : R -> R) (N : R -> R).
  Hypothesis HN : normal_cdf N.
  Variable visit : smap (instrument R * list (ddf R)) -> smap (instrument R * list (ddf R)).
  Hypothesis visits : forall l, Permutation (visit l) l.
  Variable redraws : bump_time -> mc_pricer R -> nat -> nat -> R.
  Let ops := mc_ops nan cdf visit redraws.
  Variables (w : R) (v : vanilla R) (k : R) (id cr : string) (cur : currency R) (st : date_rule R) (f : diffusion_factory R) (md : market_data R).
  Hypothesis U : van_underlying v = IEquity id cr cur st.
  Notation opt := (ISpotEuropean v k).
  Hypothesis EX : ddf_date (van_expiry_time v) = dt_date (van_expiry v).
  Notation make draws := (mc_pricer_new nan visit draws [(w, opt)] f md).
  Notation pc := (van_put_or_call v).

  (** The expected payoff at a mark. *)
  Lemma expected_payoff m n paths : (1 <= n)%nat -> (0 < paths)%nat -> 0 <= mk_variance m / INR n -> exists e,
    expected N (paths * n) (fun l => mean_payoff opt m n paths (dealt n l)) e /\
    forall most, mk_displacement m < mk_forward m -> mk_displacement m < k -> 0 < mk_variance m -> mk_variance m / INR n <= most ->
      Rabs (e - blacks_price N pc (mk_forward m - mk_displacement m) (k - mk_displacement m) (sqrt (mk_variance m))) <=
        (mk_forward m - mk_displacement m) * sqrt (exp (mk_variance m) * (most * mk_variance m / 2)).
  Proof.
    intros N1 NP V0. set (F := mk_forward m). set (V := mk_variance m) in *. set (d := mk_displacement m).
    assert (NI : 0 < INR n) by (apply lt_0_INR; lia). set (devs := repeat (sqrt (V / INR n)) n).
    assert (DL : List.length devs = n) by apply repeat_length.
    assert (DV : variance_of devs = V) by (unfold devs; rewrite variance_repeat, sqrt_def by exact V0; field; lra).
    assert (DN : Forall (fun s => 0 <= s) devs) by (apply Forall_forall; intros s I; apply repeat_spec in I; subst s; apply sqrt_pos).
    set (h := fun x => ends pc (x + d) k). assert (Lip : forall x y, Rabs (h x - h y) <= Rabs (x - y)).
    { intros x y. unfold h. eapply Rle_trans; [apply ends_lipschitz|]. right. f_equal. ring. }
    destruct (euler_exists N HN devs h 1) as (u & M & _ & UE); [intros; rewrite Rmult_1_l; apply Lip|]. specialize (UE (F - d)). exists (u (F - d)). split.
    - rewrite DL in UE. assert (X : expected N n (fun l => pays opt (path_of [m] [n] l)) (u (F - d))).
      { eapply expected_ext; [|exact UE]. intros l L. cbn beta. rewrite path_single by exact L. reflexivity. }
      pose proof (expected_mean N HN paths n _ _ NP X) as Y. eapply expected_ext; [|exact Y]. intros l L. cbn beta. unfold mean_payoff.
      rewrite <- (dealt_is n paths l L), map_map. reflexivity.
    - intros most P K VP SM. pose proof (expected_lognormal N HN pc k devs (F - d) d K DN ltac:(rewrite DV; exact VP) ltac:(lra)) as BL. rewrite DV in BL.
      pose proof (expected_close N HN devs (F - d) h _ _ Lip ltac:(lra) UE BL) as CL.
      eapply Rle_trans; [exact CL|]. apply Rmult_le_compat_l; [lra|]. apply sqrt_le_1_alt. pose proof (apart_below most devs) as AB. rewrite DV in AB. apply AB.
      apply Forall_forall. intros s I. apply repeat_spec in I. subst s. rewrite sqrt_def; [exact SM|exact V0].
  Qed.

  Lemma expected_greeks draws mp s h delta0 gamma0 : make draws = Ok mp -> get id (md_spots md) = Some s -> 0 < s -> 0 < h < 1 -> no_smile nan md v ->
    delta_gamma nan ops h id mp delta0 gamma0 -> 0 < df_path_substep f -> exists n value down here up delta gamma ed eg,
    bd_substepping (mp_model mp) = [n] /\ payment_worth nan cdf md v value /\
    mark_if nan md v (s * (1 - h)) down /\ mark_if nan md v s here /\ mark_if nan md v (s * (1 + h)) up /\
    (forall l, List.length l = (df_n_paths f * n)%nat -> exists mp', make (dealt n l) = Ok mp' /\ delta_gamma nan ops h id mp' (delta l) (gamma l)) /\
    expected N (df_n_paths f * n) delta ed /\ expected N (df_n_paths f * n) gamma eg /\
    let d := mk_displacement here in let V := mk_variance here in let e := sqrt (exp V * (df_path_substep f * V / 2)) in
    let black m := blacks_price N pc (mk_forward m - d) (k - d) (sqrt V) in
    (d < mk_forward down -> d < mk_forward up -> d < k -> 0 < V ->
      Rabs (ed - w * value * ((black up - black down) / (2 * (h * s)))) <= Rabs w * value * ((mk_forward here - d) * e / (h * s)) /\
      Rabs (eg - w * value * ((black up + black down - 2 * black here) / (h * s * (h * s)))) <= Rabs w * value * (4 * (mk_forward here - d) * e / (h * s * (h * s)))).
  Proof.
    intros E G S0 H NS DG SP. pose proof DG as (m0 & CE & GE).
    destruct (entry_read nan cdf visit visits redraws w v k id cr cur st f md U EX draws mp s h delta0 gamma0 E G S0 H DG)
      as (n & value & down & here & up & B & N1 & NP & PW & MD & MH & MU & VP & SM & _). specialize (SM SP).
    destruct (flat_marks nan v md _ _ _ _ NS MH MD) as [V1 D1]. destruct (flat_marks nan v md _ _ _ _ NS MH MU) as [V2 D2].
    pose proof (mid_mark nan v md _ _ _ _ _ MD MH MU) as MID. pose proof (worth_nonneg nan cdf v md value PW) as W0.
    set (x m l := mean_payoff opt m n (df_n_paths f) (dealt n l)).
    destruct (expected_payoff here n _ N1 NP VP) as (eh & XH & CH).
    destruct (expected_payoff up n _ N1 NP ltac:(rewrite V2; exact VP)) as (eu & XU & CU).
    destruct (expected_payoff down n _ N1 NP ltac:(rewrite V1; exact VP)) as (ed & XD & CD).
    fold (x here) (x up) (x down) in XH, XU, XD.
    exists n, value, down, here, up, (fun l => w * value * ((x up l - x down l) / (2 * (h * s)))), (fun l => w * value * ((x up l + x down l - 2 * x here l) / (h * s * (h * s)))).
    exists (w * value * ((eu - ed) / (2 * (h * s)))), (w * value * ((eu + ed - 2 * eh) / (h * s * (h * s)))).
    split; [exact B|]. split; [exact PW|]. split; [exact MD|]. split; [exact MH|]. split; [exact MU|].
    assert (HS : 0 < h * s) by (apply Rmult_lt_0_compat; lra).
    split; [|split; [|split]].
    - intros l L. destruct (redeal nan cdf visit redraws draws (dealt n l) _ _ _ _ E) as (mp' & E' & _ & SB & _). exists mp'. split; [exact E'|].
      destruct (alike_report nan cdf visit visits redraws w opt v f md eq_refl draws (dealt n l) mp mp' E E' h m0 CE) as (m' & CE' & K).
      specialize (K id ltac:(congruence)). destruct (get id m') as [[d' g']|] eqn:GE'; [|congruence].
      assert (DG' : delta_gamma nan ops h id mp' d' g') by (exists m'; auto).
      destruct (entry_read nan cdf visit visits redraws w v k id cr cur st f md U EX (dealt n l) mp' s h d' g' E' G S0 H DG')
        as (n' & value' & down' & here' & up' & B' & _ & _ & PW' & MD' & MH' & MU' & _ & _ & DE & GA). cbn zeta in DE, GA.
      rewrite SB, B in B'. injection B' as <-. unfold payment_worth in PW, PW'. rewrite PW in PW'. injection PW' as <-.
      rewrite <- (mark_fun nan v md _ _ _ MD MD'), <- (mark_fun nan v md _ _ _ MU MU') in DE. rewrite <- (mark_fun nan v md _ _ _ MD MD'), <- (mark_fun nan v md _ _ _ MU MU'), <- (mark_fun nan v md _ _ _ MH MH') in GA.
      rewrite DE, GA in DG'. exact DG'.
    - pose proof (expected_linear N HN _ (w * value / (2 * (h * s))) (- (w * value / (2 * (h * s)))) _ _ _ _ XU XD) as Y.
      replace (w * value * ((eu - ed) / (2 * (h * s)))) with (w * value / (2 * (h * s)) * eu + - (w * value / (2 * (h * s))) * ed) by (field; lra).
      eapply expected_ext; [|exact Y]. intros l _. cbn beta. field. lra.
    - pose proof (expected_linear N HN _ 1 (- 2) _ _ _ _ (expected_plus N HN _ _ _ _ _ XU XD) XH) as Y. apply (expected_scale N HN _ (w * value / (h * s * (h * s)))) in Y.
      replace (w * value * ((eu + ed - 2 * eh) / (h * s * (h * s)))) with (w * value / (h * s * (h * s)) * (1 * (eu + ed) + - (2) * eh)) by (field; lra).
      eapply expected_ext; [|exact Y]. intros l _. cbn beta. field. lra.
    - cbn zeta. intros DD DU K V0. rewrite V1, D1 in CD. rewrite V2, D2 in CU.
      specialize (CH _ ltac:(lra) K V0 SM). specialize (CD _ DD K V0 SM). specialize (CU _ DU K V0 SM).
      set (d := mk_displacement here) in *. set (V := mk_variance here) in *. set (e := sqrt (exp V * (df_path_substep f * V / 2))) in *.
      set (bu := blacks_price N pc (mk_forward up - d) (k - d) (sqrt V)) in *. set (bd := blacks_price N pc (mk_forward down - d) (k - d) (sqrt V)) in *. set (bh := blacks_price N pc (mk_forward here - d) (k - d) (sqrt V)) in *.
      split.
      + replace (w * value * ((eu - ed) / (2 * (h * s))) - w * value * ((bu - bd) / (2 * (h * s)))) with (w * value * (((eu - bu) - (ed - bd)) / (2 * (h * s)))) by (field; lra).
        rewrite !Rabs_mult, (Rabs_right value) by lra. apply Rmult_le_compat_l; [apply Rmult_le_pos; [apply Rabs_pos|exact W0]|].
        unfold Rdiv. rewrite Rabs_mult, (Rabs_right (/ _)) by (apply Rle_ge; left; apply Rinv_0_lt_compat; lra).
        replace ((mk_forward here - d) * e * / (h * s)) with (2 * ((mk_forward here - d) * e) * / (2 * (h * s))) by (field; lra).
        apply Rmult_le_compat_r; [left; apply Rinv_0_lt_compat; lra|]. pose proof (Rabs_triang (eu - bu) (- (ed - bd))) as T. rewrite Rabs_Ropp in T.
        replace (2 * ((mk_forward here - d) * e)) with ((mk_forward up - d) * e + (mk_forward down - d) * e) by (rewrite MID; field). unfold Rminus at 1. lra.
      + replace (w * value * ((eu + ed - 2 * eh) / (h * s * (h * s))) - w * value * ((bu + bd - 2 * bh) / (h * s * (h * s)))) with (w * value * (((eu - bu) + (ed - bd) - 2 * (eh - bh)) / (h * s * (h * s)))) by (field; lra).
        assert (HH : 0 < h * s * (h * s)) by (apply Rmult_lt_0_compat; lra).
        rewrite !Rabs_mult, (Rabs_right value) by lra. apply Rmult_le_compat_l; [apply Rmult_le_pos; [apply Rabs_pos|exact W0]|].
        unfold Rdiv. rewrite Rabs_mult, (Rabs_right (/ _)) by (apply Rle_ge; left; now apply Rinv_0_lt_compat).
        apply Rmult_le_compat_r; [left; now apply Rinv_0_lt_compat|].
        replace (4 * (mk_forward here - d) * e) with ((mk_forward up - d) * e + (mk_forward down - d) * e + 2 * ((mk_forward here - d) * e)) by (rewrite MID; field).
        revert CH CD CU. unfold Rabs. repeat destruct Rcase_abs; lra.
  Qed.
End Expected.
