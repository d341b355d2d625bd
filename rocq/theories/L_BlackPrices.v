(** Expected prices of options against Black's. *)
From Coq Require Import ZArith List String Bool Lia Reals Lra Psatz Permutation.
From Verif Require Import Prelude Num M_Dates M_Calendar M_Curves M_Fixings M_Forward M_Vol M_Black76 M_Instruments M_Deps M_Risk M_Reports M_MonteCarlo
  S_Math S_Vol S_Deps S_Instruments S_Risk S_Reports S_MonteCarlo S_Expectation
  L_Num L_Vol L_Normal L_Black76 L_Diffusion L_Models L_Paths L_MonteCarlo L_Expectation L_Gauss L_Expected L_Unbiased L_BlackLimit L_VolTime L_Pricing L_InstrumentCases.
Import ListNotations.
Open Scope list_scope.
Open Scope R_scope.

Lemma Forall2_pair {A B} (Q : A -> B -> Prop) a b : Forall2 Q [a] [b] -> Q a b.
Proof. intros F. now inversion F. Qed.

Section Pricing.
  Variable nan : R.
  Variable cdf : R -> R.
  Variable N : R -> R.
  Hypothesis HN : normal_cdf N.
  Variable visit : smap (instrument R * list (ddf R)) -> smap (instrument R * list (ddf R)).
  Hypothesis visits : forall l, Permutation (visit l) l.
  Variable redraws : bump_time -> mc_pricer R -> nat -> nat -> R.
  Let ops := mc_ops nan cdf visit redraws.
  Notation expected := (expected N).

  (** The steps there are to the observations of one option. *)
  Lemma option_steps draws w i v f md mp curve surface marks : option_of i = Some v -> mc_pricer_new nan visit draws [(w, i)] f md = Ok mp ->
    ctx_forward_curve (op_context ops mp) (van_underlying v) (last_date (looks_at i)) = Ok curve ->
    ctx_vol_surface (op_context ops mp) (van_underlying v) (last_date (looks_at i)) (Ok curve) = Ok surface -> marked nan curve surface (looks_at i) marks ->
    let steps := bd_substepping (mp_model mp) in
    List.length steps = List.length (looks_at i) /\ (forall n, In n steps -> (1 <= n)%nat) /\ Forall2 (fun v n => 0 <= v / INR n) (gained 0 marks) steps /\
    (0 < df_n_paths f)%nat /\ (0 < df_path_substep f -> enough_steps (df_path_substep f) marks steps).
  Proof.
    intros O E C S M steps.
    destruct (dealt_paths nan cdf visit redraws draws _ _ _ _ E) as (u & marks' & curve' & surface' & C' & S' & M' & BI & SL & S1 & GP & NP & ES & _).
    destruct (reached_paths nan cdf visit redraws draws _ _ _ _ E) as (u2 & steps2 & _ & _ & _ & _ & BI2 & (t & id & VT & _ & _ & _ & deps & EP) & _).
    rewrite BI in BI2. injection BI2 as <-. destruct (one_timeline _ _ _ _ _ _ O EP) as [TO _]. rewrite TO, (visit_one visit visits) in VT.
    injection VT as _ U OB. subst u. fold ops in C', S'. rewrite <- OB in C', S', M', SL. rewrite C in C'. injection C' as <-. rewrite S in S'. injection S' as <-.
    rewrite (marked_fun _ _ _ _ _ _ M M') in GP, ES. fold steps in SL, S1, GP, ES. repeat split; assumption.
  Qed.

  (** Spot-starting options. *)
  Section Spot.
    Variables (draws : nat -> nat -> R) (w : R) (v : vanilla R) (k : R) (f : diffusion_factory R) (md : market_data R) (mp : mc_pricer R).
    Variables (curve : forward R) (surface : vol_surface R) (F V d value : R).
    Let i := ISpotEuropean v k.
    Let ctx := op_context ops mp.
    Hypothesis E : mc_pricer_new nan visit draws [(w, i)] f md = Ok mp.
    Hypothesis C : ctx_forward_curve ctx (van_underlying v) (ddf_date (van_expiry_time v)) = Ok curve.
    Hypothesis S : ctx_vol_surface ctx (van_underlying v) (ddf_date (van_expiry_time v)) (Ok curve) = Ok surface.
    Hypothesis FW : forward_at nan curve (ddf_date (van_expiry_time v)) = Ok F.
    Hypothesis VA : variance nan surface (van_expiry_time v) F = Ok V.
    Hypothesis DI : displacement nan surface (ddf_date (van_expiry_time v)) = Ok d.
    Hypothesis PR : price nan cdf ctx (expiry_flow v) (mkDT (ctx_spot_date ctx) Open_) = Ok value.

    Let n := list_sum (bd_substepping (mp_model mp)).
    Let make := fun l => mc_pricer_new nan visit (dealt n l) [(w, i)] f md.
    Let devs := repeat (sqrt (V / INR n)) n.

    Lemma spot_marked : marked nan curve surface (looks_at i) [mkMark F V d].
    Proof. constructor; [|constructor]. cbn [mk_forward mk_variance mk_displacement]. auto. Qed.
    Lemma spot_steps : bd_substepping (mp_model mp) = [n] /\ (1 <= n)%nat /\ 0 <= V / INR n /\ (0 < df_n_paths f)%nat /\
      (0 < df_path_substep f -> V / INR n <= df_path_substep f /\ ((1 < n)%nat -> df_path_substep f < V / (INR n - 1))).
    Proof.
      destruct (option_steps draws w i v f md mp curve surface _ eq_refl E C S spot_marked) as (L & S1 & GP & NP & ES).
      destruct (bd_substepping (mp_model mp)) as [|m [|]] eqn:B; try discriminate. assert (NM : n = m) by (unfold n; cbn; lia).
      split; [now rewrite NM|]. rewrite NM. split; [apply S1; now left|]. cbn [gained mk_variance] in GP. rewrite Rminus_0_r in GP. split; [exact (Forall2_pair _ _ _ GP)|]. split; [exact NP|].
      intros P. specialize (ES P). unfold enough_steps in ES. cbn [gained mk_variance] in ES. rewrite Rminus_0_r in ES. destruct (Forall2_pair _ _ _ ES) as (_ & A1 & A2). split; assumption.
    Qed.
    Lemma devs_here : List.length devs = n /\ variance_of devs = V /\ Forall (fun s => 0 <= s) devs.
    Proof.
      destruct spot_steps as (_ & N1 & V0 & _). split; [apply repeat_length|]. split.
      - unfold devs. rewrite variance_repeat, sqrt_def by exact V0. assert (0 < INR n) by (apply lt_0_INR; lia). field. lra.
      - apply Forall_forall. intros s I. apply repeat_spec in I. subst s. apply sqrt_pos.
    Qed.
    Lemma spot_pays l : List.length l = n -> pays i (path_of [mkMark F V d] (bd_substepping (mp_model mp)) l) = ends (van_put_or_call v) ((F - d) * over euler l devs + d) k.
    Proof. intros L. destruct spot_steps as (-> & _). rewrite path_single by exact L. reflexivity. Qed.

    (** Expected prices from expected payoffs. *)
    Lemma spot_expected e : expected n (fun l => ends (van_put_or_call v) ((F - d) * over euler l devs + d) k) e ->
      expected_price N (op_price ops) make (df_n_paths f * n) (w * (e * value)) /\
      exists q, expected_error N (op_price ops) make (df_n_paths f * n) (w * (e * value)) q /\
        0 <= q <= w * value * (w * value) * ((F - d) * (F - d)) * (exp V - 1) / INR (df_n_paths f).
    Proof.
      intros X. destruct spot_steps as (B & N1 & V0 & NP & _). destruct devs_here as (DL & DV & _).
      destruct (dealt_price nan cdf N HN visit visits redraws draws w i v f md mp curve surface [mkMark F V d] value e eq_refl E C S spot_marked PR) as [A Q].
      { fold n. eapply expected_ext; [|exact X]. intros l L. symmetry. now apply spot_pays. }
      fold n in A, Q. split; [exact A|].
      set (h := fun x => ends (van_put_or_call v) (x + d) k). assert (Lip : forall x y, Rabs (h x - h y) <= Rabs (x - y)).
      { intros x y. unfold h. eapply Rle_trans; [apply ends_lipschitz|]. right. f_equal. ring. }
      destruct (smooth_exists N HN devs _ _ (lipschitz_square h Lip)) as (u & M & _ & U). specialize (U (F - d)). rewrite DL in U. unfold h in U.
      eexists. split.
      - apply Q. eapply expected_ext; [|exact U]. intros l L. cbn beta. rewrite spot_pays by exact L. reflexivity.
      - pose proof (lipschitz_spread N HN devs (F - d) d (fun x => ends (van_put_or_call v) x k) e (u (F - d)) (ends_lipschitz _ k)) as Y. rewrite DL, DV in Y. specialize (Y X U).
        assert (NP' : 0 < INR (df_n_paths f)) by now apply lt_0_INR. pose proof (Rle_0_sqr (w * value)) as SQ. unfold Rsqr in SQ. split.
        + apply Rmult_le_pos; [apply Rmult_le_pos; lra|left; now apply Rinv_0_lt_compat].
        + unfold Rdiv. apply Rmult_le_compat_r; [left; now apply Rinv_0_lt_compat|]. rewrite (Rmult_assoc (w * value * (w * value)) ((F - d) * (F - d))). apply Rmult_le_compat_l; [exact SQ|lra].
    Qed.

    Lemma spot_black : d < F -> d < k -> 0 < V -> 0 < df_path_substep f -> exists e q,
      expected_error N (op_price ops) make (df_n_paths f * n) (w * (e * value)) q /\
      Rabs (e - blacks_price N (van_put_or_call v) (F - d) (k - d) (sqrt V)) <= (F - d) * sqrt (exp V * (df_path_substep f * V / 2)) /\
      0 <= q <= w * value * (w * value) * ((F - d) * (F - d)) * (exp V - 1) / INR (df_n_paths f).
    Proof.
      intros P K V0 SP. destruct spot_steps as (B & N1 & _ & _ & ES). destruct (ES SP) as [SM _]. destruct devs_here as (DL & DV & DN).
      set (h := fun x => ends (van_put_or_call v) (x + d) k). assert (Lip : forall x y, Rabs (h x - h y) <= Rabs (x - y)).
      { intros x y. unfold h. eapply Rle_trans; [apply ends_lipschitz|]. right. f_equal. ring. }
      destruct (euler_exists N HN devs h 1) as (u & M & _ & U); [intros; rewrite Rmult_1_l; apply Lip|]. specialize (U (F - d)).
      pose proof (expected_lognormal N HN (van_put_or_call v) k devs (F - d) d K DN ltac:(rewrite DV; exact V0) ltac:(lra)) as BL. rewrite DV in BL.
      pose proof (expected_close N HN devs (F - d) h _ _ Lip ltac:(lra) U BL) as CL. rewrite DL in U.
      destruct (spot_expected _ U) as [_ (q & Q & QB)]. exists (u (F - d)), q. split; [exact Q|]. split; [|exact QB].
      eapply Rle_trans; [exact CL|]. apply Rmult_le_compat_l; [lra|]. apply sqrt_le_1_alt. pose proof (apart_below (df_path_substep f) devs) as AB. rewrite DV in AB. apply AB.
      apply Forall_forall. intros s I. apply repeat_spec in I. subst s. rewrite sqrt_def; [exact SM|]. assert (0 < INR n) by (apply lt_0_INR; lia). apply Rmult_le_pos; [lra|left; now apply Rinv_0_lt_compat].
    Qed.

    Lemma spot_one_step dens : d < F -> 0 < V -> 0 < df_path_substep f -> V <= df_path_substep f -> (forall x, derivable_pt_lim N x (dens x)) ->
      n = 1%nat /\ expected_price N (op_price ops) make (df_n_paths f * n) (w * (bacheliers_price N dens (van_put_or_call v) F k ((F - d) * sqrt V) * value)).
    Proof.
      intros P V0 SP VS D. destruct spot_steps as (B & N1 & _ & _ & ES). destruct (ES SP) as [_ SM].
      assert (N1' : n = 1%nat).
      { destruct (Nat.eq_dec n 1) as [|NE]; [assumption|exfalso]. assert (L : (1 < n)%nat) by lia. specialize (SM L). assert (I : 1 <= INR n - 1).
        { assert (2 <= INR n) by (replace 2 with (INR 2) by reflexivity; apply le_INR; lia). lra. }
        assert (V / (INR n - 1) <= V); [|lra]. apply (Rmult_le_reg_r (INR n - 1)); [lra|]. unfold Rdiv. rewrite Rmult_assoc, Rinv_l by lra. nra. }
      split; [exact N1'|]. apply spot_expected.
      pose proof (expected_bachelier N HN (van_put_or_call v) dens k (F - d) d (sqrt V) ltac:(lra) (sqrt_lt_R0 _ V0) D) as X.
      replace (F - d + d) with F in X by ring. unfold devs. rewrite N1'. cbn [repeat INR]. unfold Rdiv. rewrite Rinv_1, Rmult_1_r. exact X.
    Qed.
  End Spot.

  (** The paths of any portfolio. *)
  Definition reads (j : nat) (g : R -> R) (u : instrument R) (mp : mc_pricer R) : res R :=
    rmap (fun paths => mean (map g (column j paths))) (mc_paths (mp_model mp) u).

  Lemma path_moments draws instruments f md mp : mc_pricer_new nan visit draws instruments f md = Ok mp -> 0 < df_path_substep f ->
    exists u curve surface, let obs := bd_observations (mp_model mp) in let n := list_sum (bd_substepping (mp_model mp)) in
      let make := fun l => mc_pricer_new nan visit (dealt n l) instruments f md in
      bd_instruments (mp_model mp) = [u] /\ ctx_forward_curve (op_context ops mp) u (last_date obs) = Ok curve /\
      ctx_vol_surface (op_context ops mp) u (last_date obs) (Ok curve) = Ok surface /\
      forall j o, nth_error obs j = Some o -> exists F V d q, forward_at nan curve (ddf_date o) = Ok F /\ variance nan surface o F = Ok V /\
        displacement nan surface (ddf_date o) = Ok d /\
        expected_price N (reads j (fun s => s) u) make (df_n_paths f * n) F /\
        expected_price N (reads j (fun s => (s - d) * (s - d)) u) make (df_n_paths f * n) q /\
        (F - d) * (F - d) * exp (V - df_path_substep f * V / 2) <= q <= (F - d) * (F - d) * exp V.
  Proof.
    intros E SP. destruct (dealt_paths nan cdf visit redraws draws _ _ _ _ E) as (u & marks & curve & surface & C & S & M & BI & SL & S1 & GP & NP & ES & D).
    specialize (ES SP). exists u, curve, surface. cbn zeta. fold ops in C, S. split; [exact BI|]. split; [exact C|]. split; [exact S|].
    intros j o J. set (steps := bd_substepping (mp_model mp)) in *. set (n := list_sum steps) in *.
    assert (ML : List.length marks = List.length (bd_observations (mp_model mp))) by (symmetry; clear - M; induction M; cbn; auto).
    assert (X : exists m, nth_error marks j = Some m /\ forward_at nan curve (ddf_date o) = Ok (mk_forward m) /\ variance nan surface o (mk_forward m) = Ok (mk_variance m) /\
      displacement nan surface (ddf_date o) = Ok (mk_displacement m)).
    { clear - M J. revert j J. induction M as [|o' m' os ms H M IH]; intros j J; [destruct j; discriminate|]. destruct j as [|j]; [injection J as <-; exists m'; auto|apply IH, J]. }
    destruct X as (m & JM & FW & VA & DI). assert (LS : List.length steps = List.length marks) by congruence.
    assert (JL : (j < List.length marks)%nat) by (apply nth_error_Some; congruence).
    set (F := mk_forward m) in *. set (V := mk_variance m) in *. set (d := mk_displacement m) in *.
    set (devs := devs_of (firstn (Datatypes.S j) (gained 0 marks)) (firstn (Datatypes.S j) steps)). set (a := list_sum (firstn (Datatypes.S j) steps)).
    assert (FF : Forall2 (fun v n => 0 <= v / INR n /\ (1 <= n)%nat) (gained 0 marks) steps).
    { clear - GP S1. induction GP as [|v n vs ns H GP IH]; constructor; [|apply IH; intros; apply S1; now right]. split; [exact H|apply S1; now left]. }
    assert (DV : variance_of devs = V).
    { unfold devs. rewrite devs_variance; [|now apply Forall2_first]. rewrite (gained_sum marks j 0 m JM). unfold V. ring. }
    assert (DS : Forall (fun s => s * s <= df_path_substep f) devs).
    { apply devs_small, Forall2_first. clear - GP ES. unfold enough_steps in ES. eapply Forall2_mono; [|exact (Forall2_and _ _ _ _ GP ES)]. cbn beta. tauto. }
    assert (DL : List.length devs = a) by (apply devs_length; rewrite !firstn_length, gained_length, LS; reflexivity).
    assert (AN : (a <= n)%nat).
    { unfold a, n. rewrite <- (firstn_skipn (Datatypes.S j) steps) at 2. rewrite list_sum_app. lia. }
    assert (AT : forall l, nth j (path_of marks steps l) 0 = (F - d) * over euler (firstn a l) devs + d) by (intros l; exact (path_at marks steps l j m LS JM)).
    assert (RD : forall g e, expected a (fun l => g ((F - d) * over euler l devs + d)) e ->
      expected_price N (reads j g u) (fun l => mc_pricer_new nan visit (dealt n l) instruments f md) (df_n_paths f * n) e).
    { intros g e X. pose proof (expected_first N HN a (n - a) _ _ X) as Y. replace (a + (n - a))%nat with n in Y by lia.
      exists (fun l => mean (map (fun b => g ((F - d) * over euler (firstn a b) devs + d)) (blocks (df_n_paths f) n l))). split.
      - intros l L. destruct (D l L) as (mp' & E' & _ & P). exists mp'. split; [exact E'|]. unfold reads. rewrite P. unfold rmap. cbn [bind]. unfold column. rewrite !map_map.
        do 2 f_equal. apply map_ext. intros b. now rewrite AT.
      - now apply expected_mean. }
    set (q := (F - d) * (F - d) * product (map (fun s => 1 + s * s) devs)). exists F, V, d, q.
    split; [exact FW|]. split; [exact VA|]. split; [exact DI|]. split; [|split].
    - apply (RD (fun s => s)). rewrite <- DL. pose proof (expected_linear N HN _ (F - d) d _ _ _ _ (expected_euler N HN devs) (expected_const N HN _ 1)) as Y.
      replace ((F - d) * 1 + d * 1) with F in Y by ring. eapply expected_ext; [|exact Y]. intros; cbn beta; ring.
    - apply (RD (fun s => (s - d) * (s - d))). rewrite <- DL. pose proof (expected_scale N HN _ ((F - d) * (F - d)) _ _ (expected_euler2 N HN devs)) as Y.
      eapply expected_ext; [|exact Y]. intros; cbn beta; ring.
    - pose proof (product_above N HN devs) as A. pose proof (product_below _ _ DS) as B. rewrite DV in A, B. pose proof (Rle_0_sqr (F - d)) as SQ. unfold Rsqr in SQ.
      unfold q. split; apply Rmult_le_compat_l; assumption.
  Qed.

  (** Options struck at a fraction of the underlying at a later date. *)
  Section Later.
    Variables (draws : nat -> nat -> R) (w : R) (v : vanilla R) (phi : R) (sd : datetime) (st : ddf R) (f : diffusion_factory R) (md : market_data R) (mp : mc_pricer R).
    Variables (curve : forward R) (surface : vol_surface R) (F1 F2 V1 V2 value : R).
    Let i := IForwardEuropean v phi sd st.
    Let ctx := op_context ops mp.
    Hypothesis E : mc_pricer_new nan visit draws [(w, i)] f md = Ok mp.
    Hypothesis C : ctx_forward_curve ctx (van_underlying v) (ddf_date (van_expiry_time v)) = Ok curve.
    Hypothesis S : ctx_vol_surface ctx (van_underlying v) (ddf_date (van_expiry_time v)) (Ok curve) = Ok surface.
    Hypothesis FW1 : forward_at nan curve (ddf_date st) = Ok F1.
    Hypothesis VA1 : variance nan surface st F1 = Ok V1.
    Hypothesis DI1 : displacement nan surface (ddf_date st) = Ok 0.
    Hypothesis FW2 : forward_at nan curve (ddf_date (van_expiry_time v)) = Ok F2.
    Hypothesis VA2 : variance nan surface (van_expiry_time v) F2 = Ok V2.
    Hypothesis DI2 : displacement nan surface (ddf_date (van_expiry_time v)) = Ok 0.
    Hypothesis PR : price nan cdf ctx (expiry_flow v) (mkDT (ctx_spot_date ctx) Open_) = Ok value.
    Hypothesis P1 : 0 < F1.
    Hypothesis P2 : 0 < F2.
    Hypothesis PP : 0 < phi.
    Hypothesis VL : V1 < V2.
    Hypothesis SP : 0 < df_path_substep f.
    Let n := list_sum (bd_substepping (mp_model mp)).
    Let make := fun l => mc_pricer_new nan visit (dealt n l) [(w, i)] f md.
    Let pc := van_put_or_call v.

    Lemma later_black : exists e, expected_price N (op_price ops) make (df_n_paths f * n) (w * (e * value)) /\
      Rabs (e - blacks_price N pc F2 (phi * F1) (sqrt (V2 - V1))) <=
        F2 * sqrt (exp V2 * (df_path_substep f * V2 / 2)) + phi * F1 * sqrt (exp V1 * (df_path_substep f * V1 / 2)).
    Proof.
      set (marks := [mkMark F1 V1 0; mkMark F2 V2 0]).
      assert (M : marked nan curve surface (looks_at i) marks) by (repeat constructor; cbn [mk_forward mk_variance mk_displacement]; assumption).
      destruct (option_steps draws w i v f md mp curve surface marks eq_refl E C S M) as (L & S1 & GP & NP & ES). specialize (ES SP).
      unfold make, n in *. clear make n. destruct (bd_substepping (mp_model mp)) as [|n1 [|n2 [|]]] eqn:B; try discriminate.
      assert (A1 : (1 <= n1)%nat) by (apply S1; now left). assert (A2 : (1 <= n2)%nat) by (apply S1; right; now left).
      assert (G1 : 0 <= V1 / INR n1 /\ 0 <= (V2 - V1) / INR n2).
      { cbn in GP. inversion GP as [|? ? ? ? X GP']; subst. inversion GP' as [|? ? ? ? Y _]; subst. rewrite Rminus_0_r in X. now split. }
      assert (G2 : V1 / INR n1 <= df_path_substep f /\ (V2 - V1) / INR n2 <= df_path_substep f).
      { unfold enough_steps in ES. cbn in ES. inversion ES as [|? ? ? ? X ES']; subst. inversion ES' as [|? ? ? ? Y _]; subst. rewrite Rminus_0_r in X. now split. }
      assert (N1 : 0 < INR n1) by (apply lt_0_INR; lia). assert (N2 : 0 < INR n2) by (apply lt_0_INR; lia).
      assert (V10 : 0 <= V1) by (replace V1 with (V1 / INR n1 * INR n1) by (field; lra); apply Rmult_le_pos; lra).
      set (d1 := repeat (sqrt (V1 / INR n1)) n1). set (d2 := repeat (sqrt ((V2 - V1) / INR n2)) n2).
      assert (L1 : List.length d1 = n1) by apply repeat_length. assert (L2 : List.length d2 = n2) by apply repeat_length.
      assert (W1 : variance_of d1 = V1) by (unfold d1; rewrite variance_repeat, sqrt_def by tauto; field; lra).
      assert (W2 : variance_of d2 = V2 - V1) by (unfold d2; rewrite variance_repeat, sqrt_def by tauto; field; lra).
      assert (Q1 : Forall (fun s => s * s <= df_path_substep f) d1) by (apply Forall_forall; intros s I; apply repeat_spec in I; subst s; rewrite sqrt_def; tauto).
      assert (Q2 : Forall (fun s => s * s <= df_path_substep f) d2) by (apply Forall_forall; intros s I; apply repeat_spec in I; subst s; rewrite sqrt_def; tauto).
      assert (R2 : Forall (fun s => 0 <= s) d2) by (apply Forall_forall; intros s I; apply repeat_spec in I; subst s; apply sqrt_pos).
      assert (NS : list_sum [n1; n2] = (n1 + n2)%nat) by (cbn; lia). rewrite NS in *.
      set (pay := fun x y => ends pc (F2 * (x * y)) (phi * (F1 * x))).
      assert (OA : forall g l l', List.length l = n1 -> over g (l ++ l') (d1 ++ d2) = over g l d1 * over g l' d2).
      { intros g l l' LL. unfold over, product. clear - LL L1. revert l LL. revert L1. generalize d1 n1. clear. induction d1 as [|s d1 IH]; intros n L l LL; cbn in L.
        - subst n. destruct l; [|discriminate]. cbn. ring.
        - subst n. destruct l as [|x l]; [discriminate|]. injection LL as LL. cbn. rewrite (IH _ eq_refl l LL). ring. }
      assert (HP : forall l, List.length l = (n1 + n2)%nat -> pays i (path_of marks [n1; n2] l) = pay (over euler (firstn n1 l) d1) (over euler (skipn n1 l) d2)).
      { intros l LL. pose proof (path_at marks [n1; n2] l 0 (mkMark F1 V1 0) eq_refl eq_refl) as X0. pose proof (path_at marks [n1; n2] l 1 (mkMark F2 V2 0) eq_refl eq_refl) as X1.
        assert (PL : List.length (path_of marks [n1; n2] l) = 2%nat) by (unfold path_of; rewrite map_length, seq_length; reflexivity).
        destruct (path_of marks [n1; n2] l) as [|a [|b [|]]]; try discriminate. cbn [nth] in X0, X1. unfold i, pays.
        cbn [firstn gained marks mk_forward mk_variance mk_displacement] in X0, X1. unfold devs_of in X0, X1. cbn [combine map List.concat fst snd] in X0, X1.
        rewrite ?app_nil_r, ?Rminus_0_r, ?Rplus_0_r in X0, X1. fold d1 in X0, X1. fold d2 in X1.
        assert (NS1 : list_sum [n1] = n1) by (cbn; lia). rewrite NS1 in X0. rewrite NS in X1. rewrite firstn_all2 in X1 by lia.
        rewrite <- (firstn_skipn n1 l) in X1. rewrite OA in X1 by (rewrite firstn_length; lia). rewrite X0, X1. unfold pay, ends, pc. destruct (van_put_or_call v); reflexivity. }
      (* the limit *)
      assert (LG : expected (n1 + n2) (fun l => pay (over lognormal (firstn n1 l) d1) (over lognormal (skipn n1 l) d2)) (blacks_price N pc F2 (phi * F1) (sqrt (V2 - V1)))).
      { assert (K : 0 < phi * F1) by now apply Rmult_lt_0_compat.
        pose proof (expected_lognormal N HN pc (phi * F1) d2 F2 0 K R2 ltac:(lra) P2) as X. rewrite L2, W2, Rminus_0_r in X.
        pose proof (expected_over N HN lognormal (fun _ => 1) d1 (fun s _ => mean_lognormal N HN s)) as Y. rewrite product_ones, L1 in Y.
        pose proof (expected_times N HN n1 n2 _ _ _ _ Y X) as Z. rewrite Rmult_1_l in Z. eapply expected_ext; [|exact Z]. intros l _. cbn beta.
        assert (PO : forall l d, 0 < over lognormal l d).
        { clear. intros l d. unfold over, product. induction (combine l d) as [|[x s] r IH]; cbn; [lra|]. apply Rmult_lt_0_compat; [apply exp_pos|exact IH]. }
        pose proof (PO (firstn n1 l) d1) as X0. generalize dependent (over lognormal (firstn n1 l) d1). intros x X0. generalize (over lognormal (skipn n1 l) d2). intros y. unfold pay.
        rewrite Rplus_0_r. assert (RM : forall a, x * Rmax a 0 = Rmax (x * a) 0).
        { intros a. rewrite <- RmaxRmult by lra. now rewrite Rmult_0_r. }
        unfold ends. destruct pc; rewrite RM; f_equal; ring. }
      (* what is expected of the walk in the code *)
      assert (EX : exists e, expected (n1 + n2) (fun l => pay (over euler (firstn n1 l) d1) (over euler (skipn n1 l) d2)) e).
      { set (h := fun s y => Rmax (s * (F2 * y - phi * F1)) 0).
        assert (HE : forall s, exists c, expected n2 (fun l => h s (over euler l d2)) c).
        { intros s. destruct (euler_exists N HN d2 (fun y => h s y) (Rabs (s * F2))) as (u & M' & _ & U).
          - intros x y. unfold h. rewrite <- Rabs_mult. replace (s * F2 * (x - y)) with (s * (F2 * x - phi * F1) - s * (F2 * y - phi * F1)) by ring.
            generalize (s * (F2 * x - phi * F1)) (s * (F2 * y - phi * F1)). intros a b. unfold Rmax, Rabs. repeat destruct Rle_dec; repeat destruct Rcase_abs; lra.
          - exists (u 1). specialize (U 1). rewrite L2 in U. eapply expected_ext; [|exact U]. intros l _. cbn beta. now rewrite Rmult_1_l. }
        set (sg := match pc with Call => 1 | Put => -1 end). destruct (HE sg) as (c1 & H1). destruct (HE (- sg)) as (c2 & H2).
        set (u := fun x => if Rle_dec 0 x then x * c1 else - x * c2).
        assert (HU : forall l, List.length l = n1 -> expected n2 (fun l' => pay (over euler (firstn n1 (l ++ l')) d1) (over euler (skipn n1 (l ++ l')) d2)) (u (over euler l d1))).
        { intros l LL. set (x := over euler l d1). unfold u. destruct (Rle_dec 0 x) as [X|X].
          - eapply expected_ext; [|exact (expected_scale N HN _ x _ _ H1)]. intros l' _. cbn beta. rewrite firstn_app, skipn_app, <- LL, Nat.sub_diag, firstn_all, skipn_all, firstn_O, skipn_O, app_nil_r. cbn [app].
            fold x. unfold h. rewrite <- RmaxRmult by exact X. rewrite Rmult_0_r. unfold pay, ends, sg. destruct pc; f_equal; ring.
          - eapply expected_ext; [|exact (expected_scale N HN _ (- x) _ _ H2)]. intros l' _. cbn beta. rewrite firstn_app, skipn_app, <- LL, Nat.sub_diag, firstn_all, skipn_all, firstn_O, skipn_O, app_nil_r. cbn [app].
            fold x. unfold h. rewrite <- RmaxRmult by lra. rewrite Rmult_0_r. unfold pay, ends, sg. destruct pc; f_equal; ring. }
        destruct (euler_exists N HN d1 u (Rabs c1 + Rabs c2)) as (u' & M' & _ & U').
        { intros x y. unfold u. pose proof (Rabs_pos c1). pose proof (Rabs_pos c2).
          assert (K : forall x y, x <= y -> Rabs ((if Rle_dec 0 x then x * c1 else - x * c2) - (if Rle_dec 0 y then y * c1 else - y * c2)) <= (Rabs c1 + Rabs c2) * (y - x)).
          { clear - H H0. intros x y XY. destruct (Rle_dec 0 x) as [X|X], (Rle_dec 0 y) as [Y|Y]; try lra.
            - replace (x * c1 - y * c1) with (- (c1 * (y - x))) by ring. rewrite Rabs_Ropp, Rabs_mult, (Rabs_right (y - x)) by lra. apply Rmult_le_compat_r; lra.
            - replace (- x * c2 - y * c1) with (c2 * (- x) + - (c1 * y)) by ring. eapply Rle_trans; [apply Rabs_triang|]. rewrite Rabs_Ropp, !Rabs_mult, (Rabs_right (- x)), (Rabs_right y) by lra.
              assert (Rabs c2 * - x <= Rabs c2 * (y - x)) by (apply Rmult_le_compat_l; lra). assert (Rabs c1 * y <= Rabs c1 * (y - x)) by (apply Rmult_le_compat_l; lra). lra.
            - replace (- x * c2 - - y * c2) with (c2 * (y - x)) by ring. rewrite Rabs_mult, (Rabs_right (y - x)) by lra. apply Rmult_le_compat_r; lra. }
          destruct (Rle_dec x y) as [XY|XY].
          - rewrite (Rabs_minus_sym x y), (Rabs_right (y - x)) by lra. now apply K.
          - rewrite Rabs_minus_sym, (Rabs_right (x - y)) by lra. apply K. lra. }
        exists (u' 1). apply (expected_stages N n1 n2 _ (fun l => u (over euler l d1))); [exact HU|]. specialize (U' 1). rewrite L1 in U'.
        eapply expected_ext; [|exact U']. intros l _. cbn beta. now rewrite Rmult_1_l. }
      destruct EX as (e & EX). exists e. split.
      - pose proof (dealt_price nan cdf N HN visit visits redraws draws w i v f md mp curve surface marks value e eq_refl E C S M PR) as DP. cbn zeta in DP. rewrite B, NS in DP.
        refine (proj1 (DP _)). eapply expected_ext; [|exact EX]. intros l LL. symmetry. now apply HP.
      - (* apart by what keeps the two walks together *)
        assert (D12 : expected (n1 + n2) (fun l => (over euler l (d1 ++ d2) - over lognormal l (d1 ++ d2)) * (over euler l (d1 ++ d2) - over lognormal l (d1 ++ d2))) (apart (d1 ++ d2))).
        { pose proof (expected_apart N HN (d1 ++ d2)) as X. now rewrite app_length, L1, L2 in X. }
        assert (D1 : expected (n1 + n2) (fun l => (over euler (firstn n1 l) d1 - over lognormal (firstn n1 l) d1) * (over euler (firstn n1 l) d1 - over lognormal (firstn n1 l) d1)) (apart d1)).
        { pose proof (expected_apart N HN d1) as X. rewrite L1 in X. exact (expected_first N HN n1 n2 _ _ X). }
        assert (K : 0 < phi * F1) by now apply Rmult_lt_0_compat.
        eapply Rle_trans; [refine (expected_near N HN (n1 + n2) _ _ e _ F2 (phi * F1) _ _ _ _ _ _ _ EX LG D12 D1); [lra|lra|]|].
        + intros l LL. cbn beta. assert (OB : forall g, over g l (d1 ++ d2) = over g (firstn n1 l) d1 * over g (skipn n1 l) d2).
          { intros g. rewrite <- (firstn_skipn n1 l) at 1. apply OA. rewrite firstn_length. lia. }
          rewrite !OB.
          generalize (over euler (firstn n1 l) d1) (over euler (skipn n1 l) d2) (over lognormal (firstn n1 l) d1) (over lognormal (skipn n1 l) d2). intros x y x' y'.
          assert (A : F2 * Rabs (x * y - x' * y') = Rabs (F2 * (x * y) - F2 * (x' * y'))) by (rewrite <- (Rabs_right F2) at 1 by lra; rewrite <- Rabs_mult; f_equal; ring).
          assert (A' : phi * F1 * Rabs (x - x') = Rabs (phi * (F1 * x) - phi * (F1 * x'))) by (rewrite <- (Rabs_right (phi * F1)) by lra; rewrite <- Rabs_mult; f_equal; ring).
          rewrite A, A'. unfold pay. generalize (F2 * (x * y)) (F2 * (x' * y')) (phi * (F1 * x)) (phi * (F1 * x')). clear. intros a b c c'.
          unfold ends, Rmax, Rabs. destruct pc; repeat destruct Rle_dec; repeat destruct Rcase_abs; lra.
        + pose proof (apart_below (df_path_substep f) d1 Q1) as X. rewrite W1 in X.
          pose proof (apart_below (df_path_substep f) (d1 ++ d2) (proj2 (Forall_app _ _ _) (conj Q1 Q2))) as Y. rewrite variance_app, W1, W2 in Y. replace (V1 + (V2 - V1)) with V2 in Y by ring.
          apply Rplus_le_compat; apply Rmult_le_compat_l; try lra; now apply sqrt_le_1_alt.
    Qed.
  End Later.
End Pricing.

(** The closed form. *)
Section Closed.
  Variable nan : R.
  Variable N : R -> R.
  Hypothesis HN : normal_cdf N.
  Variable visit : smap (instrument R * list (ddf R)) -> smap (instrument R * list (ddf R)).
  Hypothesis visits : forall l, Permutation (visit l) l.
  Variable redraws : bump_time -> mc_pricer R -> nat -> nat -> R.
  Let ops := mc_ops nan N visit redraws.

  Lemma blacks_code pc D p k s : s <> 0 ->
    match pc with Call => call_price N D p k s | Put => put_price N D p k s end = D * blacks_price N pc p k s.
  Proof.
    intros S. assert (C : call_price N D p k s = D * blacks_price N Call p k s) by (rewrite call_eq, blacks_call by exact S; reflexivity).
    destruct pc; [|exact C]. pose proof (parity N D p k s (nc_symmetric N HN)) as P. rewrite C in P. rewrite blacks_parity by exact HN. lra.
  Qed.

  Lemma flow_value c v yc u st r value : ctx_yield_curve c (van_credit_id v) (van_pay_date v) = Ok yc -> rt nan yc (van_pay_date v) = Ok u ->
    let d := mkDT (ctx_spot_date c) Open_ in dt_leb d (van_expiry v) = true -> apply_rule (van_settlement v) (ctx_spot_date c) = Ok st -> rt nan yc st = Ok r ->
    price nan N c (expiry_flow v) d = Ok value -> value = exp (- u) * exp r.
  Proof.
    intros Y U d L ST RT. unfold price, expiry_flow. cbn [prices]. rewrite Y. cbn [bind mapM]. fold d. rewrite L. cbn [d dt_date]. rewrite ST. cbn [bind]. unfold df.
    destruct (Z.eqb_spec (van_pay_date v) st) as [EQ|NE].
    - cbn [bind]. intros X. injection X as <-. subst st. rewrite RT in U. injection U as <-. rewrite <- exp_plus. replace (- r + r) with 0 by ring. now rewrite exp_0.
    - rewrite U, RT. cbn [bind]. rnum. intros X. injection X as <-. rewrite <- exp_plus. f_equal. ring.
  Qed.

  Lemma closed_form draws w v k f md mp curve surface F V value yc u st r tm :
    mc_pricer_new nan visit draws [(w, ISpotEuropean v k)] f md = Ok mp -> let c := op_context ops mp in let expiry := van_expiry_time v in let d := mkDT (ctx_spot_date c) Open_ in
    ddf_date expiry = dt_date (van_expiry v) -> ctx_forward_curve c (van_underlying v) (ddf_date expiry) = Ok curve ->
    ctx_vol_surface c (van_underlying v) (ddf_date expiry) (Ok curve) = Ok surface -> forward_at nan curve (ddf_date expiry) = Ok F ->
    variance nan surface expiry F = Ok V -> variance nan surface expiry k = Ok V -> displacement nan surface (ddf_date expiry) = Ok 0 ->
    price nan N c (van_underlying v) (van_expiry v) = Ok F -> price nan N c (expiry_flow v) d = Ok value ->
    ctx_yield_curve c (van_credit_id v) (van_pay_date v) = Ok yc -> ctx_yield_curve c (credit_id (van_underlying v)) (van_pay_date v) = Ok yc ->
    rt nan yc (van_pay_date v) = Ok u -> dt_leb d (van_expiry v) = true -> apply_rule (van_settlement v) (ctx_spot_date c) = Ok st -> rt nan yc st = Ok r ->
    time_to_day_fraction (van_underlying v) d = Ok tm -> ddf_leb (mkDDF from_nil 0) tm = true -> upto tm (vs_base surface) ->
    0 < F -> 0 < k -> 0 < V -> 0 < df_path_substep f -> let n := list_sum (bd_substepping (mp_model mp)) in
    exists x e, price nan N c (ISpotEuropean v k) d = Ok x /\
      expected_price N (op_price ops) (fun l => mc_pricer_new nan visit (dealt n l) [(w, ISpotEuropean v k)] f md) (df_n_paths f * n) e /\
      Rabs (e - w * x) <= Rabs w * value * (F * sqrt (exp V * (df_path_substep f * V / 2))).
  Proof.
    intros E c expiry d XD C S FW VF VK DI PU PF Y1 Y2 U L ST RT TT NIL B P K V0 SP n.
    assert (SV : sqrt V <> 0) by (pose proof (sqrt_lt_R0 _ V0); lra).
    pose proof (flow_value c v yc u st r value Y1 U L ST RT PF) as VV.
    destruct (spot_black nan N N HN visit visits redraws draws w v k f md mp curve surface F V 0 value E C S FW VF DI PF P K V0 SP) as (e & q & (p & PA & PE & _) & CL & _).
    rewrite !Rminus_0_r in CL. exists (value * blacks_price N (van_put_or_call v) F k (sqrt V)), (w * (e * value)).
    split; [|split].
    - rewrite XD in DI, C, S. rewrite (option_price nan N c v k d tm F surface V 0 yc st u r); try assumption; try lra.
      f_equal. rewrite blacks_code by assumption. rewrite <- VV, Rminus_0_r, Rplus_0_r. reflexivity.
    - exists p. split; [exact PA|exact PE].
    - replace (w * (e * value) - w * (value * blacks_price N (van_put_or_call v) F k (sqrt V))) with (w * value * (e - blacks_price N (van_put_or_call v) F k (sqrt V))) by ring.
      assert (VP : 0 < value) by (rewrite VV; apply Rmult_lt_0_compat; apply exp_pos).
      rewrite !Rabs_mult, (Rabs_right value) by lra. apply Rmult_le_compat_l; [|exact CL]. apply Rmult_le_pos; [apply Rabs_pos|lra].
  Qed.
End Closed.
