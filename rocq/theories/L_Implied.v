(** The implied volatility of any European option on a share. *)
From Coq Require Import ZArith List String Bool Lia Reals Lra.
From Verif Require Import Prelude Num L_Num M_Brent M_Dates M_Calendar M_Curves M_Forward M_Vol M_Black76 M_Instruments M_Deps M_Risk M_Reports M_Solver
  S_Math S_Vol S_Deps S_Risk S_Reports S_Solver S_Greeks S_Implied L_Fixings L_Brent L_Vol L_VolTime L_VolCases L_InstrumentCases L_Normal L_Black76 L_ForwardAffine L_Deps L_Risk L_Prefetch L_PrefetchTop L_PricingAny
  L_Reports L_SelfPricer L_SelfReports L_BlackGreeks L_Greeks L_Vega L_Solver L_PriceDouble.
Import ListNotations.
Open Scope list_scope.
Open Scope R_scope.

Lemma black_textbook N pc D f k s : L_BlackGreeks.black pc N D f k s = black_formula N pc D f k s.
Proof.
  unfold L_BlackGreeks.black, black_formula. rewrite d_one_dplus. assert (M : dminus f k s = dplus f k s - s) by (unfold dminus, dplus; lra).
  destruct pc; rewrite ?call_eq, ?put_eq, M.
  - replace (- (dplus f k s - s)) with (s - dplus f k s) by ring. ring.
  - ring.
Qed.

Section Normal.
  Variable N : R -> R.
  Hypothesis HN : normal_cdf N.

  Lemma formula_increases pc D f k s1 s2 : 0 < D -> 0 < f -> 0 < k -> 0 < s1 < s2 -> black_formula N pc D f k s1 < black_formula N pc D f k s2.
  Proof. intros. rewrite <- !black_textbook. destruct pc; cbn [L_BlackGreeks.black]; [now apply put_increasing_in_s|now apply call_increasing_in_s]. Qed.

  Lemma formula_bounds pc D f k s : 0 < D -> 0 < f -> 0 < k -> 0 < s -> floor_value pc D f k < black_formula N pc D f k s < cap_value pc D f k.
  Proof.
    intros Hd Hf Hk Hs. rewrite <- black_textbook. unfold floor_value, cap_value.
    destruct (call_above_intrinsic N HN D f k s Hd Hf Hk Hs) as (A1 & A2). destruct (call_below N HN D f k s Hd Hf Hk Hs) as (B1 & B2).
    assert (M : forall x, D * Rmax x 0 = Rmax 0 (D * x)) by (intros x; rewrite <- RmaxRmult by lra; rewrite Rmult_0_r; apply Rmax_comm).
    destruct pc; cbn [L_BlackGreeks.black]; rewrite M; split; assumption.
  Qed.

  Lemma call_near_floor D f k s : 0 < D -> 0 < f <= k -> 0 < s -> call_price N D f k s <= D * (f * s).
  Proof.
    intros Hd Hf Hs. rewrite call_eq. apply Rmult_le_compat_l; [lra|]. pose proof (cdf_pos N HN (dminus f k s)).
    pose proof (hedge_lipschitz N HN Call (dplus f k s) (dminus f k s)) as L. cbn [hedge] in L.
    replace (dplus f k s - dminus f k s) with s in L by (unfold dminus; lra). rewrite (Rabs_right s) in L by lra.
    pose proof (Rle_abs (N (dplus f k s) - N (dminus f k s))). nra.
  Qed.

  (** The value is no further above the least than the standard deviation times the smaller of the forward and the strike. *)
  Lemma formula_near_floor pc D f k s : 0 < D -> 0 < f -> 0 < k -> 0 < s -> black_formula N pc D f k s <= floor_value pc D f k + D * (Rmin f k * s).
  Proof.
    intros Hd Hf Hk Hs. rewrite <- black_textbook. unfold floor_value. pose proof (parity N D f k s (nc_symmetric N HN)) as PA.
    destruct (Rle_dec f k) as [L|L].
    - pose proof (call_near_floor D f k s Hd ltac:(lra) Hs). rewrite Rmin_left by exact L. destruct pc; cbn [L_BlackGreeks.black]; unfold Rmax; destruct Rle_dec; nra.
    - pose proof (call_near_floor D k f s Hd ltac:(lra) Hs) as C. rewrite <- put_is_call in C by assumption. rewrite Rmin_right by lra.
      destruct pc; cbn [L_BlackGreeks.black]; unfold Rmax; destruct Rle_dec; nra.
  Qed.

  Lemma call_near_cap D f k e : 0 < D -> 0 < f -> 0 < k -> 0 < e -> exists s0, 0 < s0 /\ D * f - e < call_price N D f k s0.
  Proof.
    intros Hd Hf Hk He. set (eps := e / (D * (f + k))). assert (DP : 0 < D * (f + k)) by (apply Rmult_lt_0_compat; lra).
    assert (E0 : 0 < eps) by (apply Rdiv_lt_0_compat; lra). destruct (nc_tail N HN eps E0) as (M & T).
    set (s := 2 * (Rabs M + Rabs (ln (f / k))) + 1). pose proof (Rabs_pos M) as P1. pose proof (Rabs_pos (ln (f / k))) as P2.
    assert (S1 : 1 <= s) by (unfold s; lra). exists s. split; [lra|]. rewrite call_eq.
    assert (LB : Rabs (ln (f / k) / s) <= Rabs (ln (f / k))).
    { unfold Rdiv. rewrite Rabs_mult, (Rabs_right (/ s)) by (apply Rle_ge; left; apply Rinv_0_lt_compat; lra).
      rewrite <- (Rmult_1_r (Rabs (ln (f * / k)))) at 2. apply Rmult_le_compat_l; [apply Rabs_pos|]. rewrite <- Rinv_1. apply Rinv_le_contravar; lra. }
    pose proof (Rle_abs (ln (f / k) / s)) as B1. pose proof (Rle_abs (- (ln (f / k) / s))) as B2. rewrite Rabs_Ropp in B2.
    pose proof (Rle_abs (- M)) as B3. rewrite Rabs_Ropp in B3.
    assert (D1 : - dplus f k s <= M) by (unfold dplus, s in *; lra). assert (D2 : dminus f k s <= M) by (unfold dminus, dplus, s in *; lra).
    pose proof (T _ D1) as T1. pose proof (T _ D2) as T2. rewrite (nc_symmetric N HN) in T1.
    pose proof (Rle_abs (1 - N (dplus f k s))) as T3. pose proof (Rle_abs (N (dminus f k s))) as T4.
    assert (EE : e = D * ((f + k) * eps)) by (unfold eps; field; repeat split; lra). rewrite EE.
    rewrite <- Rmult_minus_distr_l. apply Rmult_lt_compat_l; [exact Hd|]. nra.
  Qed.

  Lemma formula_near_cap pc D f k q : 0 < D -> 0 < f -> 0 < k -> q < cap_value pc D f k -> exists s, 0 < s /\ q < black_formula N pc D f k s.
  Proof.
    intros Hd Hf Hk Q. unfold cap_value in Q. destruct pc.
    - destruct (call_near_cap D k f (D * k - q) Hd Hk Hf ltac:(lra)) as (s & S & L). exists s. split; [exact S|].
      rewrite <- black_textbook. cbn [L_BlackGreeks.black]. rewrite put_is_call by assumption. lra.
    - destruct (call_near_cap D f k (D * f - q) Hd Hf Hk ltac:(lra)) as (s & S & L). exists s. split; [exact S|].
      rewrite <- black_textbook. cbn [L_BlackGreeks.black]. lra.
  Qed.

  (** Each value strictly between the least and the most comes from one standard deviation. *)
  Lemma formula_onto pc D f k q : 0 < D -> 0 < f -> 0 < k -> floor_value pc D f k < q < cap_value pc D f k -> exists s, 0 < s /\ black_formula N pc D f k s = q.
  Proof.
    intros Hd Hf Hk [Q1 Q2]. destruct (formula_near_cap pc D f k q Hd Hf Hk Q2) as (s2 & S2 & L2).
    set (m := D * Rmin f k). assert (M0 : 0 < m) by (unfold m; apply Rmult_lt_0_compat; [exact Hd|now apply Rmin_glb_lt]).
    set (s1 := (q - floor_value pc D f k) / (2 * m)). assert (S1 : 0 < s1) by (apply Rdiv_lt_0_compat; lra).
    assert (L1 : black_formula N pc D f k s1 < q).
    { pose proof (formula_near_floor pc D f k s1 Hd Hf Hk S1) as B. rewrite <- Rmult_assoc in B. fold m in B.
      assert (m * s1 = (q - floor_value pc D f k) / 2) by (unfold s1; field; lra). lra. }
    assert (O : s1 < s2).
    { destruct (Rlt_le_dec s1 s2) as [|L]; [assumption|]. exfalso. destruct (Req_dec s2 s1) as [->|]; [lra|].
      pose proof (formula_increases pc D f k s2 s1 Hd Hf Hk ltac:(lra)). lra. }
    destruct (nc_density N HN) as (c & Hc & DN).
    destruct (Ranalysis5.IVT_interv (fun s => black_formula N pc D f k s - q) s1 s2) as (z & Z & E); try lra.
    - intros a A. apply (continuity_pt_minus (fun s => black_formula N pc D f k s) (fun _ => q)); [|apply continuity_pt_const; intros ? ?; reflexivity].
      apply derivable_continuous_pt. eexists. eapply derivable_pt_lim_ext; [intros t; apply black_textbook|].
      apply (black_in_sd N HN _ pc D f k a DN Hf Hk). lra.
    - exists z. split; lra.
  Qed.

  Lemma formula_lipschitz pc D f k s1 s2 : 0 < D -> 0 < f -> 0 < k -> 0 < s1 -> 0 < s2 ->
    Rabs (black_formula N pc D f k s1 - black_formula N pc D f k s2) <= D * f * Rabs (s1 - s2).
  Proof.
    intros Hd Hf Hk H1 H2. rewrite <- !black_textbook. pose proof (call_near_s N HN D f k s1 s2 ltac:(lra) Hf Hk H1 H2) as C.
    pose proof (parity N D f k s1 (nc_symmetric N HN)) as P1. pose proof (parity N D f k s2 (nc_symmetric N HN)) as P2.
    destruct pc; cbn [L_BlackGreeks.black]; [|exact C].
    replace (put_price N D f k s1 - put_price N D f k s2) with (call_price N D f k s1 - call_price N D f k s2) by lra. exact C.
  Qed.
End Normal.

(** Prices that only rise, or only fall, with the size of the volatility. *)
Lemma solve_near_either {P} nan (ops : pricer_ops R P) (Rp : replaceable ops) sg s target lo hi p vol p' id : solve nan ops s target lo hi p = (Ok vol, p') ->
  depends_on_vols ops p [id] ->
  (forall v w x y, 0 < Rabs v < Rabs w -> price_after ops [BVol id (ReplaceVol v)] p = Ok x ->
     price_after ops [BVol id (ReplaceVol w)] p = Ok y -> 0 < sg * (y - x)) ->
  forall v, 0 < v -> price_after ops [BVol id (ReplaceVol v)] p = Ok target ->
  let within x y := Rabs (x - y) <= 4 * / 4503599627370496 * Rabs vol + Rabs (iv_tolerance s) in
  within (Rabs vol) v \/ within vol 0.
Proof.
  intros E D M v V0 V within. destruct (solve_encloses nan ops Rp _ _ _ _ _ _ _ E) as (id' & log & D' & (fb & FB & _ & K) & _).
  assert (id' = id) as ->. { apply single_spec in D, D'. congruence. }
  unfold excess in *. rnum.
  assert (G : forall x y, rmap (fun x => x - target) (price_after ops [BVol id (ReplaceVol x)] p) = Ok y ->
            price_after ops [BVol id (ReplaceVol x)] p = Ok (y + target)).
  { intros x y. destruct (price_after ops [BVol id (ReplaceVol x)] p) as [z|m|m]; cbn [rmap bind]; intros Q; try discriminate. injection Q as <-. f_equal. ring. }
  apply G in FB. pose proof (Rabs_pos vol) as PV. pose proof (Rabs_pos (iv_tolerance s)) as PT. pose proof (Rle_abs (iv_tolerance s)) as T0.
  assert (EV : 0 <= / 4503599627370496 * Rabs vol) by (apply Rmult_le_pos; [left; apply Rinv_0_lt_compat; lra|assumption]).
  assert (AV : Rabs v = v) by (apply Rabs_right; lra).
  assert (X : forall y fy, y <> 0 -> price_after ops [BVol id (ReplaceVol y)] p = Ok (fy + target) ->
    (Rabs y < v /\ sg * fy < 0) \/ Rabs y = v \/ (v < Rabs y /\ 0 < sg * fy)).
  { intros y fy Y0 Y. pose proof (Rabs_pos_lt y Y0). destruct (Rtotal_order (Rabs y) v) as [L|[L|L]].
    - left. split; [assumption|]. assert (B : 0 < Rabs y < Rabs v) by lra. pose proof (M _ _ _ _ B Y V). lra.
    - auto.
    - right. right. split; [lra|]. assert (B : 0 < Rabs v < Rabs y) by lra. pose proof (M _ _ _ _ B V Y). lra. }
  destruct (Req_dec vol 0) as [->|VN]; [right; unfold within; rewrite Rminus_diag_eq, Rabs_R0 by reflexivity; rewrite Rabs_R0 in *; lra|].
  destruct K as [->|(c & fc & FC & _ & O & DI)].
  - left. unfold within. destruct (X vol 0 VN FB) as [(_ & F)|[->|(_ & F)]]; [lra| |lra]. rewrite Rminus_diag_eq, Rabs_R0 by reflexivity. lra.
  - destruct (Req_dec c 0) as [->|CN]; [right; unfold within; rewrite Rminus_0_l, Rabs_Ropp in DI; rewrite Rminus_0_r; lra|].
    left. unfold within. apply G in FC. pose proof (Rabs_triang_inv2 c vol) as TI.
    assert (OO : sg * fb * (sg * fc) <= 0).
    { replace (sg * fb * (sg * fc)) with (sg * sg * (fb * fc)) by ring. assert (0 <= sg * sg) by apply Rle_0_sqr. nra. }
    destruct (X _ _ VN FB) as [(X1 & Y1)|[X1|(X1 & Y1)]], (X _ _ CN FC) as [(X2 & Y2)|[X2|(X2 & Y2)]].
    + exfalso; nra.
    + rewrite <- X2, <- Rabs_Ropp, Ropp_minus_distr. lra.
    + revert TI. rewrite (Rabs_right (Rabs c - Rabs vol)), (Rabs_left (Rabs vol - v)) by lra. lra.
    + rewrite X1, Rminus_diag_eq, Rabs_R0 by reflexivity. lra.
    + rewrite X1, Rminus_diag_eq, Rabs_R0 by reflexivity. lra.
    + rewrite X1, Rminus_diag_eq, Rabs_R0 by reflexivity. lra.
    + revert TI. rewrite (Rabs_left (Rabs c - Rabs vol)), (Rabs_right (Rabs vol - v)) by lra. lra.
    + rewrite <- X2, <- Rabs_Ropp, Ropp_minus_distr. lra.
    + exfalso; nra.
Qed.

Section Option.
  Variables (nan : R) (N : R -> R).
  Variables (w : R) (v : vanilla R) (k : R) (id cr : string) (cur : currency R) (st : date_rule R).
  Hypothesis U : van_underlying v = IEquity id cr cur st.
  Notation opt := (ISpotEuropean v k).
  Notation u := (van_underlying v).
  Notation expiry := (dt_date (van_expiry v)).
  Notation ops := (self_ops nan N).

  Lemma one_surface today deps : portfolio_dependencies [(w, opt)] today = Ok deps ->
    map (fun kv => instrument_id (fst (snd kv))) (col_vol_surfaces deps) = [id] /\ vol_surface_hwm u deps <> None.
  Proof.
    intros E. rewrite portfolio_collects in E. cbn [map snd] in E. apply collect_all_declared in E as (l & A & ->).
    inversion A as [|? ? l1 ? C R]; subst. inversion R; subst. inversion C as [|? l2 D| | |]; subst. inversion D as [| | | | |? ? l3 D'|]; subst.
    rewrite U in D'. inversion D' as [| |? ? ? ? pay AR| | | |]; subst. cbn [its_spot has_a_spot]. unfold option_asks, its_forward, vol_surface_hwm. rewrite U.
    cbn. rewrite String.eqb_refl. split; [reflexivity|discriminate].
  Qed.

  Lemma option_depends md sp : self_pricer_new nan [(w, opt)] md = Ok sp -> depends_on_vols ops sp [id].
  Proof.
    intros E. unfold self_pricer_new in E. apply bind_ok in E as (deps & DE & E). apply bind_ok in E as (p & PE & E). injection E as <-.
    destruct (one_option w v k id cr cur st U _ _ DE) as (l & CA & AL & ON & _).
    destruct (proj1 (new_spec nan _ _ _ (deps_tidy _ _ l deps CA AL ON)) PE) as (_ & PD & _).
    exists deps. split; [cbn; now rewrite PD|]. exact (proj1 (one_surface _ _ DE)).
  Qed.

  Section Market.
    Variables (md : market_data R) (sp : self_pricer R) (s : R) (S : vol_surface R) (t F D : R).
    Hypothesis Live : (0 <= md_spot_date md < expiry)%Z.
    Hypothesis New : self_pricer_new nan [(w, opt)] md = Ok sp.
    Hypothesis Spot : get id (md_spots md) = Some s.
    Hypothesis Surface : get id (md_vols md) = Some S.
    Hypothesis Base : ddf_date (vs_base S) = md_spot_date md.
    Hypothesis Frac : 0 <= ddf_frac (vs_base S).
    Hypothesis Time : year_fraction (vs_calendar S) (vs_base S) (van_expiry_time v) = Ok t.
    Hypothesis T0 : 0 <= t.
    Hypothesis Fwd : forward_if nan md u expiry s F.
    Hypothesis F0 : 0 <= F.
    Hypothesis Disc : payment_discount nan md v D.

    Lemma flat_variance x : variance nan (FlatVolSurface x (vs_calendar S) (vs_base S)) (van_expiry_time v) k = Ok (t * x ^ 2).
    Proof. apply variance_real. unfold volatility_is. cbn [volatilities map]. rewrite Time. reflexivity. Qed.

    Lemma implied_price x : price_after ops [BVol id (ReplaceVol x)] sp = Ok (w * black_formula N (van_put_or_call v) D F k (Rabs x * sqrt t)).
    Proof.
      assert (E' := New). unfold self_pricer_new in E'. apply bind_ok in E' as (deps & DE & E'). apply bind_ok in E' as (p & PE & E'). injection E' as <-.
      destruct (one_option w v k id cr cur st U _ _ DE) as (l & CA & AL & ON & IF & IV & HW).
      destruct (one_fixing nan N w v k id cr cur st U _ _ DE) as (_ & BY). destruct (one_surface _ _ DE) as (_ & VH).
      destruct (proj1 (new_spec nan _ _ _ (deps_tidy _ _ l deps CA AL ON)) PE) as (PD & PS & _).
      destruct (cache_answers nan _ _ l deps CA AL ON md p PE) as (CF & CV).
      destruct (CF u expiry IF) as (h & f & HH & MF & CXF). destruct (CV u expiry expiry IF IV) as (h' & vol & VH' & MV & CXV).
      assert (h = expiry) as ->.
      { pose proof (kn_forward _ _ (collected _ _ deps l CA AL) u) as L. rewrite HH in L. rewrite U in L. cbn [instrument_id] in L. rewrite HW in L.
        destruct L as [[L|[]] _]. congruence. }
      set (S' := FlatVolSurface x (vs_calendar S) (vs_base S)).
      set (p' := mkPrefetch (with_vol id md S') deps (pf_forwards p) (put id S' (pf_vols p))).
      assert (B : prefetch_bump nan (BVol id (ReplaceVol x)) p None = (Ok true, p', None)).
      { unfold prefetch_bump. rewrite (bump_dispatch nan (BVol id (ReplaceVol x)) _ _ _ _ (VolFor id) eq_refl).
        unfold refetch_for, known. rewrite PD. cbn [look]. rewrite Surface. cbn [option_map]. unfold refetch. cbn [negb andb pf_forwards pf_deps]. rewrite PS.
        pose proof (CXF expiry) as GF. cbn [ctx_forward_curve prefetch_context] in GF. unfold find_data in GF. rewrite U in GF at 1. cbn [instrument_id] in GF.
        destruct (get id (pf_forwards p)) as [f'|] eqn:G1; [|discriminate]. rewrite BY.
        pose proof (CXV expiry (Err "")) as GV. cbn [ctx_vol_surface prefetch_context] in GV. unfold find_data in GV. rewrite U in GV at 1. cbn [instrument_id] in GV.
        unfold refetch_vol. cbn [pf_vols pf_deps pf_data]. destruct (get id (pf_vols p)) as [g|] eqn:G2; [|discriminate]. rewrite VH'.
        assert (BM : bumped_md (BVol id (ReplaceVol x)) md = with_vol id md S').
        { unfold bumped_md. cbn [md_bump_saved]. rewrite (apply_bump_known _ _ _ _ _ Surface). reflexivity. }
        rewrite BM. assert (MVS : md_vol_surface nan (with_vol id md S') u h' (Ok f') = Ok S').
        { unfold md_vol_surface. rewrite U at 1. cbn [instrument_id with_vol md_vols md_spot_date]. unfold find_data. rewrite get_put_same. cbn [bind].
          unfold time_modify. cbn [S' vs_base]. rewrite Base, Z.eqb_refl. cbn [bind]. unfold forward_modify. cbn [vol_forward_dynamics_of]. reflexivity. }
        rewrite MVS. reflexivity. }
      cbn [price_after op_bump op_price self_ops]. unfold self_bump. cbn [sp_context sp_instruments]. rewrite B.
      apply self_price_sum. cbn [sp_instruments].
      replace (w * black_formula N (van_put_or_call v) D F k (Rabs x * sqrt t)) with (w * black_formula N (van_put_or_call v) D F k (Rabs x * sqrt t) + 0) by ring.
      constructor; [|constructor]. unfold priced_at. cbn [sp_context]. rewrite <- black_textbook.
      destruct Disc as (yc & pay & sd & r & YC & RP & AR & RS & ->).
      assert (Q : sqrt (t * x ^ 2) = Rabs x * sqrt t).
      { rewrite sqrt_mult by (auto; apply pow2_ge_0). rewrite <- (pow2_abs x), sqrt_pow2 by apply Rabs_pos. ring. }
      rewrite <- Q.
      assert (OP := L_InstrumentCases.option_price nan N (prefetch_context nan p') v k (mkDT (md_spot_date (pf_data p')) Open_) (mkDDF (md_spot_date md) 0) F S' (t * x ^ 2) 0 yc sd pay r).
      assert (Rw : match van_put_or_call v with
        | Call => call_price N (exp (- pay) * exp r) (F - 0) (k + 0) (sqrt (t * x ^ 2))
        | Put => put_price N (exp (- pay) * exp r) (F - 0) (k + 0) (sqrt (t * x ^ 2)) end = L_BlackGreeks.black (van_put_or_call v) N (exp (- pay) * exp r) F k (sqrt (t * x ^ 2))).
      { rewrite Rminus_0_r, Rplus_0_r. destruct (van_put_or_call v); reflexivity. }
      rewrite Rw in OP. apply OP; clear OP Rw.
      - unfold first_price. rewrite U. cbn [prices last dt_date]. cbn [p' prefetch_context ctx_spot_date ctx_forward_curve pf_data with_vol md_spot_date pf_forwards].
        replace (expiry =? md_spot_date md)%Z with false by (symmetry; apply Z.eqb_neq; lia).
        pose proof (CXF expiry) as GF. cbn [ctx_forward_curve prefetch_context] in GF. rewrite U in GF. rewrite GF. cbn [bind mapM].
        destruct Fwd as (r1 & b1 & d1 & f1 & A1 & A2 & A3 & A4 & A5).
        assert (f = f1) as ->.
        { unfold md_forward_curve in MF. unfold find_data in MF. rewrite A1, A2, A3 in MF. rewrite U in MF at 1. cbn [instrument_id] in MF. rewrite Spot in MF. cbn [bind] in MF. congruence. }
        rewrite A5. reflexivity.
      - cbn [p' prefetch_context ctx_yield_curve md_context pf_data with_vol md_yields]. unfold find_data. rewrite YC. reflexivity.
      - cbn [p' prefetch_context ctx_vol_surface pf_vols]. unfold find_data. rewrite U at 1. cbn [instrument_id]. rewrite get_put_same. reflexivity.
      - exact RP.
      - reflexivity.
      - lra.
      - unfold dt_leb, dt_ltb. cbn [dt_date p' pf_data with_vol md_spot_date].
        replace (expiry <? md_spot_date md)%Z with false by (symmetry; apply Z.ltb_ge; lia).
        replace (expiry =? md_spot_date md)%Z with false by (symmetry; apply Z.eqb_neq; lia). reflexivity.
      - exact AR.
      - exact RS.
      - rewrite U. cbn [time_to_day_fraction dt_date dt_tod]. rnum. apply ddf_new_zero.
      - apply ddf_leb_upto. unfold upto, before. cbn [ddf_date ddf_frac]. unfold from_nil. destruct (Z.eq_dec (md_spot_date md) 0) as [->|]; [now right|left; left; lia].
      - cbn [S' vs_base]. unfold upto, before. cbn [ddf_date ddf_frac]. rewrite Base. destruct (vs_base S) as [d0 f0]; cbn [ddf_date ddf_frac] in *. subst d0.
        destruct (Req_dec f0 0) as [->|]; [now right|]. left. right. split; [reflexivity|lra].
      - apply flat_variance.
      - apply Rmult_le_pos; [exact T0|apply pow2_ge_0].
    Qed.

    Hypothesis HN : normal_cdf N.
    Hypothesis W0 : w <> 0.
    Hypothesis TP : 0 < t.
    Hypothesis FP : 0 < F.
    Hypothesis KP : 0 < k.

    Lemma disc_pos : 0 < D.
    Proof. destruct Disc as (yc & pay & sd & r & _ & _ & _ & _ & ->). apply Rmult_lt_0_compat; apply exp_pos. Qed.

    Notation value x := (black_formula N (van_put_or_call v) D F k (x * sqrt t)).

    Lemma value_increases x y : 0 < x < y -> value x < value y.
    Proof.
      intros X. assert (0 < sqrt t) by (apply sqrt_lt_R0; exact TP).
      apply formula_increases; try assumption; [exact disc_pos|]. split; [apply Rmult_lt_0_compat|apply Rmult_lt_compat_r]; lra.
    Qed.

    Lemma sign_pos x y : x < y -> 0 < w * (w * y - w * x).
    Proof. intros L. replace (w * (w * y - w * x)) with (w * w * (y - x)) by ring. apply Rmult_lt_0_compat; [|lra]. destruct (Rdichotomy _ _ W0); nra. Qed.

    Lemma implied_found x lo hi tol j n : 0 < lo < x -> x < hi -> 0 < tol -> hi - lo < tol / 2 * 2 ^ j -> ((j + 1) * (j + 1) <= n)%nat ->
      exists vol sp', solve nan ops (mkImpliedVol tol n) (w * value x) lo hi sp = (Ok vol, sp') /\
        let within x y := Rabs (x - y) <= 4 * / 4503599627370496 * Rabs vol + tol in within (Rabs vol) x \/ within vol 0.
    Proof.
      intros L H Tl Wd Nn. pose proof (option_depends md sp New) as DV.
      destruct (solve_ends nan ops (self_replaceable nan N) (mkImpliedVol tol n) (w * value x) lo hi sp id j) as (vol & p' & E).
      - exact Tl.
      - rewrite Rabs_right by lra. exact Wd.
      - exact Nn.
      - exact DV.
      - intros y _. rewrite implied_price. eauto.
      - intros a b. rewrite !implied_price. intros A B. injection A as <-. injection B as <-. rewrite !Rabs_right by lra.
        pose proof (value_increases lo x ltac:(lra)) as V1. pose proof (value_increases x hi ltac:(lra)) as V2.
        destruct (Rdichotomy _ _ W0); [right|left]; nra.
      - exists vol, p'. split; [exact E|].
        pose proof (solve_near_either nan ops (self_replaceable nan N) w (mkImpliedVol tol n) (w * value x) lo hi sp vol p' id E DV) as SN.
        cbv zeta in SN. cbn [iv_tolerance] in SN. rewrite (Rabs_right tol) in SN by lra. apply SN.
        + intros a b c d Q. rewrite !implied_price. intros A B. injection A as <-. injection B as <-. apply sign_pos, value_increases. exact Q.
        + lra.
        + rewrite implied_price, Rabs_right by lra. reflexivity.
    Qed.

    (** Every value strictly between the least and the most comes from one volatility. *)
    Lemma implied_unique q : floor_value (van_put_or_call v) D F k < q < cap_value (van_put_or_call v) D F k ->
      exists x, 0 < x /\ price_after ops [BVol id (ReplaceVol x)] sp = Ok (w * q) /\
        forall y, 0 < y -> price_after ops [BVol id (ReplaceVol y)] sp = Ok (w * q) -> y = x.
    Proof.
      intros Q. assert (RT : 0 < sqrt t) by (apply sqrt_lt_R0; exact TP).
      destruct (formula_onto N HN (van_put_or_call v) D F k q disc_pos FP KP Q) as (s0 & S0 & E). exists (s0 / sqrt t).
      assert (X0 : 0 < s0 / sqrt t) by (apply Rdiv_lt_0_compat; assumption).
      assert (VX : value (s0 / sqrt t) = q) by (replace (s0 / sqrt t * sqrt t) with s0 by (field; lra); exact E).
      split; [exact X0|]. split; [rewrite implied_price, Rabs_right by lra; now rewrite VX|].
      intros y Y. rewrite implied_price, Rabs_right by lra. intros EY. assert (WE : w * value y = w * q) by congruence. apply Rmult_eq_reg_l in WE; [|exact W0].
      destruct (Rtotal_order y (s0 / sqrt t)) as [L|[L|L]]; [|exact L|].
      - pose proof (value_increases y (s0 / sqrt t) ltac:(lra)). lra.
      - pose proof (value_increases (s0 / sqrt t) y ltac:(lra)). lra.
    Qed.

    (** How far apart the prices at two volatilities can be. *)
    Lemma implied_apart x y p q : x <> 0 -> y <> 0 -> price_after ops [BVol id (ReplaceVol x)] sp = Ok p -> price_after ops [BVol id (ReplaceVol y)] sp = Ok q ->
      Rabs (p - q) <= Rabs w * (D * F * sqrt t * Rabs (Rabs x - Rabs y)).
    Proof.
      intros X Y. rewrite !implied_price. intros E1 E2. injection E1 as <-. injection E2 as <-. rewrite <- Rmult_minus_distr_l, Rabs_mult.
      apply Rmult_le_compat_l; [apply Rabs_pos|]. assert (RT : 0 < sqrt t) by (apply sqrt_lt_R0; exact TP).
      pose proof (formula_lipschitz N HN (van_put_or_call v) D F k (Rabs x * sqrt t) (Rabs y * sqrt t) disc_pos FP KP
        ltac:(apply Rmult_lt_0_compat; [now apply Rabs_pos_lt|exact RT]) ltac:(apply Rmult_lt_0_compat; [now apply Rabs_pos_lt|exact RT])) as L.
      rewrite <- Rmult_minus_distr_r, (Rabs_mult _ (sqrt t)), (Rabs_right (sqrt t)) in L by lra.
      eapply Rle_trans; [exact L|]. right. ring.
    Qed.

    (** A target that is not between the values at the bounds has no implied volatility. *)
    Lemma implied_outside target lo hi c : 0 < lo < hi -> target < w * value lo /\ target < w * value hi \/ w * value lo < target /\ w * value hi < target ->
      exists m sp', solve nan ops c target lo hi sp = (Err m, sp').
    Proof.
      intros L Q. pose proof (option_depends md sp New) as DV. apply single_spec in DV.
      destruct (solve_follows nan ops (self_replaceable nan N) c target lo hi sp id DV) as (log & Z & _).
      assert (EX : forall x, 0 < x -> excess ops id sp target x = Ok (w * value x - target)).
      { intros x X. unfold excess. rewrite implied_price, Rabs_right by lra. reflexivity. }
      destruct (zbrent_unbracketed nan lo hi (iv_tolerance c) (iv_max_iter c) _ _ _ (EX lo ltac:(lra)) (EX hi ltac:(lra))) as (m & X); [destruct Q; nra|].
      rewrite X in Z. destruct (solve nan ops c target lo hi sp) as [r p']. injection Z as <- _. eauto.
    Qed.

    (** So an arbitrage has none, whatever the bounds. *)
    Lemma implied_arbitrage q lo hi c : 0 < lo < hi -> q <= floor_value (van_put_or_call v) D F k \/ cap_value (van_put_or_call v) D F k <= q ->
      exists m sp', solve nan ops c (w * q) lo hi sp = (Err m, sp').
    Proof.
      intros L Q. apply implied_outside; [exact L|]. assert (RT : 0 < sqrt t) by (apply sqrt_lt_R0; exact TP).
      destruct (formula_bounds N HN (van_put_or_call v) D F k (lo * sqrt t) disc_pos FP KP) as (A1 & A2); [apply Rmult_lt_0_compat; lra|].
      destruct (formula_bounds N HN (van_put_or_call v) D F k (hi * sqrt t) disc_pos FP KP) as (B1 & B2); [apply Rmult_lt_0_compat; lra|].
      destruct (Rdichotomy _ _ W0), Q; [right|left|left|right]; split; nra.
    Qed.
  End Market.
End Option.

(** The same from what a user can see. *)
Section Held.
  Variables (nan : R) (N : R -> R) (w : R) (v : vanilla R) (k : R) (id : string) (md : market_data R) (sp : self_pricer R) (t F D : R).
  Hypothesis H : option_held nan w v k id md sp t F D.
  Notation ops := (self_ops nan N).
  Notation pc := (van_put_or_call v).
  Notation value x := (black_formula N (van_put_or_call v) D F k (x * sqrt t)).

  Lemma held_price : depends_on_vols ops sp [id] /\ forall x, price_after ops [BVol id (ReplaceVol x)] sp = Ok (w * value (Rabs x)).
  Proof.
    destruct H as [(cr & cur & st & U) New Live (s & Spot & Fwd) (S & Surface & Base & Frac & Time) Disc T0 F0 K0].
    split; [exact (option_depends nan N w v k id cr cur st U md sp New)|].
    intros x. exact (implied_price nan N w v k id cr cur st U md sp s S t F D Live New Spot Surface Base Frac Time (Rlt_le _ _ T0) Fwd (Rlt_le _ _ F0) Disc x).
  Qed.

  (** The volatility that an undisplaced surface has for the option reproduces its price. *)
  Lemma held_own S vol value : get id (md_vols md) = Some S -> volatility_is nan S (van_expiry_time v) k vol t -> 0 <= vol -> displacement nan S (dt_date (van_expiry v)) = Ok 0 ->
    self_price nan N sp = Ok value -> price_after ops [BVol id (ReplaceVol vol)] sp = Ok value.
  Proof.
    intros GS VI V0 DZ PV. rewrite (proj2 held_price).
    destruct H as [(cr & cur & st & U) New Live (s & Spot & Fwd) (S' & Surface & Base & Frac & Time) Disc T0 F0 K0].
    rewrite GS in Surface. injection Surface as <-.
    destruct (option_today nan N w v k id cr cur st U md sp s value ltac:(lia) New PV Spot) as (F' & D' & disp & sd & FF & OI & _ & ->).
    destruct (inputs_started nan N v k id cr cur st U md S vol t D' disp sd GS ltac:(lia) Base Frac VI V0 (Rlt_le _ _ T0) OI) as (DS & ->).
    assert (disp = 0) as -> by congruence.
    assert (F' = F) as ->.
    { destruct FF as (a1 & a2 & a3 & a4 & A1 & A2 & A3 & A4 & A5), Fwd as (b1 & b2 & b3 & b4 & Y1 & Y2 & Y3 & Y4 & Y5). congruence. }
    assert (D' = D) as ->.
    { destruct OI as (z1 & z2 & z3 & z4 & z5 & z6 & z7 & A1 & A2 & A3 & A4 & -> & _), Disc as (y1 & y3 & y4 & y5 & Y1 & Y2 & Y3 & Y4 & ->).
      rewrite A1 in Y1. injection Y1 as <-. rewrite A2 in Y2. injection Y2 as <-. rewrite A3 in Y3. injection Y3 as <-. rewrite A4 in Y4. injection Y4 as <-. reflexivity. }
    rewrite black_textbook, Rminus_0_r, Rplus_0_r, (Rabs_right vol) by lra. reflexivity.
  Qed.

  Hypothesis HN : normal_cdf N.
  Hypothesis W0 : w <> 0.

  Lemma held_unique q : floor_value pc D F k < q < cap_value pc D F k ->
      exists x, 0 < x /\ price_after ops [BVol id (ReplaceVol x)] sp = Ok (w * q) /\
        forall y, 0 < y -> price_after ops [BVol id (ReplaceVol y)] sp = Ok (w * q) -> y = x.
  Proof.
    destruct H as [(cr & cur & st & U) New Live (s & Spot & Fwd) (S & Surface & Base & Frac & Time) Disc T0 F0 K0].
    exact (implied_unique nan N w v k id cr cur st U md sp s S t F D Live New Spot Surface Base Frac Time (Rlt_le _ _ T0) Fwd (Rlt_le _ _ F0) Disc HN W0 T0 F0 K0 q).
  Qed.

  Lemma held_found x lo hi tol j n target : price_after ops [BVol id (ReplaceVol x)] sp = Ok target ->
    0 < lo < x -> x < hi -> 0 < tol -> hi - lo < tol / 2 * 2 ^ j -> ((j + 1) * (j + 1) <= n)%nat ->
    exists vol sp', solve nan ops (mkImpliedVol tol n) target lo hi sp = (Ok vol, sp') /\
      let within x y := Rabs (x - y) <= 4 * / 4503599627370496 * Rabs vol + tol in within (Rabs vol) x \/ within vol 0.
  Proof.
    intros PX L0 HI. rewrite (proj2 held_price), Rabs_right in PX by lra. injection PX as <-. revert L0 HI.
    destruct H as [(cr & cur & st & U) New Live (s & Spot & Fwd) (S & Surface & Base & Frac & Time) Disc T0 F0 K0].
    exact (implied_found nan N w v k id cr cur st U md sp s S t F D Live New Spot Surface Base Frac Time (Rlt_le _ _ T0) Fwd (Rlt_le _ _ F0) Disc HN W0 T0 F0 K0 x lo hi tol j n).
  Qed.

  Lemma held_apart x y p q : x <> 0 -> y <> 0 -> price_after ops [BVol id (ReplaceVol x)] sp = Ok p -> price_after ops [BVol id (ReplaceVol y)] sp = Ok q ->
      Rabs (p - q) <= Rabs w * (D * F * sqrt t * Rabs (Rabs x - Rabs y)).
  Proof.
    destruct H as [(cr & cur & st & U) New Live (s & Spot & Fwd) (S & Surface & Base & Frac & Time) Disc T0 F0 K0].
    exact (implied_apart nan N w v k id cr cur st U md sp s S t F D Live New Spot Surface Base Frac Time (Rlt_le _ _ T0) Fwd (Rlt_le _ _ F0) Disc HN T0 F0 K0 x y p q).
  Qed.

  Lemma held_outside target x y lo hi c : 0 < lo < hi -> price_after ops [BVol id (ReplaceVol lo)] sp = Ok x -> price_after ops [BVol id (ReplaceVol hi)] sp = Ok y ->
    target < x /\ target < y \/ x < target /\ y < target -> exists m sp', solve nan ops c target lo hi sp = (Err m, sp').
  Proof.
    intros L. rewrite !(proj2 held_price), !Rabs_right by lra. intros E1 E2. injection E1 as <-. injection E2 as <-. revert L.
    destruct H as [(cr & cur & st & U) New Live (s & Spot & Fwd) (S & Surface & Base & Frac & Time) Disc T0 F0 K0].
    exact (implied_outside nan N w v k id cr cur st U md sp s S t F D Live New Spot Surface Base Frac Time (Rlt_le _ _ T0) Fwd (Rlt_le _ _ F0) Disc target lo hi c).
  Qed.

  Lemma held_arbitrage q lo hi c : 0 < lo < hi -> q <= floor_value pc D F k \/ cap_value pc D F k <= q ->
      exists m sp', solve nan ops c (w * q) lo hi sp = (Err m, sp').
  Proof.
    destruct H as [(cr & cur & st & U) New Live (s & Spot & Fwd) (S & Surface & Base & Frac & Time) Disc T0 F0 K0].
    exact (implied_arbitrage nan N w v k id cr cur st U md sp s S t F D Live New Spot Surface Base Frac Time (Rlt_le _ _ T0) Fwd (Rlt_le _ _ F0) Disc HN W0 T0 F0 K0 q lo hi c).
  Qed.
End Held.
