(** The vega and volga reported for a European option. *)
From Coq Require Import ZArith List String Bool Lia Reals Lra.
From Verif Require Import Prelude Num L_Num M_Dates M_Calendar M_Curves M_Forward M_Vol M_Black76 M_Instruments M_Deps M_Risk M_Reports
  S_Math S_Vol S_Deps S_Risk S_Reports S_Greeks L_Fixings L_Vol L_VolTime L_VolCases L_InstrumentCases L_Normal L_Black76 L_ForwardAffine L_Deps L_Risk L_Prefetch L_PrefetchTop L_PricingAny
  L_Reports L_SelfPricer L_SelfReports L_BlackGreeks L_Greeks.
Import ListNotations.
Open Scope list_scope.
Open Scope R_scope.

Section Normal.
  Variable N : R -> R.
  Hypothesis HN : normal_cdf N.

  Lemma black_in_sd phi pc D f k s : (forall x, derivable_pt_lim N x (phi x)) -> 0 < f -> 0 < k -> 0 < s ->
    derivable_pt_lim (fun s => black pc N D f k s) s (D * f * phi (d_one f k s)).
  Proof.
    intros PH Hf Hk Hs. destruct (nc_density N HN) as (c & Hc & DN).
    rewrite (uniqueness_limite N _ _ _ (PH _) (DN (d_one f k s))). rewrite d_one_dplus.
    assert (C : derivable_pt_lim (fun s => call_price N D f k s) s (D * f * (c * bell (dplus f k s)))).
    { destruct (dplus_in_s f k s Hs) as (d & Hd).
      pose proof (call_chain N c D (fun _ => f) (fun _ => k) (fun s => s) s 0 0 d DN Hf Hk Hs 1) as C. cbn beta in C.
      replace (D * f * (c * bell (dplus f k s))) with (D * (N (dplus f k s) * 0 - N (dminus f k s) * 0 + c * bell (dplus f k s) * f * 1)) by ring.
      apply C; [apply derivable_pt_lim_const|apply derivable_pt_lim_const|apply derivable_pt_lim_id|exact Hd]. }
    destruct pc; cbn [black]; [|exact C].
    apply (derivable_pt_lim_ext (fun s => call_price N D f k s - D * (f - k))).
    { intros t. rewrite <- (parity N D f k t (nc_symmetric N HN)). ring. }
    match goal with |- derivable_pt_lim _ _ ?l => replace l with (l - 0) by ring end.
    apply (derivable_pt_lim_minus (fun s => call_price N D f k s) (fun _ => D * (f - k))); [exact C|apply derivable_pt_lim_const].
  Qed.

  Lemma black_vol_mean phi pc D f k r x y : (forall x, derivable_pt_lim N x (phi x)) -> 0 < f -> 0 < k -> 0 < r -> 0 < x < y ->
    exists z, x < z < y /\ black pc N D f k (y * r) - black pc N D f k (x * r) = vega_at phi D f k r z * (y - x).
  Proof.
    intros PH Hf Hk Hr [X Y]. destruct (MVT_cor2 (fun z => black pc N D f k (z * r)) (vega_at phi D f k r) x y Y) as (z & E & Q).
    - intros z Q. unfold vega_at. replace (D * f * r * phi (d_one f k (z * r))) with (D * f * phi (d_one f k (z * r)) * r) by ring.
      apply (derivable_pt_lim_comp (fun z => z * r) (fun s => black pc N D f k s)).
      + pose proof (derivable_pt_lim_scal (fun z => z) r z 1 (derivable_pt_lim_id z)) as Q'. rewrite Rmult_1_r in Q'.
        eapply derivable_pt_lim_ext; [|exact Q']. intros t. unfold mult_real_fct. ring.
      + apply black_in_sd; auto. apply Rmult_lt_0_compat; lra.
    - exists z. auto.
  Qed.

  (** At the money it falls with the volatility. *)
  Lemma vega_money phi c D f r z : (forall x, derivable_pt_lim N x (phi x)) -> (forall x, derivable_pt_lim N x (c * exp (- (x * x / 2)))) ->
    0 < f -> 0 < r -> 0 < z -> vega_at phi D f f r z = D * f * r * (c * exp (- (z * r * (z * r) / 8))).
  Proof.
    intros PH DN Hf Hr Hz. unfold vega_at. f_equal.
    rewrite (uniqueness_limite N _ _ _ (PH _) (DN _)). f_equal. f_equal. unfold d_one. replace (f / f) with 1 by (field; lra). rewrite ln_1.
    assert (z * r <> 0) by (apply Rmult_integral_contrapositive; lra). field; repeat split; lra.
  Qed.

  Lemma vega_falls phi D f r y z : (forall x, derivable_pt_lim N x (phi x)) -> 0 < D -> 0 < f -> 0 < r -> 0 < y < z ->
    vega_at phi D f f r z < vega_at phi D f f r y.
  Proof.
    intros PH Hd Hf Hr Hy. destruct (nc_density N HN) as (c & Hc & DN). rewrite !(vega_money phi c) by (auto; lra).
    assert (0 < D * f * r) by (repeat (apply Rmult_lt_0_compat; try lra)). apply Rmult_lt_compat_l; [assumption|]. apply Rmult_lt_compat_l; [exact Hc|].
    apply exp_increasing. assert (y * r < z * r) by (apply Rmult_lt_compat_r; lra). assert (0 < y * r) by (apply Rmult_lt_0_compat; lra). nra.
  Qed.

  Lemma money_concave pc D f r x y : 0 < D -> 0 < f -> 0 < r -> 0 < x < y ->
    (black pc N D f f (x * r) + black pc N D f f (y * r)) / 2 < black pc N D f f ((x + y) / 2 * r).
  Proof.
    intros Hd Hf Hr Hx. destruct (nc_density N HN) as (c & Hc & DN). set (m := (x + y) / 2). assert (M : x < m < y) by (unfold m; lra).
    destruct (black_vol_mean _ pc D f f r x m DN Hf Hf Hr ltac:(lra)) as (z & Z & Ez).
    destruct (black_vol_mean _ pc D f f r m y DN Hf Hf Hr ltac:(lra)) as (z' & Z' & Ez').
    pose proof (vega_falls _ D f r z z' DN Hd Hf Hr ltac:(lra)) as V. replace (y - m) with (m - x) in Ez' by (unfold m; lra).
    assert (0 < m - x) by lra. nra.
  Qed.
End Normal.

Section Option.
  Variables (nan : R) (N : R -> R).
  Variables (w : R) (v : vanilla R) (k : R) (id cr : string) (cur : currency R) (st : date_rule R).
  Hypothesis U : van_underlying v = IEquity id cr cur st.
  Notation opt := (ISpotEuropean v k).
  Notation u := (van_underlying v).
  Notation expiry := (dt_date (van_expiry v)).

  Lemma option_bumped md sp p' x y : (md_spot_date md < expiry)%Z -> self_pricer_new nan [(w, opt)] md = Ok sp ->
    bumps_to nan (sp_context sp) p' -> md_spot_date (pf_data p') = md_spot_date md -> get id (md_spots (pf_data p')) = Some x ->
    self_price nan N (mkSelfPricer [(w, opt)] p') = Ok y ->
    exists F D disp sd, forward_if nan (pf_data p') u expiry x F /\ other_inputs nan (pf_data p') v k D disp sd /\
      0 <= F - disp /\ y = w * black (van_put_or_call v) N D (F - disp) (k + disp) sd.
  Proof.
    intros Live E B SD G P. assert (E' := E). unfold self_pricer_new in E'. apply bind_ok in E' as (deps & DE & E').
    destruct (one_option w v k id cr cur st U _ _ DE) as (l & CA & AL & ON & _).
    pose proof (pricer_fresh nan [(w, opt)] md l sp p' E AL ON B SD) as FR.
    exact (option_today nan N w v k id cr cur st U (pf_data p') _ x y ltac:(rewrite SD; exact Live) FR P G).
  Qed.

  (** A surface at its own start. *)
  Lemma inputs_started md S vol t D disp sd : get id (md_vols md) = Some S -> (0 <= md_spot_date md)%Z -> ddf_date (vs_base S) = md_spot_date md -> 0 <= ddf_frac (vs_base S) ->
    volatility_is nan S (van_expiry_time v) k vol t -> 0 <= vol -> 0 <= t -> other_inputs nan md v k D disp sd ->
    displacement nan S expiry = Ok disp /\ sd = vol * sqrt t.
  Proof.
    intros G POS BD FR V V0 T0 (yc & S' & pay & s & r & now & q & A1 & A2 & A3 & A4 & A5 & A6 & A7 & A8 & A9 & A10).
    unfold md_vol_surface in A6. rewrite U in A6. cbn [instrument_id] in A6. unfold find_data in A6. rewrite G in A6. cbn [bind] in A6.
    unfold time_modify in A6. rewrite BD, Z.eqb_refl in A6. cbn [bind] in A6. unfold forward_modify in A6. cbn [vol_forward_dynamics_of] in A6. injection A6 as <-.
    split; [exact A7|]. rewrite U in A8. cbn [time_to_day_fraction dt_date dt_tod] in A8. rnum. rewrite ddf_new_zero in A8. injection A8 as <-.
    rewrite forward_variance_started in A9.
    - rewrite (variance_real nan _ _ _ _ _ V) in A9. assert (Q : q = t * vol ^ 2) by congruence. rewrite A10, Q. rewrite sqrt_mult by (auto; apply pow2_ge_0). rewrite sqrt_pow2 by exact V0. ring.
    - assert (LE : ddf_leb (mkDDF from_nil 0) (mkDDF (md_spot_date md) 0) = true).
      { apply ddf_leb_upto. unfold upto, before. cbn [ddf_date ddf_frac]. unfold from_nil. destruct (Z.eq_dec (md_spot_date md) 0) as [->|]; [now right|left; left; lia]. }
      rewrite LE. unfold upto, before. cbn [ddf_date ddf_frac]. rewrite BD. destruct (vs_base S) as [d f]; cbn [ddf_date ddf_frac] in *. subst d.
      destruct (Req_dec f 0) as [->|]; [now right|]. left. right. split; [reflexivity|lra].
  Qed.

  Definition with_vol (md : market_data R) (S : vol_surface R) : market_data R :=
    mkMarket (md_spot_date md) (md_spots md) (md_yields md) (md_borrows md) (md_divs md) (put id S (md_vols md)).
  Lemma vol_data b p S r p' sv : get id (md_vols (pf_data p)) = Some S -> prefetch_bump nan (BVol id b) p None = (r, p', sv) ->
    pf_data p' = with_vol (pf_data p) (apply_vol b S).
  Proof.
    intros G B. destruct (prefetch_data nan (BVol id b) (VolFor id) p None _ _ _ Logic.I eq_refl B) as (-> & _).
    unfold md_bump. cbn [md_bump_saved]. rewrite (apply_bump_known _ _ _ _ _ G). reflexivity.
  Qed.

  Hypothesis HN : normal_cdf N.

  Lemma option_vega phi md sp s S vol t b value r sp' sv' : (forall x, derivable_pt_lim N x (phi x)) ->
    (0 <= md_spot_date md < expiry)%Z -> self_pricer_new nan [(w, opt)] md = Ok sp ->
    get id (md_spots md) = Some s -> get id (md_vols md) = Some S -> ddf_date (vs_base S) = md_spot_date md -> 0 <= ddf_frac (vs_base S) ->
    volatility_is nan S (van_expiry_time v) k vol t -> 0 < t -> 0 < b < 1 -> b * (1 - b) / (1 + b) < vol -> self_price nan N sp = Ok value ->
    generate nan (self_ops nan N) (VegaVolgaGenerator (FlatAdditive b)) sp saved_prefetch_new value = (Ok r, sp', sv') ->
    exists m vega volga D disp sd F, r = VegaVolgaReport b m /\ get id m = Some (vega, volga) /\
      other_inputs nan md v k D disp sd /\ forward_if nan md u expiry s F /\ sd = vol * sqrt t /\ 0 < D /\
      (disp < F -> 0 < k + disp -> let V := vega_at phi D (F - disp) (k + disp) (sqrt t) in
        (exists z, vol - b * (1 - b) / (1 + b) < z < vol + b /\ vega = w * V z / (1 + b)) /\
        (exists x y, vol < x < vol + b /\ vol - b * (1 - b) / (1 + b) < y < vol /\ volga = w * (V x - (1 - b) / (1 + b) * V y) / b)).
  Proof.
    intros PH [Pos Live] E G GV BD FR VI T0 B0 C0 PV GE.
    assert (E' := E). unfold self_pricer_new in E'. apply bind_ok in E' as (deps & DE & E'). apply bind_ok in E' as (p & PE & E'). injection E' as E'.
    destruct (one_option w v k id cr cur st U _ _ DE) as (l & CA & AL & ON & IF & IV & HW).
    destruct (proj1 (new_spec nan _ _ _ (deps_tidy _ _ l deps CA AL ON)) PE) as (PD & DP & _).
    assert (MD : pf_data (sp_context sp) = md) by (rewrite <- E'; exact PD).
    assert (SI : sp_instruments sp = [(w, opt)]) by (rewrite <- E'; reflexivity).
    destruct (vega_entries nan (self_ops nan N) saved_prefetch_new (self_well_behaved nan N) _ _ _ _ _ _ PV GE) as (ids & m & RI & -> & ALL & EN).
    assert (KN : get id m <> None).
    { apply ALL. unfold reported_ids in RI. cbn in RI. injection RI as <-. rewrite <- E'. cbn [sp_context]. rewrite DP.
      pose proof (kn_instrument_known _ _ (collected _ _ deps l CA AL) u (or_intror (ex_intro (fun d => In (VolOf u d) l) expiry IV))) as K. rewrite U in K. cbn [instrument_id] in K.
      unfold instrument_by_id in K. destruct (get id (col_instruments deps)) eqn:GI; [|congruence]. apply get_in in GI. apply in_map_iff. now exists (id, i). }
    destruct (get id m) as [[vega volga]|] eqn:GM; [|congruence]. clear KN.
    destruct (EN id _ GM) as (x & y & PX & PY & EE). cbn [vol_bumpsize] in EE. cbn [vol_opposite vol_bumpsize] in PY.
    set (d := nsub (ndiv (nsub n1 b) (nadd n1 b)) n1) in *. assert (DD : d = - (2 * b / (1 + b))) by (unfold d; rnum; field; lra).
    cbn [price_after op_bump op_price self_ops] in PX, PY. unfold self_bump in PX, PY.
    destruct (prefetch_bump nan (BVol id (FlatAdditive b)) (sp_context sp) None) as [[r1 p1] sv1] eqn:B1.
    destruct r1 as [r1|e|e]; try discriminate. cbn [sp_context sp_instruments] in PY.
    destruct (prefetch_bump nan (BVol id (FlatAdditive d)) p1 None) as [[r2 p2] sv2] eqn:B2.
    destruct r2 as [r2|e|e]; try discriminate. rewrite SI in PX, PY.
    assert (D1 : pf_data p1 = with_vol md (ParallelBumpVol S b)).
    { rewrite (vol_data _ _ S _ _ _ ltac:(rewrite MD; exact GV) B1), MD. reflexivity. }
    assert (D2 : pf_data p2 = with_vol (with_vol md (ParallelBumpVol S b)) (ParallelBumpVol (ParallelBumpVol S b) d)).
    { rewrite (vol_data _ _ (ParallelBumpVol S b) _ _ _ ltac:(rewrite D1; cbn [with_vol md_vols]; apply get_put_same) B2), D1. reflexivity. }
    destruct (option_today nan N w v k id cr cur st U md sp s _ Live E PV G) as (F & D & disp & sd & FF & OI & _ & VE).
    destruct (option_bumped md sp p1 s x Live E (bt_step _ _ _ _ _ _ _ _ B1 (bt_refl _ _)) ltac:(rewrite D1; reflexivity) ltac:(rewrite D1; exact G) PX)
      as (F1 & D' & disp1 & sd1 & FF1 & OI1 & _ & XE).
    destruct (option_bumped md sp p2 s y Live E (bt_step _ _ _ _ _ _ _ _ B1 (bt_step _ _ _ _ _ _ _ _ B2 (bt_refl _ _))) ltac:(rewrite D2; reflexivity) ltac:(rewrite D2; exact G) PY)
      as (F2 & D'' & disp2 & sd2 & FF2 & OI2 & _ & YE).
    assert (Fsame : forall md' F', md_spot_date md' = md_spot_date md -> md_yields md' = md_yields md -> md_borrows md' = md_borrows md -> md_divs md' = md_divs md ->
      forward_if nan md' u expiry s F' -> F' = F).
    { intros md' F' Q1 Q2 Q3 Q4 (a1 & a2 & a3 & a4 & A1 & A2 & A3 & A4 & A5). destruct FF as (b1 & b2 & b3 & b4 & Y1 & Y2 & Y3 & Y4 & Y5).
      rewrite Q2 in A1. rewrite Q3 in A2. rewrite Q4 in A3. rewrite Q1 in A4. congruence. }
    assert (Dsame : forall md' a1 a2 a3, md_spot_date md' = md_spot_date md -> md_yields md' = md_yields md ->
      other_inputs nan md' v k a1 a2 a3 -> a1 = D).
    { intros md' a1 a2 a3 Q1 Q2 (z1 & z2 & z3 & z4 & z5 & z6 & z7 & A1 & A2 & A3 & A4 & A5 & _).
      destruct OI as (y1 & y2 & y3 & y4 & y5 & y6 & y7 & Y1 & Y2 & Y3 & Y4 & Y5 & _).
      rewrite Q2 in A1. rewrite Q1 in A3. rewrite A1 in Y1. injection Y1 as <-. rewrite A2 in Y2. injection Y2 as <-. rewrite A3 in Y3. injection Y3 as <-.
      rewrite A4 in Y4. injection Y4 as <-. congruence. }
    assert (F1 = F) as -> by (eapply Fsame; [| | | |exact FF1]; rewrite D1; reflexivity).
    assert (F2 = F) as -> by (eapply Fsame; [| | | |exact FF2]; rewrite D2; reflexivity).
    assert (D' = D) as -> by (eapply Dsame; [| |exact OI1]; rewrite D1; reflexivity).
    assert (D'' = D) as -> by (eapply Dsame; [| |exact OI2]; rewrite D2; reflexivity).
    assert (BB : 0 < b * (1 - b) / (1 + b)) by (apply Rdiv_lt_0_compat; [apply Rmult_lt_0_compat|]; lra).
    destruct (inputs_started md S vol t _ _ _ GV Pos BD FR VI ltac:(lra) ltac:(lra) OI) as (DS & ->).
    pose proof (parallel nan _ _ _ _ _ b VI) as VI1. rewrite Rmax_left in VI1 by lra.
    pose proof (parallel nan _ _ _ _ _ d VI1) as VI2.
    assert (DV : vol + b + d = vol - b * (1 - b) / (1 + b)) by (rewrite DD; field; lra). rewrite DV, Rmax_left in VI2 by lra.
    destruct (inputs_started (pf_data p1) (ParallelBumpVol S b) (vol + b) t _ _ _ ltac:(rewrite D1; cbn [with_vol md_vols]; apply get_put_same)
      ltac:(rewrite D1; exact Pos) ltac:(rewrite D1; exact BD) FR VI1 ltac:(lra) ltac:(lra) OI1) as (DS1 & ->).
    destruct (inputs_started (pf_data p2) (ParallelBumpVol (ParallelBumpVol S b) d) (vol - b * (1 - b) / (1 + b)) t _ _ _ ltac:(rewrite D2; cbn [with_vol md_vols]; apply get_put_same)
      ltac:(rewrite D2; exact Pos) ltac:(rewrite D2; exact BD) FR VI2 ltac:(lra) ltac:(lra) OI2) as (DS2 & ->).
    change (displacement nan S expiry = Ok disp1) in DS1. change (displacement nan S expiry = Ok disp2) in DS2.
    assert (disp1 = disp) as -> by congruence. assert (disp2 = disp) as -> by congruence.
    assert (DP0 : 0 < D).
    { destruct OI as (z1 & z2 & z3 & z4 & z5 & z6 & z7 & _ & _ & _ & _ & -> & _). apply Rmult_lt_0_compat; apply exp_pos. }
    exists m, vega, volga, D, disp, (vol * sqrt t), F. repeat (split; [solve [reflexivity | assumption]|]). intros FD KD V.
    assert (RT : 0 < sqrt t) by (apply sqrt_lt_R0; exact T0).
    unfold first_and_second in EE. rnum. injection EE as -> ->. set (pc := van_put_or_call v) in *.
    set (lo := vol - b * (1 - b) / (1 + b)) in *.
    destruct (black_vol_mean N HN phi pc D (F - disp) (k + disp) (sqrt t) lo (vol + b) PH ltac:(lra) KD RT ltac:(unfold lo; lra)) as (z & Z & EZ).
    destruct (black_vol_mean N HN phi pc D (F - disp) (k + disp) (sqrt t) vol (vol + b) PH ltac:(lra) KD RT ltac:(unfold lo; lra)) as (z1 & Z1 & EZ1).
    destruct (black_vol_mean N HN phi pc D (F - disp) (k + disp) (sqrt t) lo vol PH ltac:(lra) KD RT ltac:(unfold lo in *; lra)) as (z2 & Z2 & EZ2).
    fold V in EZ, EZ1, EZ2. replace (vol + b - vol) with b in EZ1 by lra.
    replace (vol + b - lo) with (2 * b / (1 + b)) in EZ by (unfold lo; field; lra).
    replace (vol - lo) with (b * (1 - b) / (1 + b)) in EZ2 by (unfold lo; ring).
    split.
    - exists z. split; [exact Z|]. rewrite XE, YE.
      match goal with |- (w * ?a - w * ?c) / _ = _ => replace (w * a - w * c) with (w * (a - c)) by ring end. rewrite EZ. field. lra.
    - exists z1, z2. split; [exact Z1|]. split; [exact Z2|]. rewrite XE, YE, VE.
      match goal with |- (w * ?a + w * ?c - 2 * (w * ?e)) / _ = _ => replace (w * a + w * c - 2 * (w * e)) with (w * ((a - e) - (e - c))) by ring end.
      rewrite EZ1, EZ2. field. lra.
  Qed.

  (** Its signs. *)
  Lemma option_vega_sign md sp s S vol t b value r sp' sv' :
    (0 <= md_spot_date md < expiry)%Z -> self_pricer_new nan [(w, opt)] md = Ok sp ->
    get id (md_spots md) = Some s -> get id (md_vols md) = Some S -> ddf_date (vs_base S) = md_spot_date md -> 0 <= ddf_frac (vs_base S) ->
    volatility_is nan S (van_expiry_time v) k vol t -> 0 < t -> 0 < b < 1 -> b * (1 - b) / (1 + b) < vol -> self_price nan N sp = Ok value ->
    generate nan (self_ops nan N) (VegaVolgaGenerator (FlatAdditive b)) sp saved_prefetch_new value = (Ok r, sp', sv') -> 0 < w ->
    exists m vega volga D disp sd F, r = VegaVolgaReport b m /\ get id m = Some (vega, volga) /\
      other_inputs nan md v k D disp sd /\ forward_if nan md u expiry s F /\
      (disp < F -> 0 < k + disp -> 0 < vega /\
        (F - disp = k + disp -> (vol + b) * t < 4 -> 0 < volga)).
  Proof.
    intros A1 A2 A3 A4 A5 A6 A7 T0 B0 C0 A11 A12 W. destruct (nc_density N HN) as (c & Hc & DN).
    destruct (option_vega _ md sp s S vol t b value r sp' sv' DN A1 A2 A3 A4 A5 A6 A7 T0 B0 C0 A11 A12)
      as (m & vega & volga & D & disp & sd & F & -> & GM & OI & FF & SE & DP & Q).
    exists m, vega, volga, D, disp, sd, F. repeat (split; [solve [reflexivity | assumption]|]). intros FD KD.
    destruct (Q FD KD) as ((z & Z & ->) & (x & y & X & Y & ->)). clear Q.
    assert (RT : 0 < sqrt t) by (apply sqrt_lt_R0; exact T0).
    assert (BB : 0 < b * (1 - b) / (1 + b)) by (apply Rdiv_lt_0_compat; [apply Rmult_lt_0_compat|]; lra).
    split.
    - apply Rdiv_lt_0_compat; [|lra]. apply Rmult_lt_0_compat; [exact W|]. unfold vega_at.
      repeat (apply Rmult_lt_0_compat; try lra). apply exp_pos.
    - intros FK SM. apply Rdiv_lt_0_compat; [|lra]. apply Rmult_lt_0_compat; [exact W|]. rewrite <- FK.
      rewrite !(vega_money N _ c) by (auto; lra). set (A := D * (F - disp) * sqrt t).
      assert (PA : 0 < A) by (unfold A; repeat (apply Rmult_lt_0_compat; try lra)).
      assert (SQ : forall z, z * sqrt t * (z * sqrt t) = z * z * t).
      { intros q. replace (q * sqrt t * (q * sqrt t)) with (q * q * (sqrt t * sqrt t)) by ring. rewrite sqrt_sqrt by lra. reflexivity. }
      rewrite !SQ. set (ex := exp (- (x * x * t / 8))). set (ey := exp (- (y * y * t / 8))).
      assert (EY : 0 < ey) by apply exp_pos.
      assert (EX : (1 - 2 * b / (1 + b)) * ey < ex).
      { assert (EE : ex = exp (- ((x * x - y * y) * t / 8)) * ey) by (unfold ex, ey; rewrite <- exp_plus; f_equal; field). rewrite EE.
        apply Rmult_lt_compat_r; [exact EY|]. pose proof (exp_ineq1_le (- ((x * x - y * y) * t / 8))) as G.
        assert (WD : x - y < 2 * b / (1 + b)).
        { apply (Rlt_le_trans _ (b + b * (1 - b) / (1 + b))); [lra|]. right. field. lra. }
        assert (P1 : (x + y) * t < 8). { assert (x + y < 2 * (vol + b)) by lra. assert ((x + y) * t < 2 * (vol + b) * t) by (apply Rmult_lt_compat_r; lra). lra. }
        assert (P2 : (x * x - y * y) * t / 8 < 2 * b / (1 + b)); [|lra].
        replace ((x * x - y * y) * t / 8) with ((x - y) * ((x + y) * t / 8)) by field.
        assert (0 < (x + y) * t) by (apply Rmult_lt_0_compat; lra). assert (0 < x - y) by lra. nra. }
      replace (1 - 2 * b / (1 + b)) with ((1 - b) / (1 + b)) in EX by (field; lra).
      assert (AC : 0 < A * c) by (apply Rmult_lt_0_compat; lra).
      replace (A * (c * ex) - (1 - b) / (1 + b) * (A * (c * ey))) with (A * c * (ex - (1 - b) / (1 + b) * ey)) by ring.
      apply Rmult_lt_0_compat; [exact AC|]. lra.
  Qed.
End Option.
