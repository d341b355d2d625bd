(** What a time bump reports for an option whose strike is yet to be set. *)
From Coq Require Import ZArith List String Bool Lia Reals Lra.
From Verif Require Import Prelude Num L_Num M_Dates M_Calendar M_Curves M_Forward M_Vol M_Black76 M_Instruments M_Deps M_Risk M_Reports
  S_Math S_Data S_Vol S_Deps S_Risk S_Reports S_Expectation S_Greeks S_Starting L_Fixings L_Forward L_ForwardTop L_Vol L_VolTime L_VolCases L_InstrumentCases L_Deps L_Risk L_Prefetch L_PrefetchTop L_Reports L_SelfPricer L_SelfReports
  L_BlackGreeks L_Theta L_Strikes L_StartGreeks.
Import ListNotations.
Open Scope list_scope.
Open Scope R_scope.

(** Both forwards of a share with no dividends but a yield. *)
Lemma forwards_no_divs nan md u divs e x d F0 F rate borrow : get (instrument_id u) (md_divs md) = Some divs -> dividends divs = [] ->
  get (credit_id u) (md_yields md) = Some rate -> get (instrument_id u) (md_borrows md) = Some borrow ->
  forwards_if nan md u e x d F0 F -> exists s0 s1 s2 q0 q1 q2 y1 y2, apply_rule (settlement u) (md_spot_date md) = Ok s0 /\ apply_rule (settlement u) d = Ok s1 /\
    apply_rule (settlement u) e = Ok s2 /\
    log_discount_with_borrow nan rate borrow s0 = Ok q0 /\ log_discount_with_borrow nan rate borrow s1 = Ok q1 /\ log_discount_with_borrow nan rate borrow s2 = Ok q2 /\
    rt nan (div_yield divs) s1 = Ok y1 /\ rt nan (div_yield divs) s2 = Ok y2 /\ F0 = x * exp (q0 - q1 + y1) /\ F = x * exp (q0 - q2 + y2).
Proof.
  intros DV NO RT BO (r & b & dv & f & A1 & A2 & A3 & A4 & A5 & A6).
  assert (dv = divs) by congruence. assert (r = rate) by congruence. assert (b = borrow) by congruence. subst dv r b. clear A1 A2 A3.
  unfold equity_forward_new, bootstrap_new in A4. rewrite NO in A4. cbn [rev] in A4.
  destruct (log_discount_with_borrow nan rate borrow (md_spot_date md)) as [q|m|m]; cbn [bind] in *; try discriminate.
  destruct (apply_rule (settlement u) (md_spot_date md)) as [s0|m|m]; cbn [bind] in *; try discriminate.
  unfold discount_with_borrow in A4.
  destruct (log_discount_with_borrow nan rate borrow s0) as [q0|m|m] eqn:Q0; cbn [bind] in *; try discriminate.
  injection A4 as <-. cbn [forward_at] in A5, A6.
  assert (SU : forall z a, discounted_sum_from_base (mkBoot (md_spot_date md) e []) z = Ok a -> a = 0).
  { intros z a. unfold discounted_sum_from_base, sum_at. cbn [boot_hwm boot_acc]. destruct (e <? z)%Z; [discriminate|]. cbn. congruence. }
  apply bind_ok in A5 as (a & SA & A5). apply SU in SA. subst a. apply bind_ok in A6 as (a & SA & A6). apply SU in SA. subst a.
  destruct (apply_rule (settlement u) d) as [s1|m|m]; cbn [bind] in *; try discriminate.
  destruct (apply_rule (settlement u) e) as [s2|m|m]; cbn [bind] in *; try discriminate.
  destruct (log_discount_with_borrow nan rate borrow s1) as [q1|m|m] eqn:Q1; cbn [bind] in *; try discriminate.
  destruct (log_discount_with_borrow nan rate borrow s2) as [q2|m|m] eqn:Q2; cbn [bind] in *; try discriminate.
  destruct (rt nan (div_yield divs) s1) as [y1|m|m] eqn:Y1; cbn [bind] in *; try discriminate.
  destruct (rt nan (div_yield divs) s2) as [y2|m|m] eqn:Y2; cbn [bind] in *; try discriminate.
  assert (FE : forall a b : R, Ok a = Ok b -> b = a) by congruence. apply FE in A5, A6. clear FE.
  exists s0, s1, s2, q0, q1, q2, y1, y2. rewrite Q0, Q1, Q2, Y1, Y2. repeat (split; [reflexivity|]).
  revert A5 A6. rnum. change (@nexp R RTrans) with exp. intros -> ->. rewrite !Rminus_0_r, !Rmult_assoc, <- !exp_plus. split; do 2 f_equal; ring.
Qed.

Section Start.
  Variables (nan : R) (N : R -> R).
  Variables (w : R) (v : vanilla R) (fr : R) (d0 : datetime) (x0 : ddf R) (id cr : string) (cur : currency R) (st : date_rule R).
  Hypothesis U : van_underlying v = IEquity id cr cur st.
  Notation opt := (IForwardEuropean v fr d0 x0).
  Notation u := (van_underlying v).
  Notation expiry := (dt_date (van_expiry v)).
  Notation start := (dt_date d0).

  Lemma two_fixings today deps : portfolio_dependencies [(w, opt)] today = Ok deps ->
    (forall i f, In f (fixings_of i deps) -> f = d0 \/ f = van_expiry v) /\ instrument_by_id id deps = Some u.
  Proof.
    intros E. destruct (one_start w v fr d0 x0 id cr cur st U _ _ E) as (l & CA & AL & ON & _ & IV & _). pose proof (collected _ _ deps l CA AL) as K.
    split.
    - intros i f. rewrite (kn_fixings _ _ K). clear -AL U.
      inversion AL as [|? ? l1 ? C R]; subst. inversion R; subst. inversion C as [|? l2 D| | |]; subst. inversion D as [| | | | | |? ? ? ? l3 D']; subst.
      rewrite U in D'. inversion D' as [| |? ? ? ? pay AR| | | |]; subst. cbn [its_spot has_a_spot]. unfold option_asks, its_forward. rewrite U. cbn [its_spot has_a_spot app credit_id instrument_id].
      unfold fixings_asked. cbn [flat_map app]. destruct (String.eqb id i); cbn; intuition.
    - pose proof (kn_instrument_known _ _ K u (or_intror (ex_intro (fun d => In (VolOf u d) l) expiry IV))) as KN. rewrite U in KN. cbn [instrument_id] in KN.
      destruct (instrument_by_id id deps) as [u'|] eqn:GI; [|congruence]. destruct (kn_instrument _ _ K id u' GI) as (NM & A). f_equal.
      apply ON.
      + unfold named. tauto.
      + unfold named. right. right. now exists expiry.
      + rewrite U. exact NM.
  Qed.

  (** The pricer moved on to a day before the strike is set. *)
  Lemma start_moved md sp bt sp' s S : let d := bsd_date (bt_spot_date_bump bt) in
    (md_spot_date md < d < start)%Z -> (d < expiry)%Z -> self_pricer_new nan [(w, opt)] md = Ok sp ->
    get id (md_spots md) = Some s -> get id (md_vols md) = Some S -> no_smile nan S -> displacement nan S expiry = Ok 0 -> self_bump_time nan bt sp = (Ok tt, sp') ->
    exists x,
      match bsd_dynamics (bt_spot_date_bump bt) with StickySpot => x = s | StickyForward => forward_if nan md u d s x end /\
      forall y, self_price nan N sp' = Ok y -> exists F0 F D q, forwards_if nan (on_date md d) u expiry x start F0 F /\
        start_inputs nan (on_date md d) v fr x0 F0 D q /\ y = w * black (van_put_or_call v) N D F (F0 * fr) (sqrt q).
  Proof.
    intros d [L1 L2] L3 E G GV NS DZ B. assert (E' := E). unfold self_pricer_new in E'. apply bind_ok in E' as (deps & DE & E'). apply bind_ok in E' as (p & PE & E'). injection E' as E'.
    destruct (one_start w v fr d0 x0 id cr cur st U _ _ DE) as (l & CA & AL & ON & IF & IV & HW).
    destruct (two_fixings _ _ DE) as (FX & IB).
    destruct (proj1 (new_spec nan _ _ _ (deps_tidy _ _ l deps CA AL ON)) PE) as (PD & DP & _).
    destruct (time_bumped nan bt sp sp' B) as (changed & ins' & r & pf' & save' & UI & PB & SP). rewrite <- E' in UI, PB, SP. cbn [sp_context sp_instruments] in UI, PB, SP.
    rewrite nothing_passed in UI.
    2: { intros i u0 f _ I. rewrite DP in I. apply FX in I. unfold in_window. subst d. destruct I as [-> | ->]; lia. }
    injection UI as <- <-. subst sp'.
    pose proof (date_moved nan _ _ _ _ _ _ PB) as (M1 & M2 & M3 & M4 & M5 & M6 & M7 & M8 & M9). rewrite PD in M2, M3, M4, M5, M6, M8, M9. rewrite DP in M9.
    fold d in M1, M9.
    pose proof (cache_fresh nan _ _ l deps CA AL ON md p pf' PE (bt_step _ _ _ _ _ _ _ _ PB (bt_refl _ _))) as FR.
    assert (GX : exists x, get id (md_spots (pf_data pf')) = Some x).
    { assert (KI : In id (keys (md_spots (pf_data pf')))) by (rewrite M6; apply get_in in G; apply in_map_iff; now exists (id, s)).
      destruct (get id (md_spots (pf_data pf'))) as [x|] eqn:Q; [now exists x|]. exfalso. revert KI. apply get_none_in. exact Q. }
    destruct GX as (x & GX). exists x. split.
    - destruct (bsd_dynamics (bt_spot_date_bump bt)) eqn:DY.
      + rewrite (M8 eq_refl) in GX. congruence.
      + assert (r = true) as -> by (destruct r; [reflexivity|]; specialize (M7 eq_refl); subst pf'; rewrite PD in M1; lia).
        specialize (M9 eq_refl eq_refl id x (get_in _ _ _ GX)). rewrite IB in M9. destruct M9 as (f & MF & FA).
        unfold md_forward_curve in MF. apply bind_ok in MF as (x' & X' & MF). apply bind_ok in MF as (divs & DV & MF).
        apply bind_ok in MF as (bor & BO & MF). apply bind_ok in MF as (yl & YL & MF).
        assert (FD : forall A (m : smap A) i w a, find_data i m w = Ok a -> get i m = Some a).
        { intros A m i w0 a FE. unfold find_data in FE. destruct (get i m); [congruence|discriminate]. }
        apply FD in X', DV, BO, YL. rewrite U in X' at 1. cbn [instrument_id] in X'. assert (x' = s) by congruence. subst x'.
        exists yl, bor, divs, f. auto.
    - intros y P.
      assert (MK : pf_data pf' = mkMarket d (md_spots (pf_data pf')) (md_yields md) (md_borrows md) (md_divs md) (md_vols md)).
      { destruct (pf_data pf'). cbn in M1, M2, M3, M4, M5. subst. reflexivity. }
      destruct (start_priced nan N w v fr d0 x0 id cr cur st U _ deps (pf_data pf') pf' x y S DE FR ltac:(rewrite M1; exact L3) P GX)
        as (F0 & F & D & q & A1 & A2 & A3); [rewrite MK; exact GV|exact NS|exact DZ|]. exists F0, F, D, q.
      rewrite MK in A1, A2. auto.
  Qed.

  (** The variance from when the strike is set, off a flat surface, on any day before that. *)
  Lemma flat_start md vol cal base F0 D q t0 t e : get id (md_vols md) = Some (FlatVolSurface vol cal base) ->
    (ddf_date base <= md_spot_date md < ddf_date x0)%Z ->
    (md_spot_date md <> ddf_date base -> year_fraction cal base (mkDDF (md_spot_date md) 0) = Ok e) ->
    year_fraction cal base x0 = Ok t0 -> year_fraction cal base (van_expiry_time v) = Ok t ->
    e <= t0 -> e <= t -> start_inputs nan md v fr x0 F0 D q -> 0 < D /\ q = (t - t0) * vol ^ 2.
  Proof.
    intros G [B1 B2] YE Y0 Y1 L0 L1 (yc & S' & pay & s & r & now & A1 & A2 & A3 & A4 & A5 & A6 & A8 & A9).
    split; [rewrite A5; apply Rmult_lt_0_compat; apply exp_pos|].
    unfold md_vol_surface in A6. rewrite U in A6. cbn [instrument_id] in A6. unfold find_data in A6. rewrite G in A6. cbn [bind] in A6.
    apply bind_ok in A6 as (S1 & TM & A6). unfold forward_modify in A6. cbn [vol_forward_dynamics_of] in A6. injection A6 as <-.
    rewrite U in A8. cbn [time_to_day_fraction dt_date dt_tod] in A8. rnum. rewrite ddf_new_zero in A8. injection A8 as <-.
    assert (LE : ddf_leb x0 (mkDDF (md_spot_date md) 0) = false).
    { destruct (ddf_leb x0 _) eqn:Q; [|reflexivity]. apply ddf_leb_upto in Q. unfold upto, before in Q. cbn [ddf_date ddf_frac] in Q.
      destruct Q as [[Q|[Q _]]|Q]; [lia|lia|]. rewrite Q in B2. cbn in B2. lia. }
    rewrite LE in A9.
    assert (VS : forall d t, year_fraction cal base d = Ok t -> volatility_is nan (FlatVolSurface vol cal base) d (F0 * fr) vol t).
    { intros d z Y. unfold volatility_is. cbn. rewrite Y. reflexivity. }
    unfold time_modify in TM. cbn [vs_base vs_calendar] in TM. destruct (Z.eqb_spec (md_spot_date md) (ddf_date base)).
    - injection TM as <-. apply forward_variance_none in A9; [|reflexivity|left; cbn [vs_base]; lia]. destruct A9 as [(a & b & A & B & ->) _].
      rewrite (variance_real nan _ _ _ _ _ (VS _ _ Y0)) in A. rewrite (variance_real nan _ _ _ _ _ (VS _ _ Y1)) in B.
      assert (a = t0 * vol ^ 2) by congruence. assert (b = t * vol ^ 2) by congruence. subst. ring.
    - rewrite ddf_new_zero in TM. cbn [bind] in TM. change (@n0 R RNum) with 0 in TM. rewrite (YE n) in TM. cbn [bind] in TM.
      destruct (approx_eq _ _ _).
      + injection TM as <-. apply forward_variance_none in A9; [|reflexivity|left; cbn [vs_base]; lia]. destruct A9 as [(a & b & A & B & ->) _].
        rewrite (variance_real nan _ _ _ _ _ (VS _ _ Y0)) in A. rewrite (variance_real nan _ _ _ _ _ (VS _ _ Y1)) in B.
        assert (a = t0 * vol ^ 2) by congruence. assert (b = t * vol ^ 2) by congruence. subst. ring.
      + cbn [vol_time_dynamics_of] in TM. injection TM as <-. apply forward_variance_none in A9; [|reflexivity|left; cbn [vs_base ddf_date]; lia].
        destruct A9 as [(a & b & A & B & ->) _].
        rewrite (variance_real nan _ _ _ _ _ (constant_expiry nan _ _ e _ _ _ _ (VS _ _ Y0))) in A.
        rewrite (variance_real nan _ _ _ _ _ (constant_expiry nan _ _ e _ _ _ _ (VS _ _ Y1))) in B.
        rewrite Rmax_left in A by lra. rewrite Rmax_left in B by lra.
        assert (a = (t0 - e) * vol ^ 2) by congruence. assert (b = (t - e) * vol ^ 2) by congruence. subst. ring.
  Qed.

  Lemma start_theta md sp bt gs s divs vol cal base t0 t e value r sp' sv sv' : let d := bsd_date (bt_spot_date_bump bt) in
    (0 <= md_spot_date md)%Z -> (md_spot_date md < d < start)%Z -> ddf_date x0 = start -> (d < expiry)%Z -> self_pricer_new nan [(w, opt)] md = Ok sp ->
    get id (md_spots md) = Some s -> 0 < s -> get id (md_divs md) = Some divs -> dividends divs = [] -> 0 < fr ->
    get id (md_vols md) = Some (FlatVolSurface vol cal base) -> ddf_date base = md_spot_date md ->
    year_fraction cal base (mkDDF d 0) = Ok e -> year_fraction cal base x0 = Ok t0 -> year_fraction cal base (van_expiry_time v) = Ok t ->
    0 <= e <= t0 -> t0 <= t -> self_price nan N sp = Ok value ->
    generate nan (self_ops nan N) (TimeBumpedGenerator bt gs) sp sv value = (Ok r, sp', sv') ->
    exists price subs F0 F0' F F' D D' x, r = TimeBumpedReport price (price - value) subs /\
      match bsd_dynamics (bt_spot_date_bump bt) with StickySpot => x = s | StickyForward => forward_if nan md u d s x end /\
      forwards_if nan md u expiry s start F0 F /\ forwards_if nan (on_date md d) u expiry x start F0' F' /\
      start_inputs nan md v fr x0 F0 D ((t - t0) * vol ^ 2) /\ start_inputs nan (on_date md d) v fr x0 F0' D' ((t - t0) * vol ^ 2) /\
      0 < D /\ 0 < F /\ price = value * (D' / D) * (F' / F).
  Proof.
    intros d Pos Live XS LE E G S DV NO FR GV BD YE Y0 Y1 E0 E1 PV GE. cbn [generate op_bump_time op_price self_ops] in GE.
    destruct (self_bump_time nan bt sp) as [rr clone] eqn:B. destruct rr as [[]|m|m]; try discriminate.
    destruct (self_price nan N clone) as [price|m|m] eqn:PC; try discriminate.
    destruct (generate_each _ gs clone sv price) as [[rs p1] sv1] eqn:GG. destruct rs as [subs|m|m]; cbn [rmap] in GE; try discriminate.
    injection GE as <- _ _.
    pose proof (flat_no_smile nan vol cal base) as NS. assert (DZ : displacement nan (FlatVolSurface vol cal base) expiry = Ok 0) by reflexivity.
    destruct (start_moved md sp bt clone s _ Live LE E G GV NS DZ B) as (x & DX & Q). destruct (Q price PC) as (F0' & F' & D' & q' & F1 & F2 & F4). clear Q. fold d in DX, F1, F2.
    destruct (start_today nan N w v fr d0 x0 id cr cur st U md sp s value _ ltac:(lia) E PV G GV NS DZ) as (F0 & F & D & q & A1 & A2 & A4).
    destruct (flat_start md vol cal base F0 D q t0 t 0 GV ltac:(lia) ltac:(congruence) Y0 Y1 ltac:(lra) ltac:(lra) A2) as (D0 & ->).
    destruct (flat_start (on_date md d) vol cal base F0' D' q' t0 t e GV ltac:(cbn; lia) (fun _ => YE) Y0 Y1 ltac:(lra) ltac:(lra) F2) as (D0' & ->).
    destruct (plain_forwards nan v d0 id cr cur st U md divs s F0 F DV NO S A1) as (P0 & P).
    exists price, subs, F0, F0', F, F', D, D', x. repeat (split; [solve [reflexivity | assumption]|]).
    assert (A1' := A1). destruct A1' as (rate & borrow & _ & _ & RT & BO & _).
    assert (DV' : get (instrument_id u) (md_divs md) = Some divs) by (rewrite U; exact DV).
    destruct (forwards_no_divs _ _ _ _ _ _ _ _ _ _ _ DV' NO RT BO A1) as (s0 & s1 & s2 & q0 & q1 & q2 & y1 & y2 & B1 & B2 & B3 & B4 & B5 & B6 & B7 & B8 & EF0 & EF).
    destruct (forwards_no_divs nan (on_date md d) _ _ _ _ _ _ _ _ _ DV' NO RT BO F1) as (s0' & s1' & s2' & q0' & q1' & q2' & y1' & y2' & C1 & C2 & C3 & C4 & C5 & C6 & C7 & C8 & EF0' & EF').
    assert (s1' = s1) by congruence. assert (s2' = s2) by congruence. subst s1' s2'.
    assert (q1' = q1) by congruence. assert (q2' = q2) by congruence. assert (y1' = y1) by congruence. assert (y2' = y2) by congruence. subst q1' q2' y1' y2'.
    set (c := x / s * exp (q0' - q0)).
    assert (EQ0 : F0' = c * F0).
    { rewrite EF0', EF0. unfold c. replace (q0' - q1 + y1) with ((q0' - q0) + (q0 - q1 + y1)) by ring. rewrite exp_plus. field. lra. }
    assert (EQ : F' = c * F).
    { rewrite EF', EF. unfold c. replace (q0' - q2 + y2) with ((q0' - q0) + (q0 - q2 + y2)) by ring. rewrite exp_plus. field. lra. }
    assert (c <> 0).
    { unfold c. intros Z. apply Rmult_integral in Z. destruct Z as [Z|Z]; [|pose proof (exp_pos (q0' - q0)); lra].
      assert (X0 : x = 0) by (apply (Rmult_eq_reg_r (/ s)); [unfold Rdiv in Z; lra|apply Rinv_neq_0_compat; lra]).
      destruct (bsd_dynamics (bt_spot_date_bump bt)); [lra|].
      destruct (forward_no_divs _ _ _ _ _ _ _ _ _ DV' NO RT BO DX) as (? & ? & ? & ? & ? & _ & _ & _ & _ & _ & XE).
      assert (0 < x); [|lra]. rewrite XE. apply Rmult_lt_0_compat; [exact S|apply exp_pos]. }
    assert (K0 : F0 * fr <> 0) by (apply Rgt_not_eq; apply Rmult_lt_0_compat; assumption).
    rewrite F4, A4, EQ0, EQ, Rmult_assoc, black_scaled by assumption. rewrite !black_price. field. lra.
  Qed.

  (** When the forwards are kept: only the discounting changes. *)
  Lemma start_financing md sp bt gs s divs vol cal base t0 t e value r sp' sv sv' : let d := bsd_date (bt_spot_date_bump bt) in
    (0 <= md_spot_date md)%Z -> (md_spot_date md < d < start)%Z -> ddf_date x0 = start -> (d < expiry)%Z -> self_pricer_new nan [(w, opt)] md = Ok sp ->
    get id (md_spots md) = Some s -> 0 < s -> get id (md_divs md) = Some divs -> dividends divs = [] -> 0 < fr ->
    get id (md_vols md) = Some (FlatVolSurface vol cal base) -> ddf_date base = md_spot_date md ->
    year_fraction cal base (mkDDF d 0) = Ok e -> year_fraction cal base x0 = Ok t0 -> year_fraction cal base (van_expiry_time v) = Ok t ->
    0 <= e <= t0 -> t0 <= t -> self_price nan N sp = Ok value ->
    generate nan (self_ops nan N) (TimeBumpedGenerator bt gs) sp sv value = (Ok r, sp', sv') ->
    bsd_dynamics (bt_spot_date_bump bt) = StickyForward -> (exists p, apply_rule st d = Ok p /\ rt nan (div_yield divs) p = Ok 0) ->
    exists price theta subs F0 F0' D D' q q', r = TimeBumpedReport price theta subs /\
      start_inputs nan md v fr x0 F0 D q /\ start_inputs nan (on_date md d) v fr x0 F0' D' q' /\ 0 < D /\ theta = (D' / D - 1) * value.
  Proof.
    intros d Pos Live XS LE E G S DV NO FR GV BD YE Y0 Y1 E0 E1 PV GE SF YZ.
    destruct (start_theta md sp bt gs s divs vol cal base t0 t e value r sp' sv sv' Pos Live XS LE E G S DV NO FR GV BD YE Y0 Y1 E0 E1 PV GE)
      as (price & subs & F0 & F0' & F & F' & D & D' & x & -> & X & FF & FF' & I1 & I2 & D0 & FP & EP).
    rewrite SF in X. fold d in X, FF', I2. exists price, (price - value), subs, F0, F0', D, D'. do 2 eexists. split; [reflexivity|]. split; [exact I1|]. split; [exact I2|]. split; [exact D0|].
    assert (AT : forall m y f g, forwards_if nan m u expiry y start f g -> forward_if nan m u expiry y g).
    { intros m y f g (a & b & c & k & A1 & A2 & A3 & A4 & A5 & A6). exists a, b, c, k. auto. }
    assert (F' = F).
    { rewrite (forward_grown nan md u d expiry s x F F' divs 0); [rewrite exp_0; ring|rewrite U; exact DV|exact NO|rewrite U; exact YZ|exact X|exact (AT _ _ _ _ FF)|exact (AT _ _ _ _ FF')]. }
    subst F'. rewrite EP. field. lra.
  Qed.
End Start.
