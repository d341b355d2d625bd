(** What a time bump reports for a European option. *)
From Coq Require Import ZArith List String Bool Lia Reals Lra.
From Verif Require Import Prelude Num L_Num M_Dates M_Calendar M_Curves M_Forward M_Vol M_Black76 M_Instruments M_Deps M_Risk M_Reports
  S_Math S_Data S_Vol S_Deps S_Risk S_Reports S_Expectation S_Greeks L_Fixings L_Forward L_ForwardTop L_Vol L_VolTime L_VolCases L_InstrumentCases L_Normal L_Black76 L_Deps L_Risk L_Prefetch L_PrefetchTop L_Reports L_SelfPricer L_SelfReports
  L_BlackGreeks L_Greeks L_Vega.
Import ListNotations.
Open Scope list_scope.
Open Scope R_scope.

Lemma black_price N pc D f k s : black pc N D f k s = D * blacks_price N pc f k s.
Proof.
  assert (P : (ln (f / k) + s * s / 2) / s = dplus f k s).
  { unfold dplus. destruct (Req_dec s 0) as [->|H]; [|field; lra]. unfold Rdiv. ring. }
  assert (M : (ln (f / k) - s * s / 2) / s = dminus f k s).
  { unfold dminus, dplus. destruct (Req_dec s 0) as [->|H]; [|field; lra]. unfold Rdiv. ring. }
  unfold blacks_price, black. cbn zeta. rewrite P, M. destruct pc; [rewrite put_eq|rewrite call_eq]; ring.
Qed.

(** The forward of a share with no dividends but a yield. *)
Lemma forward_no_divs nan md u divs d x F rate borrow : get (instrument_id u) (md_divs md) = Some divs -> dividends divs = [] ->
  get (credit_id u) (md_yields md) = Some rate -> get (instrument_id u) (md_borrows md) = Some borrow ->
  forward_if nan md u d x F -> exists s0 s1 q0 q1 y, apply_rule (settlement u) (md_spot_date md) = Ok s0 /\ apply_rule (settlement u) d = Ok s1 /\
    log_discount_with_borrow nan rate borrow s0 = Ok q0 /\ log_discount_with_borrow nan rate borrow s1 = Ok q1 /\
    rt nan (div_yield divs) s1 = Ok y /\ F = x * exp (q0 - q1 + y).
Proof.
  intros DV NO RT BO (r & b & dv & f & A1 & A2 & A3 & A4 & A5).
  assert (dv = divs) by congruence. assert (r = rate) by congruence. assert (b = borrow) by congruence. subst dv r b. clear A1 A2 A3.
  unfold equity_forward_new, bootstrap_new in A4. rewrite NO in A4. cbn [rev] in A4.
  destruct (log_discount_with_borrow nan rate borrow (md_spot_date md)) as [q|m|m]; cbn [bind] in *; try discriminate.
  destruct (apply_rule (settlement u) (md_spot_date md)) as [s0|m|m]; cbn [bind] in *; try discriminate.
  unfold discount_with_borrow in A4.
  destruct (log_discount_with_borrow nan rate borrow s0) as [q0|m|m] eqn:Q0; cbn [bind] in *; try discriminate.
  injection A4 as <-. cbn [forward_at] in A5.
  assert (SU : discounted_sum_from_base (mkBoot (md_spot_date md) d []) d = Ok 0).
  { unfold discounted_sum_from_base, sum_at. cbn [boot_hwm boot_acc]. rewrite Z.ltb_irrefl. reflexivity. }
  rewrite SU in A5. cbn [bind] in A5.
  destruct (apply_rule (settlement u) d) as [s1|m|m]; cbn [bind] in *; try discriminate.
  destruct (log_discount_with_borrow nan rate borrow s1) as [q1|m|m] eqn:Q1; cbn [bind] in *; try discriminate.
  destruct (rt nan (div_yield divs) s1) as [y|m|m] eqn:Y; cbn [bind] in *; try discriminate.
  assert (FE : forall a : R, Ok a = Ok F -> F = a) by congruence. apply FE in A5. clear FE.
  exists s0, s1, q0, q1, y. rewrite Q0, Q1, Y. repeat (split; [reflexivity|]). rewrite A5. revert A5. rnum. intros _. change (@nexp R RTrans) with exp.
  rewrite Rminus_0_r. rewrite Rmult_assoc, <- exp_plus. do 2 f_equal. ring.
Qed.

(** What a forward that exists is made from. *)
Lemma forward_parts nan md u d x F rate borrow divs : get (credit_id u) (md_yields md) = Some rate -> get (instrument_id u) (md_borrows md) = Some borrow ->
  get (instrument_id u) (md_divs md) = Some divs -> forward_if nan md u d x F ->
  exists f qb s0 q0 p q y, equity_forward_new nan (md_spot_date md) x (settlement u) rate borrow divs d = Ok f /\ forward_at nan f d = Ok F /\
    log_discount_with_borrow nan rate borrow (md_spot_date md) = Ok qb /\ apply_rule (settlement u) (md_spot_date md) = Ok s0 /\
    log_discount_with_borrow nan rate borrow s0 = Ok q0 /\ apply_rule (settlement u) d = Ok p /\
    log_discount_with_borrow nan rate borrow p = Ok q /\ rt nan (div_yield divs) p = Ok y.
Proof.
  intros RT BO DV (r & b & dv & f & A1 & A2 & A3 & A4 & A5).
  assert (dv = divs) by congruence. assert (r = rate) by congruence. assert (b = borrow) by congruence. subst dv r b. clear A1 A2 A3.
  exists f. assert (A4' := A4). unfold equity_forward_new in A4'.
  destruct (log_discount_with_borrow nan rate borrow (md_spot_date md)) as [qb|m|m]; cbn [bind] in *; try discriminate.
  destruct (apply_rule (settlement u) (md_spot_date md)) as [s0|m|m]; cbn [bind] in *; try discriminate.
  unfold discount_with_borrow in A4' at 1.
  destruct (log_discount_with_borrow nan rate borrow s0) as [q0|m|m] eqn:Q0; cbn [bind] in *; try discriminate.
  apply bind_ok in A4' as (boot & _ & A4'). injection A4' as <-. assert (A5' := A5). cbn [forward_at] in A5'.
  apply bind_ok in A5' as (sum & _ & A5').
  destruct (apply_rule (settlement u) d) as [p|m|m]; cbn [bind] in *; try discriminate.
  destruct (log_discount_with_borrow nan rate borrow p) as [q|m|m] eqn:Q; cbn [bind] in *; try discriminate.
  destruct (rt nan (div_yield divs) p) as [y|m|m] eqn:Y; cbn [bind] in *; try discriminate.
  exists qb, s0, q0, p, q, y. auto 10.
Qed.

Lemma total_scale P c disc (l : list (dividend R * R)) : total P (present_value (fun z => c * disc z)) l = c * total P (present_value disc) l.
Proof. induction l as [|(d, a) l IH]; cbn; [ring|]. rewrite IH. unfold present_value. destruct (P (ex_date d)); ring. Qed.
Lemma total_split (P Q S : date -> bool) f (l : list (dividend R * R)) : (forall d a, In (d, a) l -> (if P (ex_date d) then 1 else 0) = (if Q (ex_date d) then 1 else 0) + (if S (ex_date d) then 1 else 0)) ->
  total P f l = total Q f l + total S f l.
Proof.
  induction l as [|(d, a) l IH]; intros H; cbn [total]; [ring|]. rewrite IH by (intros; eapply H; right; eassumption).
  specialize (H d a (or_introl eq_refl)). destruct (P (ex_date d)), (Q (ex_date d)), (S (ex_date d)); lra.
Qed.

(** The forward is kept. *)
Lemma forward_kept nan md u d e s x F F' rate borrow divs : get (credit_id u) (md_yields md) = Some rate -> get (instrument_id u) (md_borrows md) = Some borrow ->
  get (instrument_id u) (md_divs md) = Some divs -> ex_ordered (dividends divs) -> yield_apart divs -> none_on (md_spot_date md) divs -> none_on d divs ->
  (forall dv, In dv (dividends divs) -> (exists q, log_discount_with_borrow nan rate borrow (pay_date dv) = Ok q) /\ (exists q, log_discount_with_borrow nan rate borrow (ex_date dv) = Ok q)) ->
  (md_spot_date md <= d <= e)%Z -> (exists p, apply_rule (settlement u) d = Ok p /\ rt nan (div_yield divs) p = Ok 0) ->
  forward_if nan md u d s x -> forward_if nan md u e s F -> forward_if nan (on_date md d) u e x F' -> F' = F.
Proof.
  intros RT BO DV EO YA N0 N1 KN L (p & AP & Y0) Fx FF FF'.
  destruct (forward_parts _ _ _ _ _ _ _ _ _ RT BO DV Fx) as (f & qb & s0 & q0 & p1 & q1 & y1 & E1 & A1 & QB & S0 & Q0 & P1 & Q1 & Y1).
  destruct (forward_parts _ _ _ _ _ _ _ _ _ RT BO DV FF) as (g & qb2 & s02 & q02 & p2 & q2 & y2 & E2 & A2 & QB2 & S02 & Q02 & P2 & Q2 & Y2).
  destruct (forward_parts _ (on_date md d) _ _ _ _ _ _ _ RT BO DV FF') as (h & qd & s03 & q03 & p3 & q3 & y3 & E3 & A3 & QD & S03 & Q03 & P3 & Q3 & Y3).
  cbn [on_date md_spot_date] in *. set (d0 := md_spot_date md) in *.
  assert (qb2 = qb) by congruence. assert (s02 = s0) by congruence. subst qb2 s02. assert (q02 = q0) by congruence. subst q02. clear QB2 S02 Q02.
  assert (p1 = p) by congruence. subst p1. assert (y1 = 0) by congruence. subst y1. assert (s03 = p) by congruence. subst s03.
  assert (q03 = q1) by congruence. subst q03. assert (p3 = p2) by congruence. subst p3. assert (q3 = q2) by congruence. subst q3. assert (y3 = y2) by congruence. subst y3.
  clear P1 S03 Q03 P3 Q3 Y3 Y1.
  set (disc := fun z => match log_discount_with_borrow nan rate borrow z with Ok q => exp (q - qb) | _ => 0 end).
  assert (DA : forall z q b, log_discount_with_borrow nan rate borrow z = Ok q -> discount_with_borrow nan rate borrow b z = Ok (exp (q - b))).
  { intros z q b Q. unfold discount_with_borrow. rewrite Q. reflexivity. }
  destruct (valued_exists (s * exp (q0 - qb)) disc d0 (dividends divs) EO) as (l & LE & VA).
  assert (PR : priced_dividends nan divs rate borrow (s * exp (q0 - qb)) d0 disc l).
  { constructor; auto. exists qb. split; [exact QB|]. intros dv I _. destruct (KN dv I) as ((qp & QP) & (qe & QE)).
    rewrite (DA _ _ qb QP), (DA _ _ qb QE). unfold disc. rewrite QP, QE. auto. }
  set (c := exp (qb - qd)). assert (C0 : 0 < c) by apply exp_pos.
  set (tot := fun a b => total (after_upto a b) (present_value disc) l).
  assert (DS : forall z q, log_discount_with_borrow nan rate borrow z = Ok q -> discounts nan rate borrow d0 z (exp (q - qb))).
  { intros z q Q. exists qb. split; [exact QB|]. apply DA. exact Q. }
  assert (RE : forall z, (z <= reach divs z)%Z) by (intros z; unfold reach; destruct (dividends divs); lia).
  assert (V1 : x = (s * exp (q0 - qb) - tot d0 d) / exp (q1 - qb) * exp 0).
  { assert (Q := forward_value nan d0 s (settlement u) rate borrow divs d s0 _ disc l S0 (DS _ _ Q0) PR f E1 d p _ 0 N0 (conj (proj1 L) (RE d)) AP (DS _ _ Q1) Y0).
    fold (tot d0 d) in Q. congruence. }
  assert (V2 : F = (s * exp (q0 - qb) - tot d0 e) / exp (q2 - qb) * exp y2).
  { assert (Q := forward_value nan d0 s (settlement u) rate borrow divs e s0 _ disc l S0 (DS _ _ Q0) PR g E2 e p2 _ y2 N0 (conj (Z.le_trans _ _ _ (proj1 L) (proj2 L)) (RE e)) P2 (DS _ _ Q2) Y2).
    fold (tot d0 e) in Q. congruence. }
  assert (XR : x * exp (q1 - qd) = c * (s * exp (q0 - qb) - tot d0 d)).
  { rewrite V1, exp_0. replace (exp (q1 - qd)) with (c * exp (q1 - qb)) by (unfold c; rewrite <- exp_plus; f_equal; ring). field. pose proof (exp_pos (q1 - qb)). lra. }
  assert (NO : forall dv a, In (dv, a) l -> ex_date dv <> d0 /\ ex_date dv <> d).
  { intros dv a I. assert (I' : In dv (dividends divs)) by (rewrite <- LE; apply in_map_iff; now exists (dv, a)). split; [now apply N0|now apply N1]. }
  assert (PR' : priced_dividends nan divs rate borrow (x * exp (q1 - qd)) d (fun z => c * disc z) l).
  { constructor; auto.
    - exists qd. split; [exact QD|]. intros dv I _. destruct (KN dv I) as ((qp & QP) & (qe & QE)).
      rewrite (DA _ _ qd QP), (DA _ _ qd QE). unfold disc, c. rewrite QP, QE. rewrite <- !exp_plus. split; do 2 f_equal; ring.
    - intros dv a I G. rewrite (VA dv a I ltac:(lia)). do 2 f_equal. rewrite XR, total_scale.
      rewrite (total_split (fun ex => (d0 <=? ex)%Z && (ex <? ex_date dv)%Z)%bool (after_upto d0 d) (fun ex => (d <=? ex)%Z && (ex <? ex_date dv)%Z)%bool).
      + fold (tot d0 d). assert (disc (ex_date dv) <> 0).
        { unfold disc. assert (I' : In dv (dividends divs)) by (rewrite <- LE; apply in_map_iff; now exists (dv, a)). destruct (KN dv I') as (_ & (qe & ->)). apply Rgt_not_eq, exp_pos. }
        field. lra.
      + intros dv' a' I'. destruct (NO _ _ I'). unfold after_upto.
        destruct (Z.leb_spec d0 (ex_date dv')), (Z.ltb_spec (ex_date dv') (ex_date dv)), (Z.ltb_spec d0 (ex_date dv')), (Z.leb_spec (ex_date dv') d), (Z.leb_spec d (ex_date dv')); cbn [andb]; try lra; lia. }
  assert (DS' : forall z q, log_discount_with_borrow nan rate borrow z = Ok q -> discounts nan rate borrow d z (exp (q - qd))).
  { intros z q Q. exists qd. split; [exact QD|]. apply DA. exact Q. }
  assert (V3 := forward_value nan d x (settlement u) rate borrow divs e p _ (fun z => c * disc z) l AP (DS' _ _ Q1) PR' h E3 e p2 _ y2 N1 (conj (proj2 L) (RE e)) P2 (DS' _ _ Q2) Y2).
  assert (F' = (x * exp (q1 - qd) - total (after_upto d e) (present_value (fun z => c * disc z)) l) / exp (q2 - qd) * exp y2) as -> by congruence.
  rewrite V2, XR, total_scale. fold (tot d e).
  assert (SP : tot d0 e = tot d0 d + tot d e).
  { apply total_split. intros dv a I. destruct (NO _ _ I). unfold after_upto.
    destruct (Z.ltb_spec d0 (ex_date dv)), (Z.leb_spec (ex_date dv) e), (Z.leb_spec (ex_date dv) d), (Z.ltb_spec d (ex_date dv)); cbn [andb]; try lra; lia. }
  rewrite SP. replace (exp (q2 - qd)) with (c * exp (q2 - qb)) by (unfold c; rewrite <- exp_plus; f_equal; ring). field. pose proof (exp_pos (q2 - qb)). lra.
Qed.

(** Without dividends but with a yield it is not: the yield up to the new date is counted again. *)
Lemma forward_grown nan md u d e s x F F' divs y : get (instrument_id u) (md_divs md) = Some divs -> dividends divs = [] ->
  (exists p, apply_rule (settlement u) d = Ok p /\ rt nan (div_yield divs) p = Ok y) ->
  forward_if nan md u d s x -> forward_if nan md u e s F -> forward_if nan (on_date md d) u e x F' -> F' = F * exp y.
Proof.
  intros DV NO (p & AP & Y) Fx FF FF'. assert (Fx' := Fx). destruct Fx' as (rate & borrow & _ & _ & RT & BO & _).
  destruct (forward_no_divs _ _ _ _ _ _ _ _ _ DV NO RT BO Fx) as (s0 & s1 & q0 & q1 & y1 & B1 & B2 & B3 & B4 & B5 & ->).
  destruct (forward_no_divs _ _ _ _ _ _ _ _ _ DV NO RT BO FF) as (s0' & s2 & q0' & q2 & y2 & C1 & C2 & C3 & C4 & C5 & ->).
  destruct (forward_no_divs nan (on_date md d) _ _ _ _ _ _ _ DV NO RT BO FF') as (s1' & s2' & q1' & q2' & y2' & D1 & D2 & D3 & D4 & D5 & ->). cbn [on_date md_spot_date] in D1.
  assert (s0' = s0) by congruence. subst s0'. assert (s1 = p) by congruence. subst s1. assert (s1' = p) by congruence. subst s1'. assert (s2' = s2) by congruence. subst s2'.
  assert (q0' = q0) by congruence. assert (q1' = q1) by congruence. assert (q2' = q2) by congruence. assert (y1 = y) by congruence. assert (y2' = y2) by congruence. subst.
  rewrite !Rmult_assoc, <- !exp_plus. do 2 f_equal. ring.
Qed.

Section Option.
  Variables (nan : R) (N : R -> R).
  Variables (w : R) (v : vanilla R) (k : R) (id cr : string) (cur : currency R) (st : date_rule R).
  Hypothesis U : van_underlying v = IEquity id cr cur st.
  Notation opt := (ISpotEuropean v k).
  Notation u := (van_underlying v).
  Notation expiry := (dt_date (van_expiry v)).

  (** A surface after its start. *)
  Lemma inputs_later md S vol t e D disp sd : get id (md_vols md) = Some S -> (0 <= md_spot_date md)%Z -> ddf_date (vs_base S) <> md_spot_date md ->
    year_fraction (vs_calendar S) (vs_base S) (mkDDF (md_spot_date md) 0) = Ok e -> 1 / 1000000000000 <= e <= t ->
    volatility_is nan S (van_expiry_time v) k vol t -> 0 <= vol -> other_inputs nan md v k D disp sd ->
    displacement nan S expiry = Ok disp /\ sd = vol * sqrt (t - e).
  Proof.
    intros G POS BD YF [E0 E1] V V0 (yc & S' & pay & s & r & now & q & A1 & A2 & A3 & A4 & A5 & A6 & A7 & A8 & A9 & A10).
    unfold md_vol_surface in A6. rewrite U in A6. cbn [instrument_id] in A6. unfold find_data in A6. rewrite G in A6. cbn [bind] in A6.
    apply bind_ok in A6 as (S1 & TM & A6). unfold forward_modify in A6. cbn [vol_forward_dynamics_of] in A6. injection A6 as <-.
    assert (S1 = ConstantExpiry S e (mkDDF (md_spot_date md) 0)) as ->.
    { unfold time_modify in TM. destruct (Z.eqb_spec (md_spot_date md) (ddf_date (vs_base S))); [congruence|]. rewrite ddf_new_zero in TM. cbn [bind] in TM.
      change (@n0 R RNum) with 0 in TM. rewrite YF in TM. cbn [bind] in TM.
      replace (approx_eq e 0 (nlit 1 1000000000000)) with false in TM; [now injection TM as <-|].
      symmetry. unfold approx_eq. rnum. destruct (Rltb_spec (Rabs (e - 0)) (1 / 1000000000000)) as [L|]; [|reflexivity].
      rewrite Rminus_0_r, Rabs_right in L by lra. lra. }
    split; [exact A7|]. rewrite U in A8. cbn [time_to_day_fraction dt_date dt_tod] in A8. rnum. rewrite ddf_new_zero in A8. injection A8 as <-.
    rewrite forward_variance_started in A9.
    - rewrite (variance_real nan _ _ _ _ _ (constant_expiry nan _ _ e (mkDDF (md_spot_date md) 0) _ _ _ V)) in A9. rewrite Rmax_left in A9 by lra.
      assert (Q : q = (t - e) * vol ^ 2) by congruence. rewrite A10, Q. rewrite sqrt_mult by (try apply pow2_ge_0; lra). rewrite sqrt_pow2 by exact V0. ring.
    - assert (LE : ddf_leb (mkDDF from_nil 0) (mkDDF (md_spot_date md) 0) = true).
      { apply ddf_leb_upto. unfold upto, before. cbn [ddf_date ddf_frac]. unfold from_nil. destruct (Z.eq_dec (md_spot_date md) 0) as [->|]; [now right|left; left; lia]. }
      rewrite LE. right. reflexivity.
  Qed.

  (** The pricer moved on to a day before expiry. *)
  Lemma option_moved md sp bt sp' s : (md_spot_date md < bsd_date (bt_spot_date_bump bt) < expiry)%Z -> self_pricer_new nan [(w, opt)] md = Ok sp ->
    get id (md_spots md) = Some s -> self_bump_time nan bt sp = (Ok tt, sp') ->
    let d := bsd_date (bt_spot_date_bump bt) in exists x,
      match bsd_dynamics (bt_spot_date_bump bt) with StickySpot => x = s | StickyForward => forward_if nan md u d s x end /\
      forall y, self_price nan N sp' = Ok y -> exists F D disp sd, forward_if nan (on_date md d) u expiry x F /\
        other_inputs nan (on_date md d) v k D disp sd /\ 0 <= F - disp /\ y = w * black (van_put_or_call v) N D (F - disp) (k + disp) sd.
  Proof.
    intros [L1 L2] E G B. assert (E' := E). unfold self_pricer_new in E'. apply bind_ok in E' as (deps & DE & E'). apply bind_ok in E' as (p & PE & E'). injection E' as E'.
    destruct (one_option w v k id cr cur st U _ _ DE) as (l & CA & AL & ON & IF & IV & HW).
    destruct (one_fixing nan N w v k id cr cur st U _ _ DE) as (FX & IB).
    destruct (proj1 (new_spec nan _ _ _ (deps_tidy _ _ l deps CA AL ON)) PE) as (PD & DP & _).
    destruct (time_bumped nan bt sp sp' B) as (changed & ins' & r & pf' & save' & UI & PB & SP). rewrite <- E' in UI, PB, SP. cbn [sp_context sp_instruments] in UI, PB, SP.
    rewrite nothing_passed in UI.
    2: { intros i u0 f _ I. rewrite DP in I. apply FX in I. subst f. unfold in_window. lia. }
    injection UI as <- <-. subst sp'. cbn zeta.
    pose proof (date_moved nan _ _ _ _ _ _ PB) as (M1 & M2 & M3 & M4 & M5 & M6 & M7 & M8 & M9). rewrite PD in M2, M3, M4, M5, M6, M8, M9. rewrite DP in M9.
    set (d := bsd_date (bt_spot_date_bump bt)) in *.
    pose proof (cache_fresh nan _ _ l deps CA AL ON md p pf' PE (bt_step _ _ _ _ _ _ _ _ PB (bt_refl _ _))) as FR.
    assert (GX : exists x, get id (md_spots (pf_data pf')) = Some x).
    { assert (KI : In id (keys (md_spots (pf_data pf')))) by (rewrite M6; apply get_in in G; apply in_map_iff; now exists (id, s)).
      destruct (get id (md_spots (pf_data pf'))) as [x|] eqn:Q; [now exists x|]. exfalso. revert KI. apply get_none_in. exact Q. }
    destruct GX as (x & GX). exists x. split.
    - destruct (bsd_dynamics (bt_spot_date_bump bt)) eqn:DY.
      + rewrite (M8 eq_refl) in GX. congruence.
      + assert (r = true) as -> by (destruct r; [reflexivity|]; specialize (M7 eq_refl); subst pf'; rewrite PD in M1; lia).
        specialize (M9 eq_refl eq_refl id x (get_in _ _ _ GX)). rewrite IB in M9. destruct M9 as (f & MF & FA).
        unfold md_forward_curve in MF. apply bind_ok in MF as (x' & X' & MF). apply bind_ok in MF as (divs & DV & MF).
        apply bind_ok in MF as (bor & BO & MF). apply bind_ok in MF as (yl & YL & MF).
        assert (FD : forall A (m : smap A) i w a, find_data i m w = Ok a -> get i m = Some a).
        { intros A m i w0 a FE. unfold find_data in FE. destruct (get i m); [congruence|discriminate]. }
        apply FD in X', DV, BO, YL. rewrite U in X' at 1. cbn [instrument_id] in X'. assert (x' = s) by congruence. subst x'.
        exists yl, bor, divs, f. auto.
    - intros y P. destruct (option_priced nan N w v k id cr cur st U _ deps (pf_data pf') pf' x y DE FR ltac:(rewrite M1; exact L2) P GX)
        as (F & D & disp & sd & A1 & A2 & A3 & A4). exists F, D, disp, sd.
      assert (MK : pf_data pf' = mkMarket d (md_spots (pf_data pf')) (md_yields md) (md_borrows md) (md_divs md) (md_vols md)).
      { destruct (pf_data pf'). cbn in M1, M2, M3, M4, M5. subst. reflexivity. }
      rewrite MK in A1, A2. auto.
  Qed.

  Lemma option_theta md sp bt gs s S vol t e value r sp' sv sv' : let d := bsd_date (bt_spot_date_bump bt) in
    (0 <= md_spot_date md)%Z -> (md_spot_date md < d < expiry)%Z -> self_pricer_new nan [(w, opt)] md = Ok sp ->
    get id (md_spots md) = Some s -> get id (md_vols md) = Some S -> ddf_date (vs_base S) = md_spot_date md -> 0 <= ddf_frac (vs_base S) ->
    volatility_is nan S (van_expiry_time v) k vol t -> 0 <= vol ->
    year_fraction (vs_calendar S) (vs_base S) (mkDDF d 0) = Ok e -> 1 / 1000000000000 <= e <= t -> self_price nan N sp = Ok value ->
    generate nan (self_ops nan N) (TimeBumpedGenerator bt gs) sp sv value = (Ok r, sp', sv') ->
    exists price subs D D' disp x F F', r = TimeBumpedReport price (price - value) subs /\
      other_inputs nan md v k D disp (vol * sqrt t) /\ other_inputs nan (on_date md d) v k D' disp (vol * sqrt (t - e)) /\ 0 < D /\ 0 < D' /\
      match bsd_dynamics (bt_spot_date_bump bt) with StickySpot => x = s | StickyForward => forward_if nan md u d s x end /\
      forward_if nan md u expiry s F /\ forward_if nan (on_date md d) u expiry x F' /\
      value = w * (D * blacks_price N (van_put_or_call v) (F - disp) (k + disp) (vol * sqrt t)) /\
      price = w * (D' * blacks_price N (van_put_or_call v) (F' - disp) (k + disp) (vol * sqrt (t - e))).
  Proof.
    intros d Pos Live E G GV BD FR VI V0 YF E0 PV GE. cbn [generate op_bump_time op_price self_ops] in GE.
    destruct (self_bump_time nan bt sp) as [rr clone] eqn:B. destruct rr as [[]|m|m]; try discriminate.
    destruct (self_price nan N clone) as [price|m|m] eqn:PC; try discriminate.
    destruct (generate_each _ gs clone sv price) as [[rs p1] sv1] eqn:GG. destruct rs as [subs|m|m]; cbn [rmap] in GE; try discriminate.
    injection GE as <- _ _.
    destruct (option_moved md sp bt clone s Live E G B) as (x & DX & Q). destruct (Q price PC) as (F' & D' & disp' & sd' & F1 & F2 & _ & F4). clear Q.
    destruct (option_today nan N w v k id cr cur st U md sp s value ltac:(lia) E PV G) as (F & D & disp & sd & A1 & A2 & _ & A4).
    destruct (inputs_started nan N v k id cr cur st U md S vol t _ _ _ GV Pos BD FR VI V0 ltac:(lra) A2) as (DS & ->).
    destruct (inputs_later (on_date md d) S vol t e _ _ _ GV ltac:(cbn; lia) ltac:(cbn; lia) YF E0 VI V0 F2) as (DS' & ->).
    assert (disp' = disp) as -> by congruence.
    exists price, subs, D, D', disp, x, F, F'. split; [reflexivity|]. split; [exact A2|]. split; [exact F2|].
    assert (PD : forall m a b c, other_inputs nan m v k a b c -> 0 < a).
    { intros m a b c (z1 & z2 & z3 & z4 & z5 & z6 & z7 & _ & _ & _ & _ & -> & _). apply Rmult_lt_0_compat; apply exp_pos. }
    rewrite <- !black_price. split; [eauto|]. split; [eauto|]. auto.
  Qed.
End Option.

(** Time decay. *)
Lemma black_decays N pc f k vol t e : normal_cdf N -> 0 < f -> 0 < k -> 0 < vol -> 0 < e < t ->
  blacks_price N pc f k (vol * sqrt (t - e)) < blacks_price N pc f k (vol * sqrt t).
Proof.
  intros HN F K V E. destruct (nc_density N HN) as (c & Hc & DN).
  assert (S0 : 0 < sqrt (t - e)) by (apply sqrt_lt_R0; lra). assert (S1 : sqrt (t - e) < sqrt t) by (apply sqrt_lt_1_alt; lra).
  destruct (black_vol_mean N HN _ pc 1 f k vol (sqrt (t - e)) (sqrt t) DN F K V (conj S0 S1)) as (z & Z & Q).
  rewrite !black_price in Q. rewrite (Rmult_comm vol (sqrt (t - e))), (Rmult_comm vol (sqrt t)).
  assert (0 < vega_at (fun x => c * exp (- (x * x / 2))) 1 f k vol z * (sqrt t - sqrt (t - e))); [|lra].
  apply Rmult_lt_0_compat; [|lra]. unfold vega_at. repeat (apply Rmult_lt_0_compat; try lra). apply exp_pos.
Qed.

Section Decay.
  Variables (nan : R) (N : R -> R).
  Variables (w : R) (v : vanilla R) (k : R) (id cr : string) (cur : currency R) (st : date_rule R).
  Hypothesis U : van_underlying v = IEquity id cr cur st.
  Notation opt := (ISpotEuropean v k).
  Notation u := (van_underlying v).
  Notation expiry := (dt_date (van_expiry v)).
  Hypothesis HN : normal_cdf N.

  Lemma option_decay md sp bt gs s S vol t e value r sp' sv sv' : let d := bsd_date (bt_spot_date_bump bt) in
    (0 <= md_spot_date md)%Z -> (md_spot_date md < d < expiry)%Z -> self_pricer_new nan [(w, opt)] md = Ok sp ->
    get id (md_spots md) = Some s -> get id (md_vols md) = Some S -> ddf_date (vs_base S) = md_spot_date md -> 0 <= ddf_frac (vs_base S) ->
    volatility_is nan S (van_expiry_time v) k vol t -> 0 < vol ->
    year_fraction (vs_calendar S) (vs_base S) (mkDDF d 0) = Ok e -> 1 / 1000000000000 <= e < t -> self_price nan N sp = Ok value ->
    generate nan (self_ops nan N) (TimeBumpedGenerator bt gs) sp sv value = (Ok r, sp', sv') -> 0 < w ->
    exists price theta subs D D' disp sd sd' x F F', r = TimeBumpedReport price theta subs /\
      other_inputs nan md v k D disp sd /\ other_inputs nan (on_date md d) v k D' disp sd' /\
      match bsd_dynamics (bt_spot_date_bump bt) with StickySpot => x = s | StickyForward => forward_if nan md u d s x end /\
      forward_if nan md u expiry s F /\ forward_if nan (on_date md d) u expiry x F' /\
      (F' = F -> disp < F -> 0 < k + disp -> theta < (D' / D - 1) * value /\ (D' = D -> theta < 0)).
  Proof.
    intros d A1 A2 A3 A4 A5 A6 A7 A8 V0 A10 E A12 A13 W.
    destruct (option_theta nan N w v k id cr cur st U md sp bt gs s S vol t e value r sp' sv sv' A1 A2 A3 A4 A5 A6 A7 A8 (Rlt_le _ _ V0) A10 ltac:(lra) A12 A13)
      as (price & subs & D & D' & disp & x & F & F' & -> & O & O' & D0 & D0' & X & FF & FF' & EV & EP).
    do 11 eexists. split; [reflexivity|]. split; [exact O|]. split; [exact O'|]. split; [exact X|]. split; [exact FF|]. split; [exact FF'|].
    intros -> DF KD. pose proof (black_decays N (van_put_or_call v) (F - disp) (k + disp) vol t e HN ltac:(lra) KD V0 ltac:(lra)) as BD.
    set (b' := blacks_price _ _ _ _ (vol * sqrt (t - e))) in *. set (b := blacks_price _ _ _ _ (vol * sqrt t)) in *.
    assert (Q : price - value < (D' / D - 1) * value).
    { rewrite EV, EP. replace ((D' / D - 1) * (w * (D * b))) with (w * D' * b - w * (D * b)) by (field; lra).
      assert (0 < w * D' * (b - b')) by (repeat (apply Rmult_lt_0_compat; try lra)). lra. }
    split; [exact Q|]. intros ->. replace (D / D - 1) with 0 in Q by (field; lra). lra.
  Qed.
End Decay.
