(** The delta and gamma reported for a European option. *)
From Coq Require Import ZArith List String Bool Lia Reals Lra.
From Verif Require Import Prelude Num L_Num M_Dates M_Calendar M_Curves M_Forward M_Vol M_Black76 M_Instruments M_Deps M_Risk M_Reports
  S_Math S_Deps S_Risk S_Reports S_Greeks L_Fixings L_Normal L_Black76 L_ForwardAffine L_Deps L_Risk L_Prefetch L_PrefetchTop L_PricingAny L_SelfReports L_BlackGreeks.
Import ListNotations.
Open Scope list_scope.
Open Scope R_scope.

Section Option.
  Variables (nan : R) (N : R -> R).
  Variables (w : R) (v : vanilla R) (k : R) (id cr : string) (cur : currency R) (st : date_rule R).
  Hypothesis U : van_underlying v = IEquity id cr cur st.
  Notation opt := (ISpotEuropean v k).
  Notation u := (van_underlying v).
  Notation expiry := (dt_date (van_expiry v)).

  Lemma one_option today deps : portfolio_dependencies [(w, opt)] today = Ok deps -> exists l,
    collect_all today [WantSpot opt] = Ok deps /\ all_come_to today [WantSpot opt] l /\ one_per_id l /\
    In (ForwardOf u expiry) l /\ In (VolOf u expiry) l /\ forwards_to id l = [expiry].
  Proof.
    intros E. rewrite portfolio_collects in E. cbn [map snd] in E. destruct (proj1 (collect_total today [WantSpot opt]) (ex_intro _ _ E)) as (l & A).
    exists l. split; [exact E|]. split; [exact A|].
    inversion A as [|? ? l1 ? C R]; subst. inversion R; subst. inversion C as [|? l2 D| | |]; subst. inversion D as [| | | | |? ? l3 D'|]; subst.
    rewrite U in D'. inversion D' as [| |? ? ? ? pay AR| | | |]; subst. cbn [its_spot has_a_spot]. unfold option_asks, its_forward. rewrite U. cbn [its_spot has_a_spot app credit_id instrument_id].
    split; [|split; [|split]].
    - intros a b Ha Hb _.
      assert (X : forall a, named a ([FixingOf id (van_expiry v); Discount (van_credit_id v) (van_pay_date v); Discount cr expiry; ForwardOf (IEquity id cr cur st) expiry; Discount cr pay; SpotOf (IEquity id cr cur st); VolOf (IEquity id cr cur st) expiry]) -> a = IEquity id cr cur st).
      { intros c [I|[(d & I)|(d & I)]]; cbn in I; repeat (destruct I as [I|I]; [try discriminate; try (injection I as <-; reflexivity); try (injection I; intros; subst; reflexivity)|]); destruct I. }
      rewrite (X a Ha), (X b Hb). reflexivity.
    - cbn. auto 10.
    - cbn. auto 10.
    - cbn [forwards_to flat_map instrument_id]. unfold forwards_to. cbn [flat_map instrument_id app]. rewrite String.eqb_refl. reflexivity.
  Qed.

  (** It has one fixing, at expiry, and one instrument is looked up. *)
  Lemma one_fixing today deps : portfolio_dependencies [(w, opt)] today = Ok deps ->
    (forall i f, In f (fixings_of i deps) -> f = van_expiry v) /\ instrument_by_id id deps = Some u.
  Proof.
    intros E. destruct (one_option _ _ E) as (l & CA & AL & ON & _ & IV & _). pose proof (collected _ _ deps l CA AL) as K.
    split.
    - intros i f. rewrite (kn_fixings _ _ K). clear -AL U.
      inversion AL as [|? ? l1 ? C R]; subst. inversion R; subst. inversion C as [|? l2 D| | |]; subst. inversion D as [| | | | |? ? l3 D'|]; subst.
      rewrite U in D'. inversion D' as [| |? ? ? ? pay AR| | | |]; subst. cbn [its_spot has_a_spot]. unfold option_asks, its_forward. rewrite U. cbn [its_spot has_a_spot app credit_id instrument_id].
      unfold fixings_asked. cbn [flat_map app]. destruct (String.eqb id i); cbn; intuition.
    - pose proof (kn_instrument_known _ _ K u (or_intror (ex_intro (fun d => In (VolOf u d) l) expiry IV))) as KN. rewrite U in KN. cbn [instrument_id] in KN.
      destruct (instrument_by_id id deps) as [u'|] eqn:GI; [|congruence]. destruct (kn_instrument _ _ K id u' GI) as (NM & A). f_equal.
      apply ON.
      + unfold named. tauto.
      + unfold named. right. right. now exists expiry.
      + rewrite U. exact NM.
  Qed.

  (** From data on any date, when the dependencies were collected on another. *)
  Lemma option_priced today deps md p x y : portfolio_dependencies [(w, opt)] today = Ok deps -> prefetch_new nan md deps = Ok p ->
    (md_spot_date md < expiry)%Z -> self_price nan N (mkSelfPricer [(w, opt)] p) = Ok y ->
    get id (md_spots md) = Some x -> exists F D disp sd, forward_if nan md u expiry x F /\ other_inputs nan md v k D disp sd /\
      0 <= F - disp /\ y = w * black (van_put_or_call v) N D (F - disp) (k + disp) sd.
  Proof.
    intros DE PE Live P X.
    destruct (one_option _ _ DE) as (l & CA & AL & ON & IF & IV & HW).
    destruct (proj1 (new_spec nan _ _ _ (deps_tidy _ _ l deps CA AL ON)) PE) as (PD & _).
    destruct (cache_answers nan _ _ l deps CA AL ON md p PE) as (CF & CV).
    destruct (CF u expiry IF) as (h & f & HH & MF & CXF). destruct (CV u expiry expiry IF IV) as (h' & vol & _ & MV & CXV).
    assert (h = expiry) as ->.
    { pose proof (kn_forward _ _ (collected _ _ deps l CA AL) u) as L. rewrite HH in L. rewrite U in L. cbn [instrument_id] in L. rewrite HW in L.
      destruct L as [[L|[]] _]. congruence. }
    unfold self_price in P. cbn [sp_instruments sp_context foldM snd fst] in P. apply bind_ok in P as (t & P & P'). cbn [foldM] in P'. injection P' as <-.
    apply bind_ok in P as (z & P & T). injection T as <-.
    unfold price, first_price in P. apply bind_ok in P as (zs & PS & P). destruct zs as [|z' rest]; [discriminate|]. injection P as ->.
    set (c := prefetch_context nan p) in *.
    assert (LE : dt_leb (mkDT (ctx_spot_date c) Open_) (van_expiry v) = true).
    { subst c. cbn [prefetch_context ctx_spot_date]. rewrite PD. unfold dt_leb, dt_ltb. cbn [dt_date].
      replace (expiry <? md_spot_date md)%Z with false by (symmetry; apply Z.ltb_ge; lia).
      replace (expiry =? md_spot_date md)%Z with false by (symmetry; apply Z.eqb_neq; lia). reflexivity. }
    destruct (L_PricingAny.spot_black nan N c v k _ _ PS 0%nat _ z eq_refl LE eq_refl)
      as (F & yc & vol' & disp & pay & sd & r & now & q & PF & YC & VS & DI & RP & AR & RS & TN & FV & NF & NQ & ->).
    exists F, (exp (- pay) * exp r), disp, (sqrt q).
    assert (SD : ctx_spot_date c = md_spot_date md) by (subst c; cbn [prefetch_context ctx_spot_date]; now rewrite PD).
    split; [|split; [|split]].
    - unfold md_forward_curve in MF. apply bind_ok in MF as (x' & X' & MF). apply bind_ok in MF as (divs & DV & MF).
      apply bind_ok in MF as (bor & BO & MF). apply bind_ok in MF as (yl & YL & MF).
      assert (FD : forall A (m : smap A) i w a, find_data i m w = Ok a -> get i m = Some a).
      { intros A m i w0 a FE. unfold find_data in FE. destruct (get i m); [congruence|discriminate]. }
      apply FD in X', DV, BO, YL. rewrite U in X' at 1. cbn [instrument_id] in X'. assert (x' = x) by congruence. subst x'.
      exists yl, bor, divs, f. repeat (split; [assumption|]).
      unfold price, first_price in PF. rewrite U in PF at 1. cbn [prices last dt_date] in PF.
      rewrite SD in PF. replace (expiry =? md_spot_date md)%Z with false in PF by (symmetry; apply Z.eqb_neq; lia).
      rewrite <- U in PF. rewrite CXF in PF. cbn [bind mapM] in PF. destruct (forward_at nan f expiry); cbn [bind] in PF; congruence.
    - exists yc, vol', pay, sd, r, now, q. cbn zeta. rewrite <- SD. rewrite CXV in VS. injection VS as <-.
      assert (YC' : get (credit_id u) (md_yields md) = Some yc).
      { subst c. cbn [prefetch_context ctx_yield_curve md_context] in YC. rewrite PD in YC. unfold find_data in YC.
        destruct (get (credit_id u) (md_yields md)); [congruence|discriminate]. }
      repeat split; try assumption. exact (MV (Err "")).
    - revert NF. rnum. intros NF. destruct (Rltb_spec (F - disp) 0); [discriminate|lra].
    - rnum. unfold black, L_PricingAny.black. destruct (van_put_or_call v); lra.
  Qed.

  Lemma option_today md sp x y : (md_spot_date md < expiry)%Z -> self_pricer_new nan [(w, opt)] md = Ok sp -> self_price nan N sp = Ok y ->
    get id (md_spots md) = Some x -> exists F D disp sd, forward_if nan md u expiry x F /\ other_inputs nan md v k D disp sd /\
      0 <= F - disp /\ y = w * black (van_put_or_call v) N D (F - disp) (k + disp) sd.
  Proof.
    intros Live E P X. unfold self_pricer_new in E. apply bind_ok in E as (deps & DE & E). apply bind_ok in E as (p & PE & E). injection E as <-.
    exact (option_priced _ deps md p x y DE PE Live P X).
  Qed.

  Definition with_spot (md : market_data R) (x : R) : market_data R :=
    mkMarket (md_spot_date md) (put id x (md_spots md)) (md_yields md) (md_borrows md) (md_divs md) (md_vols md).

  Lemma option_elsewhere md sp s x y : (md_spot_date md < expiry)%Z -> self_pricer_new nan [(w, opt)] md = Ok sp ->
    get id (md_spots md) = Some s -> price_with_spot (self_ops nan N) id x sp = Ok y ->
    exists F D disp sd, forward_if nan md u expiry x F /\ other_inputs nan md v k D disp sd /\
      0 <= F - disp /\ y = w * black (van_put_or_call v) N D (F - disp) (k + disp) sd.
  Proof.
    intros Live E G P. unfold price_with_spot in P. cbn [price_after op_bump op_price self_ops] in P. unfold self_bump in P.
    destruct (prefetch_bump nan (BSpot id (ReplaceSpot x)) (sp_context sp) None) as [[r p'] sv] eqn:B.
    destruct r as [r|m|m]; try discriminate.
    assert (E' := E). unfold self_pricer_new in E'. apply bind_ok in E' as (deps & DE & E'). apply bind_ok in E' as (p & PE & E'). injection E' as E'.
    destruct (one_option _ _ DE) as (l & CA & AL & ON & IF & IV & HW).
    destruct (proj1 (new_spec nan _ _ _ (deps_tidy _ _ l deps CA AL ON)) PE) as (PD & _).
    destruct (prefetch_data nan (BSpot id (ReplaceSpot x)) (SpotFor id) (sp_context sp) None _ _ _ Logic.I eq_refl B) as (DA & _).
    replace (pf_data (sp_context sp)) with md in DA by (rewrite <- E'; exact (eq_sym PD)).
    assert (DB : snd (fst (md_bump (BSpot id (ReplaceSpot x)) md None)) = with_spot md x).
    { unfold md_bump. cbn [md_bump_saved]. rewrite (apply_bump_known _ _ _ _ _ G). reflexivity. }
    rewrite DB in DA.
    assert (FR : self_pricer_new nan [(w, opt)] (with_spot md x) = Ok (mkSelfPricer [(w, opt)] p')).
    { rewrite <- DA. apply (pricer_fresh nan [(w, opt)] md l sp p' E AL ON); [|rewrite DA; reflexivity].
      eapply bt_step; [exact B|apply bt_refl]. }
    replace (sp_instruments sp) with [(w, opt)] in P by (rewrite <- E'; reflexivity).
    destruct (option_today (with_spot md x) _ x y Live FR P) as (F & D & disp & sd & A1 & A2 & A3 & A4).
    { cbn [with_spot md_spots]. apply get_put_same. }
    exists F, D, disp, sd. auto.
  Qed.

  Lemma other_same md D disp sd D' disp' sd' : other_inputs nan md v k D disp sd -> other_inputs nan md v k D' disp' sd' ->
    D = D' /\ disp = disp' /\ sd = sd'.
  Proof.
    intros (yc & vol & pay & s & r & now & q & A1 & A2 & A3 & A4 & -> & A6 & A7 & A8 & A9 & ->)
      (yc' & vol' & pay' & s' & r' & now' & q' & B1 & B2 & B3 & B4 & -> & B6 & B7 & B8 & B9 & ->).
    rewrite A1 in B1. injection B1 as <-. rewrite A2 in B2. injection B2 as <-. rewrite A3 in B3. injection B3 as <-.
    rewrite A4 in B4. injection B4 as <-. rewrite A6 in B6. injection B6 as <-. rewrite A7 in B7. injection B7 as <-.
    rewrite A8 in B8. injection B8 as <-. rewrite A9 in B9. injection B9 as <-. auto.
  Qed.

  Lemma forward_between md l x y F G K : forward_if nan md u expiry x F -> forward_if nan md u expiry y G ->
    forward_if nan md u expiry (l * x + (1 - l) * y) K -> K = l * F + (1 - l) * G.
  Proof.
    intros (r1 & b1 & d1 & f & A1 & A2 & A3 & A4 & A5) (r2 & b2 & d2 & g & B1 & B2 & B3 & B4 & B5) (r3 & b3 & d3 & h & C1 & C2 & C3 & C4 & C5).
    rewrite A1 in B1, C1. injection B1 as <-. injection C1 as <-. rewrite A2 in B2, C2. injection B2 as <-. injection C2 as <-.
    rewrite A3 in B3, C3. injection B3 as <-. injection C3 as <-.
    exact (forward_mixed nan l _ _ _ _ _ _ _ _ _ _ _ _ _ _ _ A4 B4 C4 A5 B5 C5).
  Qed.

  Lemma forward_plain md divs x y F G : get id (md_divs md) = Some divs -> dividends divs = [] ->
    forward_if nan md u expiry x F -> forward_if nan md u expiry y G -> F * y = G * x.
  Proof.
    intros DV NO (r1 & b1 & d1 & f & A1 & A2 & A3 & A4 & A5) (r2 & b2 & d2 & g & B1 & B2 & B3 & B4 & B5).
    assert (d1 = divs) as -> by (rewrite U in A3; cbn [instrument_id] in A3; congruence).
    rewrite A1 in B1. injection B1 as <-. rewrite A2 in B2. injection B2 as <-. rewrite A3 in B3. injection B3 as <-.
    unfold equity_forward_new, bootstrap_new in A4, B4. rewrite NO in A4, B4. cbn [rev] in A4, B4.
    destruct (log_discount_with_borrow nan r1 b1 _) as [q|m|m]; cbn [bind] in *; try discriminate.
    destruct (apply_rule (settlement u) _) as [sd|m|m]; cbn [bind] in *; try discriminate.
    destruct (discount_with_borrow nan r1 b1 q sd) as [x0|m|m]; cbn [bind] in *; try discriminate.
    injection A4 as <-. injection B4 as <-. cbn [forward_at] in A5, B5.
    assert (SU : discounted_sum_from_base (mkBoot (md_spot_date md) expiry []) expiry = Ok 0).
    { unfold discounted_sum_from_base, sum_at. cbn [boot_hwm boot_acc]. rewrite Z.ltb_irrefl. reflexivity. }
    rewrite SU in A5, B5. cbn [bind] in A5, B5.
    destruct (apply_rule (settlement u) expiry) as [pay|m|m]; cbn [bind] in *; try discriminate.
    destruct (log_discount_with_borrow nan r1 b1 pay) as [ld|m|m]; cbn [bind] in *; try discriminate.
    destruct (rt nan (div_yield divs) pay) as [yl|m|m]; cbn [bind] in *; try discriminate.
    injection A5 as <-. injection B5 as <-. rnum. ring.
  Qed.

  Hypothesis HN : normal_cdf N.

  Lemma option_greeks md sp s h value r sp' sv' : (md_spot_date md < expiry)%Z -> self_pricer_new nan [(w, opt)] md = Ok sp ->
    get id (md_spots md) = Some s -> 0 < s -> 0 < h < 1 -> self_price nan N sp = Ok value ->
    generate nan (self_ops nan N) (DeltaGammaGenerator h) sp saved_prefetch_new value = (Ok r, sp', sv') ->
    exists m delta gamma D disp sd down here up, r = DeltaGammaReport h m /\ get id m = Some (delta, gamma) /\
      other_inputs nan md v k D disp sd /\
      forward_if nan md u expiry (s * (1 - h)) down /\ forward_if nan md u expiry s here /\ forward_if nan md u expiry (s * (1 + h)) up /\
      here = (down + up) / 2 /\ 0 < D /\
      (disp < down < up -> 0 < k + disp -> 0 < sd ->
        (exists z, down < z < up /\
           delta = w * (D * ((up - down) / (2 * h * s)) * hedge N (van_put_or_call v) (d_one (z - disp) (k + disp) sd))) /\
        Rabs (delta - w * (D * ((up - down) / (2 * h * s)) * hedge N (van_put_or_call v) (d_one (here - disp) (k + disp) sd))) <=
          Rabs w * (D * ((up - down) / (2 * h * s)) * ((up - down) / (2 * (down - disp) * sd))) /\
        (0 < w -> 0 < gamma) /\ (w < 0 -> gamma < 0)).
  Proof.
    intros Live E G S H PV GE.
    assert (E' := E). unfold self_pricer_new in E'. apply bind_ok in E' as (deps & DE & E'). apply bind_ok in E' as (p & PE & E'). injection E' as E'.
    destruct (one_option _ _ DE) as (l & CA & AL & ON & IF & IV & HW).
    destruct (proj1 (new_spec nan _ _ _ (deps_tidy _ _ l deps CA AL ON)) PE) as (PD & DP & _).
    assert (MD : pf_data (sp_context sp) = md) by (rewrite <- E'; exact PD).
    destruct (delta_samples nan N h sp value r sp' sv' ltac:(lra) ltac:(lra) PV GE) as (m & -> & ALL & EN).
    assert (KN : get id m <> None).
    { apply ALL. rewrite <- E'. cbn [sp_context]. rewrite DP.
      pose proof (kn_instrument_known _ _ (collected _ _ deps l CA AL) u (or_intror (ex_intro (fun d => In (VolOf u d) l) expiry IV))) as K. rewrite U in K. cbn [instrument_id] in K.
      unfold instrument_by_id in K. destruct (get id (col_instruments deps)) eqn:GI; [|congruence]. apply get_in in GI. apply in_map_iff. now exists (id, i). }
    destruct (get id m) as [[delta gamma]|] eqn:GM; [|congruence]. clear KN.
    destruct (EN id _ GM) as (s' & x & y & L & PX & PY & EE). rewrite MD in L. cbn [look] in L. rewrite G in L. injection L as <-.
    specialize (EE ltac:(lra)). injection EE as -> ->.
    destruct (option_elsewhere md sp s _ _ Live E G PX) as (up & D & disp & sd & FU & OI & _ & XE).
    destruct (option_elsewhere md sp s _ _ Live E G PY) as (down & D1 & disp1 & sd1 & FD & OI1 & _ & YE).
    destruct (option_today md sp s _ Live E PV G) as (here & D2 & disp2 & sd2 & FH & OI2 & _ & VE).
    destruct (other_same _ _ _ _ _ _ _ OI OI1) as (<- & <- & <-). destruct (other_same _ _ _ _ _ _ _ OI OI2) as (<- & <- & <-).
    assert (MID : here = (down + up) / 2).
    { assert (M := forward_between md (1 / 2) _ _ _ _ here FD FU). replace (1 / 2 * (s * (1 - h)) + (1 - 1 / 2) * (s * (1 + h))) with s in M by lra.
      rewrite (M FH). lra. }
    assert (DP0 : 0 < D).
    { destruct OI as (yc & vol & pay & s0 & r & now & q & _ & _ & _ & _ & -> & _). apply Rmult_lt_0_compat; apply exp_pos. }
    exists m, ((x - y) / (2 * (h * s))), ((x + y - 2 * value) / (h * s * (h * s))), D, disp, sd, down, here, up.
    repeat (split; [solve [reflexivity | assumption]|]). intros F K SD.
    set (pc := van_put_or_call v) in *.
    assert (HS : 0 < h * s) by (apply Rmult_lt_0_compat; lra).
    destruct (black_mean N HN pc D (down - disp) (up - disp) (k + disp) sd ltac:(lra) K SD) as (z & Z & ZE).
    assert (DL : (x - y) / (2 * (h * s)) = w * (D * ((up - down) / (2 * h * s)) * hedge N pc (d_one z (k + disp) sd))).
    { rewrite XE, YE. replace (w * black pc N D (up - disp) (k + disp) sd - w * black pc N D (down - disp) (k + disp) sd) with
        (w * (black pc N D (up - disp) (k + disp) sd - black pc N D (down - disp) (k + disp) sd)) by ring.
      rewrite ZE. field. lra. }
    assert (SL : 0 < D * ((up - down) / (2 * h * s))).
    { apply Rmult_lt_0_compat; [exact DP0|]. apply Rdiv_lt_0_compat; [lra|]. rewrite Rmult_assoc. lra. }
    split; [|split].
    - exists (z + disp). split; [lra|]. replace (z + disp - disp) with z by lra. exact DL.
    - rewrite DL. replace (w * (D * ((up - down) / (2 * h * s)) * hedge N pc (d_one z (k + disp) sd)) -
        w * (D * ((up - down) / (2 * h * s)) * hedge N pc (d_one (here - disp) (k + disp) sd))) with
        (w * (D * ((up - down) / (2 * h * s)) * (hedge N pc (d_one z (k + disp) sd) - hedge N pc (d_one (here - disp) (k + disp) sd)))) by ring.
      rewrite !Rabs_mult. rewrite <- Rabs_mult, (Rabs_right (D * _)) by lra.
      apply Rmult_le_compat_l; [apply Rabs_pos|]. apply Rmult_le_compat_l; [lra|].
      assert (B := hedge_near N HN pc (down - disp) (here - disp) (up - disp) z (k + disp) sd ltac:(lra) ltac:(lra) Z K SD).
      replace (up - disp - (down - disp)) with (up - down) in B by lra. exact B.
    - assert (C := black_convex N HN pc D (down - disp) (here - disp) (up - disp) (k + disp) sd DP0 ltac:(lra) ltac:(lra) K SD).
      assert (Q : (x + y - 2 * value) / (h * s * (h * s)) = w * ((black pc N D (up - disp) (k + disp) sd + black pc N D (down - disp) (k + disp) sd
        - 2 * black pc N D (here - disp) (k + disp) sd) / (h * s * (h * s)))).
      { rewrite XE, YE, VE. field. lra. }
      rewrite Q. assert (0 < h * s * (h * s)) by (apply Rmult_lt_0_compat; lra).
      match goal with |- context [w * (?a / ?b)] => assert (0 < a / b) by (apply Rdiv_lt_0_compat; lra); generalize dependent (a / b) end.
      intros c _ C0. split; intros W; nra.
  Qed.
  (** Without dividends. *)
  Lemma plain_greeks md sp s h divs value r sp' sv' : (md_spot_date md < expiry)%Z -> self_pricer_new nan [(w, opt)] md = Ok sp ->
    get id (md_spots md) = Some s -> 0 < s -> 0 < h < 1 -> get id (md_divs md) = Some divs -> dividends divs = [] -> self_price nan N sp = Ok value ->
    generate nan (self_ops nan N) (DeltaGammaGenerator h) sp saved_prefetch_new value = (Ok r, sp', sv') ->
    exists m delta gamma D disp sd F, r = DeltaGammaReport h m /\ get id m = Some (delta, gamma) /\
      other_inputs nan md v k D disp sd /\ forward_if nan md u expiry s F /\
      (0 < F -> disp < F * (1 - h) -> 0 < k + disp -> 0 < sd ->
        (exists z, F * (1 - h) < z < F * (1 + h) /\ delta = w * (D * (F / s) * hedge N (van_put_or_call v) (d_one (z - disp) (k + disp) sd))) /\
        Rabs (delta - w * (D * (F / s) * hedge N (van_put_or_call v) (d_one (F - disp) (k + disp) sd))) <=
          Rabs w * (D * (F / s) * (h * F / ((F * (1 - h) - disp) * sd)))).
  Proof.
    intros Live E G S H DV NO PV GE.
    destruct (option_greeks md sp s h value r sp' sv' Live E G S H PV GE)
      as (m & delta & gamma & D & disp & sd & down & F & up & -> & GM & OI & FD & FH & FU & MID & DP & Q).
    assert (DE : down = F * (1 - h)).
    { assert (X := forward_plain md divs _ _ _ _ DV NO FD FH). apply (Rmult_eq_reg_r s); [|lra]. rewrite X. ring. }
    assert (UE : up = F * (1 + h)).
    { assert (X := forward_plain md divs _ _ _ _ DV NO FU FH). apply (Rmult_eq_reg_r s); [|lra]. rewrite X. ring. }
    exists m, delta, gamma, D, disp, sd, F. repeat (split; [solve [reflexivity | assumption]|]). intros F0 DF K SD.
    assert (HF : 0 < F * h) by (apply Rmult_lt_0_compat; lra).
    destruct Q as ((z & Z & DL) & B & _); [nra|exact K|exact SD|].
    assert (SL : (up - down) / (2 * h * s) = F / s) by (rewrite UE, DE; field; lra). rewrite SL in DL, B.
    split; [exists z; rewrite <- UE, <- DE; auto|].
    assert (WD : (up - down) / (2 * (down - disp) * sd) = h * F / ((F * (1 - h) - disp) * sd)) by (rewrite UE, DE; field; lra).
    rewrite WD in B. exact B.
  Qed.

  (** Its sign. *)
  Lemma hedge_sign x : match van_put_or_call v with Call => 0 < hedge N Call x < 1 | Put => -1 < hedge N Put x < 0 end.
  Proof. pose proof (cdf_pos N HN x). pose proof (cdf_lt_1 N HN x). destruct (van_put_or_call v); cbn [hedge]; lra. Qed.
  Lemma option_signs md sp s h value r sp' sv' : (md_spot_date md < expiry)%Z -> self_pricer_new nan [(w, opt)] md = Ok sp ->
    get id (md_spots md) = Some s -> 0 < s -> 0 < h < 1 -> self_price nan N sp = Ok value ->
    generate nan (self_ops nan N) (DeltaGammaGenerator h) sp saved_prefetch_new value = (Ok r, sp', sv') -> 0 < w ->
    exists m delta gamma D disp sd down up, r = DeltaGammaReport h m /\ get id m = Some (delta, gamma) /\
      other_inputs nan md v k D disp sd /\ forward_if nan md u expiry (s * (1 - h)) down /\ forward_if nan md u expiry (s * (1 + h)) up /\
      (disp < down < up -> 0 < k + disp -> 0 < sd -> 0 < gamma /\
        match van_put_or_call v with
        | Call => 0 < delta < w * (D * ((up - down) / (2 * h * s)))
        | Put => - (w * (D * ((up - down) / (2 * h * s)))) < delta < 0
        end).
  Proof.
    intros Live E G S H PV GE W.
    destruct (option_greeks md sp s h value r sp' sv' Live E G S H PV GE)
      as (m & delta & gamma & D & disp & sd & down & F & up & -> & GM & OI & FD & FH & FU & MID & DP & Q).
    exists m, delta, gamma, D, disp, sd, down, up. repeat (split; [solve [reflexivity | assumption]|]). intros F0 K SD.
    destruct (Q F0 K SD) as ((z & Z & DL) & _ & GA & _). split; [auto|].
    assert (HS : 0 < 2 * h * s) by (apply Rmult_lt_0_compat; lra).
    assert (A : 0 < w * (D * ((up - down) / (2 * h * s)))).
    { apply Rmult_lt_0_compat; [exact W|]. apply Rmult_lt_0_compat; [exact DP|]. apply Rdiv_lt_0_compat; lra. }
    pose proof (hedge_sign (d_one (z - disp) (k + disp) sd)) as HG.
    replace delta with (w * (D * ((up - down) / (2 * h * s))) * hedge N (van_put_or_call v) (d_one (z - disp) (k + disp) sd)) by (rewrite DL; ring).
    destruct (van_put_or_call v); nra.
  Qed.
End Option.
