(** The delta and gamma reported for an option whose strike is yet to be set. *)
From Coq Require Import ZArith List String Bool Lia Reals Lra.
From Verif Require Import Prelude Num L_Num M_Dates M_Calendar M_Search M_Interp M_Curves M_Forward M_Vol M_Black76 M_Instruments M_Deps M_Risk M_Reports
  S_Math S_Vol S_Deps S_Risk S_Reports S_Greeks S_Starting L_Fixings L_ForwardAffine L_Deps L_Risk L_Prefetch L_PrefetchTop L_PricingAny L_SelfReports L_BlackGreeks
  L_Strikes.
Import ListNotations.
Open Scope list_scope.
Open Scope R_scope.

(** ** Forwards without cash dividends are proportional to the spot *)
Section Scaled.
  Variables (nan c : R).

  Definition scaled : list (accumulation R) -> list (accumulation R) -> Prop :=
    Forall2 (fun a b => acc_ex_date b = acc_ex_date a /\ acc_discounted b = c * acc_discounted a).

  Record scaled_states (a b : boot_state R) : Prop := {
    ss_prev : bs_prev b = bs_prev a;
    ss_disc : bs_disc b = c * bs_disc a;
    ss_prev_disc : bs_prev_disc b = c * bs_prev_disc a;
    ss_acc : scaled (bs_acc a) (bs_acc b)
  }.

  Lemma add_scaled rate borrow q x d a b a' b' : scaled_states a b -> cash d = 0 ->
    boot_add nan rate borrow q x a d = Ok a' -> boot_add nan rate borrow q (c * x) b d = Ok b' -> scaled_states a' b'.
  Proof.
    intros [P D V A] C Ea Eb. unfold boot_add in *.
    destruct (discount_with_borrow nan rate borrow q (pay_date d)) as [v|m|m]; cbn [bind] in *; try discriminate.
    destruct (negb (neqb (relative d) n0)).
    - destruct (discount_with_borrow nan rate borrow q (ex_date d)) as [g|m|m]; cbn [bind] in *; try discriminate.
      injection Ea as <-. injection Eb as <-.
      constructor; cbn [bs_prev bs_disc bs_prev_disc bs_acc]; auto. rewrite D, V, C. rnum. ring.
    - injection Ea as <-. injection Eb as <-.
      constructor; cbn [bs_prev bs_disc bs_prev_disc bs_acc]; auto. rewrite D, C. rnum. ring.
  Qed.

  Lemma loop_scaled rate borrow q x base upto divs : no_cash divs -> forall a b a' b', scaled_states a b ->
    boot_loop nan rate borrow q x base upto divs a = Ok a' -> boot_loop nan rate borrow q (c * x) base upto divs b = Ok b' -> scaled_states a' b'.
  Proof.
    induction divs as [|d rest IH]; intros C a b a' b' S Ea Eb; cbn [boot_loop] in *.
    - injection Ea as <-. now injection Eb as <-.
    - assert (C0 := C d (or_introl eq_refl)). assert (CR : no_cash rest) by (intros e I; apply C; now right).
      destruct (ex_date d <? base)%Z; [now apply (IH CR a b)|].
      rewrite (ss_prev _ _ S) in Eb.
      destruct (ex_date d <? bs_prev a)%Z; [discriminate|].
      destruct (upto <? ex_date d)%Z; [injection Ea as <-; now injection Eb as <-|].
      inv_bind Ea. inv_bind Eb. eapply (IH CR); [|eassumption..]. eapply add_scaled; [|eassumption..].
      destruct (bs_prev a <? ex_date d)%Z; [|exact S]. destruct S as [P D V A].
      constructor; cbn [bs_prev bs_disc bs_prev_disc bs_acc]; auto. apply Forall2_app; [exact A|].
      repeat constructor; cbn [close_acc acc_ex_date acc_discounted]; auto.
  Qed.

  Lemma scaled_map (f g : accumulation R -> accumulation R) la lb :
    (forall a, acc_ex_date (f a) = acc_ex_date a /\ acc_discounted (f a) = acc_discounted a) ->
    (forall a, acc_ex_date (g a) = acc_ex_date a /\ acc_discounted (g a) = acc_discounted a) ->
    scaled la lb -> scaled (map f la) (map g lb).
  Proof.
    intros F G M. induction M as [|a b la lb [D E] M IH]; cbn [map]; constructor; auto.
    destruct (F a) as [-> ->], (G b) as [-> ->]. auto.
  Qed.

  Lemma boot_scaled divs rate borrow x base hwm a b : no_cash (dividends divs) -> bootstrap_new nan divs rate borrow x base hwm = Ok a ->
    bootstrap_new nan divs rate borrow (c * x) base hwm = Ok b ->
    boot_hwm b = boot_hwm a /\ scaled (boot_acc a) (boot_acc b).
  Proof.
    unfold bootstrap_new. intros C Ea Eb. destruct (rev (dividends divs)) as [|final rest].
    - injection Ea as <-. injection Eb as <-. cbn. split; [reflexivity|]. constructor.
    - destruct (negb (is_zero (div_yield divs)) && (base_date (div_yield divs) <? ex_date final)%Z); [discriminate|].
      destruct (log_discount_with_borrow nan rate borrow base) as [q|m|m]; cbn [bind] in *; try discriminate.
      destruct (boot_loop nan rate borrow q x _ _ _ _) as [sa|m|m] eqn:A; cbn [bind] in Ea; try discriminate.
      destruct (boot_loop nan rate borrow q (c * x) _ _ _ _) as [sb|m|m] eqn:B; cbn [bind] in Eb; try discriminate.
      injection Ea as <-. injection Eb as <-. cbn [boot_hwm boot_acc].
      split; [reflexivity|].
      assert (S : scaled_states sa sb).
      { eapply loop_scaled; [exact C| |exact A|exact B]. constructor; cbn; auto; [rnum; ring|rnum; ring|constructor]. }
      destruct S as [P D V AC]. rewrite P.
      match goal with |- scaled (fill_remaining ?la) (fill_remaining ?lb) =>
        destruct (fill_keeps la) as (f & -> & F); destruct (fill_keeps lb) as (g & -> & G); apply scaled_map; auto end.
      match goal with |- scaled (if ?t then _ else _) _ => destruct t; [|exact AC] end.
      apply Forall2_app; [exact AC|]. repeat constructor; cbn [close_acc acc_ex_date acc_discounted]; auto.
  Qed.

  Lemma scaled_nth la lb : scaled la lb -> forall i,
    match nth_error la i, nth_error lb i with
    | Some a, Some b => acc_ex_date b = acc_ex_date a /\ acc_discounted b = c * acc_discounted a
    | None, None => True | _, _ => False end.
  Proof. intros M. induction M as [|a b la lb D M IH]; intros [|i]; cbn [nth_error]; auto. apply IH. Qed.

  Lemma scaled_length la lb : scaled la lb -> List.length lb = List.length la.
  Proof. intros M. induction M; cbn [List.length]; [reflexivity|]. lia. Qed.

  Lemma sum_scaled (a b : bootstrap R) d u v : boot_hwm b = boot_hwm a -> scaled (boot_acc a) (boot_acc b) ->
    discounted_sum_from_base a d = Ok u -> discounted_sum_from_base b d = Ok v -> v = c * u.
  Proof.
    intros H M. unfold discounted_sum_from_base, sum_at. rewrite H. destruct (boot_hwm a <? d)%Z; [discriminate|].
    rewrite (same_search _ (boot_acc b) (boot_acc a) (scaled_length _ _ M)).
    2: { intros i. pose proof (scaled_nth _ _ M i) as X. destruct (nth_error (boot_acc a) i), (nth_error (boot_acc b) i); cbn [option_map]; try easy.
      destruct X as (-> & _). reflexivity. }
    assert (AT : forall i, (let* p := at_ (boot_acc a) i in Ok (acc_discounted p)) = Ok u -> (let* p := at_ (boot_acc b) i in Ok (acc_discounted p)) = Ok v ->
      v = c * u).
    { intros i. unfold at_. pose proof (scaled_nth _ _ M i) as X.
      destruct (nth_error (boot_acc a) i), (nth_error (boot_acc b) i); cbn [bind]; try easy.
      destruct X as (_ & X). intros Ea Eb. injection Ea as <-. injection Eb as <-. exact X. }
    destruct (binary_search_by (boot_acc a) _) as [i|i]; [apply AT|]. destruct (Nat.eqb i 0); [|apply AT].
    intros Ea Eb. injection Ea as <-. injection Eb as <-. rnum. ring.
  Qed.

  Lemma forward_scaled base x settlement rate borrow divs hwm f g d u v : no_cash (dividends divs) ->
    equity_forward_new nan base x settlement rate borrow divs hwm = Ok f -> equity_forward_new nan base (c * x) settlement rate borrow divs hwm = Ok g ->
    forward_at nan f d = Ok u -> forward_at nan g d = Ok v -> v = c * u.
  Proof.
    unfold equity_forward_new. intros C Ef Eg.
    destruct (log_discount_with_borrow nan rate borrow base) as [q|m|m]; cbn [bind] in *; try discriminate.
    destruct (apply_rule settlement base) as [sd|m|m]; cbn [bind] in *; try discriminate.
    destruct (discount_with_borrow nan rate borrow q sd) as [x0|m|m]; cbn [bind] in *; try discriminate.
    replace (nmul (c * x) x0) with (c * nmul x x0) in Eg by (rnum; ring).
    destruct (bootstrap_new nan divs rate borrow (nmul x x0) base hwm) as [ba|m|m] eqn:A; cbn [bind] in Ef; try discriminate.
    destruct (bootstrap_new nan divs rate borrow (c * nmul x x0) base hwm) as [bb|m|m] eqn:B; cbn [bind] in Eg; try discriminate.
    injection Ef as <-. injection Eg as <-. destruct (boot_scaled _ _ _ _ _ _ _ _ C A B) as (H & M).
    cbn [forward_at]. intros Eu Ev.
    destruct (discounted_sum_from_base ba d) as [da|m|m] eqn:Da; cbn [bind] in Eu; try discriminate.
    destruct (discounted_sum_from_base bb d) as [db|m|m] eqn:Db; cbn [bind] in Ev; try discriminate.
    destruct (apply_rule settlement d) as [pay|m|m]; cbn [bind] in *; try discriminate.
    destruct (log_discount_with_borrow nan rate borrow pay) as [ld|m|m]; cbn [bind] in *; try discriminate.
    destruct (rt nan (div_yield divs) pay) as [yl|m|m]; cbn [bind] in *; try discriminate.
    injection Eu as <-. injection Ev as <-. rewrite (sum_scaled ba bb d da db H M Da Db). rnum. ring.
  Qed.
End Scaled.

Lemma black_scaled N pc D F K sd c : c <> 0 -> K <> 0 -> black pc N D (c * F) (c * K) sd = c * black pc N D F K sd.
Proof.
  intros C K0. assert (Q : c * F / (c * K) = F / K) by (field; auto).
  destruct pc; cbn [black]; unfold call_price, put_price, d_plus_minus; rnum; rewrite Q; ring.
Qed.

(** ** Surfaces as they are looked up *)
Lemma looked_up nan md id cr cur st e vol surface : get id (md_vols md) = Some surface ->
  md_vol_surface nan md (IEquity id cr cur st) e (Err "") = Ok vol -> no_smile nan surface ->
  no_smile nan vol /\ forall d, displacement nan vol d = displacement nan surface d.
Proof.
  intros G M NS. unfold md_vol_surface in M. unfold find_data in M. cbn [instrument_id] in M. rewrite G in M. cbn [bind] in M.
  apply bind_ok in M as (s1 & T & M). cbn [vol_forward_dynamics_of forward_modify] in M. assert (s1 = vol) as -> by congruence. clear M.
  unfold time_modify in T. destruct (_ =? _)%Z; [injection T as <-; auto|]. inv_bind T. inv_bind T.
  destruct (approx_eq _ _ _); [injection T as <-; auto|]. cbn [vol_time_dynamics_of] in T. injection T as <-. split; [|reflexivity].
  eapply decorated_no_smile; [exact NS|]. left. eauto.
Qed.

(** ** The option *)
Section Start.
  Variables (nan : R) (N : R -> R).
  Variables (w : R) (v : vanilla R) (fr : R) (d0 : datetime) (x0 : ddf R) (id cr : string) (cur : currency R) (st : date_rule R).
  Hypothesis U : van_underlying v = IEquity id cr cur st.
  Notation opt := (IForwardEuropean v fr d0 x0).
  Notation u := (van_underlying v).
  Notation expiry := (dt_date (van_expiry v)).
  Notation start := (dt_date d0).

  Lemma one_start today deps : portfolio_dependencies [(w, opt)] today = Ok deps -> exists l,
    collect_all today [WantSpot opt] = Ok deps /\ all_come_to today [WantSpot opt] l /\ one_per_id l /\
    In (ForwardOf u expiry) l /\ In (VolOf u expiry) l /\ forwards_to id l = [expiry].
  Proof.
    intros E. rewrite portfolio_collects in E. cbn [map snd] in E. destruct (proj1 (collect_total today [WantSpot opt]) (ex_intro _ _ E)) as (l & A).
    exists l. split; [exact E|]. split; [exact A|].
    inversion A as [|? ? l1 ? C R]; subst. inversion R; subst. inversion C as [|? l2 D| | |]; subst. inversion D as [| | | | | |? ? ? ? l3 D']; subst.
    rewrite U in D'. inversion D' as [| |? ? ? ? pay AR| | | |]; subst. cbn [its_spot has_a_spot]. unfold option_asks, its_forward. rewrite U. cbn [its_spot has_a_spot app credit_id instrument_id].
    split; [|split; [|split]].
    - intros a b Ha Hb _.
      assert (X : forall a, named a ([FixingOf id d0; FixingOf id (van_expiry v); Discount (van_credit_id v) (van_pay_date v); Discount cr expiry; ForwardOf (IEquity id cr cur st) expiry; Discount cr pay; SpotOf (IEquity id cr cur st); VolOf (IEquity id cr cur st) expiry]) -> a = IEquity id cr cur st).
      { intros c [I|[(d & I)|(d & I)]]; cbn in I; repeat (destruct I as [I|I]; [try discriminate; try (injection I as <-; reflexivity); try (injection I; intros; subst; reflexivity)|]); destruct I. }
      rewrite (X a Ha), (X b Hb). reflexivity.
    - cbn. auto 10.
    - cbn. auto 10.
    - cbn [forwards_to flat_map instrument_id]. unfold forwards_to. cbn [flat_map instrument_id app]. rewrite String.eqb_refl. reflexivity.
  Qed.

  Lemma start_priced today deps md p x y surface : portfolio_dependencies [(w, opt)] today = Ok deps -> prefetch_new nan md deps = Ok p ->
    (md_spot_date md < expiry)%Z -> self_price nan N (mkSelfPricer [(w, opt)] p) = Ok y ->
    get id (md_spots md) = Some x -> get id (md_vols md) = Some surface -> no_smile nan surface -> displacement nan surface expiry = Ok 0 ->
    exists F0 F D q, forwards_if nan md u expiry x start F0 F /\ start_inputs nan md v fr x0 F0 D q /\
      y = w * black (van_put_or_call v) N D F (F0 * fr) (sqrt q).
  Proof.
    intros DE PE Live P X SU NS DZ.
    destruct (one_start _ _ DE) as (l & CA & AL & ON & IF & IV & HW).
    destruct (proj1 (new_spec nan _ _ _ (deps_tidy _ _ l deps CA AL ON)) PE) as (PD & _).
    destruct (cache_answers nan _ _ l deps CA AL ON md p PE) as (CF & CV).
    destruct (CF u expiry IF) as (h & f & HH & MF & CXF). destruct (CV u expiry expiry IF IV) as (h' & vol & _ & MV & CXV).
    assert (h = expiry) as ->.
    { pose proof (kn_forward _ _ (collected _ _ deps l CA AL) u) as L. rewrite HH in L. rewrite U in L. cbn [instrument_id] in L. rewrite HW in L.
      destruct L as [[L|[]] _]. congruence. }
    unfold self_price in P. cbn [sp_instruments sp_context foldM snd fst] in P. apply bind_ok in P as (t & P & P'). cbn [foldM] in P'. injection P' as <-.
    apply bind_ok in P as (z & P & T). injection T as <-.
    unfold price, first_price in P. apply bind_ok in P as (zs & PS & P). destruct zs as [|z' rest]; [discriminate|]. injection P as ->.
    set (c := prefetch_context nan p) in *.
    assert (LE : dt_leb (mkDT (ctx_spot_date c) Open_) (van_expiry v) = true).
    { subst c. cbn [prefetch_context ctx_spot_date]. rewrite PD. unfold dt_leb, dt_ltb. cbn [dt_date].
      replace (expiry <? md_spot_date md)%Z with false by (symmetry; apply Z.ltb_ge; lia).
      replace (expiry =? md_spot_date md)%Z with false by (symmetry; apply Z.eqb_neq; lia). reflexivity. }
    destruct (L_PricingAny.forward_black nan N c v fr d0 x0 _ _ PS 0%nat _ z eq_refl LE eq_refl)
      as (F0 & F & yc & vol' & disp & pay & sd & r & now & q & PF & YC & VS & DI & RP & AR & RS & TN & FV & NF & NQ & ->).
    assert (SD : ctx_spot_date c = md_spot_date md) by (subst c; cbn [prefetch_context ctx_spot_date]; now rewrite PD).
    rewrite CXV in VS. injection VS as <-. assert (MV' := MV (Err "")). rewrite U in MV'.
    destruct (looked_up nan md id cr cur st _ vol surface SU MV' NS) as (_ & DD). rewrite DD in DI. rewrite DZ in DI. injection DI as <-.
    exists F0, F, (exp (- pay) * exp r), q.
    split; [|split].
    - unfold md_forward_curve in MF. apply bind_ok in MF as (x' & X' & MF). apply bind_ok in MF as (divs & DV & MF).
      apply bind_ok in MF as (bor & BO & MF). apply bind_ok in MF as (yl & YL & MF).
      assert (FD : forall A (m : smap A) i w a, find_data i m w = Ok a -> get i m = Some a).
      { intros A m i w0 a FE. unfold find_data in FE. destruct (get i m); [congruence|discriminate]. }
      apply FD in X', DV, BO, YL. rewrite U in X' at 1. cbn [instrument_id] in X'. assert (x' = x) by congruence. subst x'.
      exists yl, bor, divs, f. repeat (split; [assumption|]).
      rewrite U in PF at 1. cbn [prices last dt_date] in PF.
      rewrite <- U in PF. rewrite CXF in PF. cbn [bind mapM] in PF. destruct (forward_at nan f start) as [a|m|m]; cbn [bind] in PF; try discriminate.
      destruct (forward_at nan f expiry) as [b|m|m]; cbn [bind] in PF; try discriminate. injection PF as <- <-. auto.
    - exists yc, vol, pay, sd, r, now. cbn zeta. rewrite <- SD.
      assert (YC' : get (credit_id u) (md_yields md) = Some yc).
      { subst c. cbn [prefetch_context ctx_yield_curve md_context] in YC. rewrite PD in YC. unfold find_data in YC.
        destruct (get (credit_id u) (md_yields md)); [congruence|discriminate]. }
      repeat split; try assumption. exact (MV (Err "")).
    - rnum. replace (F - 0) with F by ring. replace (F0 * fr + 0) with (F0 * fr) by ring. unfold black, L_PricingAny.black. destruct (van_put_or_call v); lra.
  Qed.

  Lemma start_today md sp x y surface : (md_spot_date md < expiry)%Z -> self_pricer_new nan [(w, opt)] md = Ok sp -> self_price nan N sp = Ok y ->
    get id (md_spots md) = Some x -> get id (md_vols md) = Some surface -> no_smile nan surface -> displacement nan surface expiry = Ok 0 ->
    exists F0 F D q, forwards_if nan md u expiry x start F0 F /\ start_inputs nan md v fr x0 F0 D q /\
      y = w * black (van_put_or_call v) N D F (F0 * fr) (sqrt q).
  Proof.
    intros Live E P. unfold self_pricer_new in E. apply bind_ok in E as (deps & DE & E). apply bind_ok in E as (p & PE & E). injection E as <-.
    exact (start_priced _ deps md p x y surface DE PE Live P).
  Qed.

  Definition with_spot (md : market_data R) (x : R) : market_data R :=
    mkMarket (md_spot_date md) (put id x (md_spots md)) (md_yields md) (md_borrows md) (md_divs md) (md_vols md).

  Lemma start_elsewhere md sp s x y surface : (md_spot_date md < expiry)%Z -> self_pricer_new nan [(w, opt)] md = Ok sp ->
    get id (md_spots md) = Some s -> get id (md_vols md) = Some surface -> no_smile nan surface -> displacement nan surface expiry = Ok 0 ->
    price_with_spot (self_ops nan N) id x sp = Ok y ->
    exists F0 F D q, forwards_if nan md u expiry x start F0 F /\ start_inputs nan md v fr x0 F0 D q /\
      y = w * black (van_put_or_call v) N D F (F0 * fr) (sqrt q).
  Proof.
    intros Live E G SU NS DZ P. unfold price_with_spot in P. cbn [price_after op_bump op_price self_ops] in P. unfold self_bump in P.
    destruct (prefetch_bump nan (BSpot id (ReplaceSpot x)) (sp_context sp) None) as [[r p'] sv] eqn:B.
    destruct r as [r|m|m]; try discriminate.
    assert (E' := E). unfold self_pricer_new in E'. apply bind_ok in E' as (deps & DE & E'). apply bind_ok in E' as (p & PE & E'). injection E' as E'.
    destruct (one_start _ _ DE) as (l & CA & AL & ON & IF & IV & HW).
    destruct (proj1 (new_spec nan _ _ _ (deps_tidy _ _ l deps CA AL ON)) PE) as (PD & _).
    destruct (prefetch_data nan (BSpot id (ReplaceSpot x)) (SpotFor id) (sp_context sp) None _ _ _ Logic.I eq_refl B) as (DA & _).
    replace (pf_data (sp_context sp)) with md in DA by (rewrite <- E'; exact (eq_sym PD)).
    assert (DB : snd (fst (md_bump (BSpot id (ReplaceSpot x)) md None)) = with_spot md x).
    { unfold md_bump. cbn [md_bump_saved]. rewrite (apply_bump_known _ _ _ _ _ G). reflexivity. }
    rewrite DB in DA.
    assert (FR : self_pricer_new nan [(w, opt)] (with_spot md x) = Ok (mkSelfPricer [(w, opt)] p')).
    { rewrite <- DA. apply (pricer_fresh nan [(w, opt)] md l sp p' E AL ON); [|rewrite DA; reflexivity].
      eapply bt_step; [exact B|apply bt_refl]. }
    replace (sp_instruments sp) with [(w, opt)] in P by (rewrite <- E'; reflexivity).
    destruct (start_today (with_spot md x) _ x y surface Live FR P) as (F0 & F & D & q & A1 & A2 & A3); auto.
    { cbn [with_spot md_spots]. apply get_put_same. }
    exists F0, F, D, q. auto.
  Qed.

  Lemma start_same md surface F0 F0' D q D' q' : get id (md_vols md) = Some surface -> no_smile nan surface ->
    start_inputs nan md v fr x0 F0 D q -> start_inputs nan md v fr x0 F0' D' q' -> D = D' /\ q = q'.
  Proof.
    intros SU NS (yc & vol & pay & s & r & now & A1 & A2 & A3 & A4 & -> & A6 & A8 & A9)
      (yc' & vol' & pay' & s' & r' & now' & B1 & B2 & B3 & B4 & -> & B6 & B8 & B9).
    rewrite A1 in B1. injection B1 as <-. rewrite A2 in B2. injection B2 as <-. rewrite A3 in B3. injection B3 as <-.
    rewrite A4 in B4. injection B4 as <-. rewrite A6 in B6. injection B6 as <-. rewrite A8 in B8. injection B8 as <-. split; [reflexivity|].
    rewrite U in A6. destruct (looked_up nan md id cr cur st _ vol surface SU A6 NS) as (NV & _).
    exact (forward_variance_same nan vol _ _ _ _ _ _ NV A9 B9).
  Qed.

  Lemma forwards_scaled md divs x c F0 F G0 G : get id (md_divs md) = Some divs -> no_cash (dividends divs) ->
    forwards_if nan md u expiry x start F0 F -> forwards_if nan md u expiry (x * c) start G0 G -> G0 = c * F0 /\ G = c * F.
  Proof.
    intros DV NC (r1 & b1 & dv & f & A1 & A2 & A3 & A4 & A5 & A6) (r2 & b2 & d2 & g & B1 & B2 & B3 & B4 & B5 & B6).
    rewrite A1 in B1. injection B1 as <-. rewrite A2 in B2. injection B2 as <-. rewrite A3 in B3. injection B3 as <-.
    assert (dv = divs) as -> by (rewrite U in A3; cbn [instrument_id] in A3; congruence). rewrite (Rmult_comm x c) in B4.
    split; [exact (forward_scaled nan c _ _ _ _ _ _ _ _ _ _ _ _ NC A4 B4 A5 B5)|exact (forward_scaled nan c _ _ _ _ _ _ _ _ _ _ _ _ NC A4 B4 A6 B6)].
  Qed.

  Lemma start_delta md sp s h divs surface value r sp' sv' : (md_spot_date md < expiry)%Z -> self_pricer_new nan [(w, opt)] md = Ok sp ->
    get id (md_spots md) = Some s -> 0 < s -> 0 < h < 1 -> get id (md_divs md) = Some divs -> no_cash (dividends divs) ->
    get id (md_vols md) = Some surface -> no_smile nan surface -> displacement nan surface expiry = Ok 0 -> self_price nan N sp = Ok value ->
    generate nan (self_ops nan N) (DeltaGammaGenerator h) sp saved_prefetch_new value = (Ok r, sp', sv') ->
    exists m delta gamma F0 F, r = DeltaGammaReport h m /\ get id m = Some (delta, gamma) /\ forwards_if nan md u expiry s start F0 F /\
      (F0 * fr <> 0 -> delta = value / s /\ gamma = 0).
  Proof.
    intros Live E G S H DV NC SU NS DZ PV GE.
    assert (E' := E). unfold self_pricer_new in E'. apply bind_ok in E' as (deps & DE & E'). apply bind_ok in E' as (p & PE & E'). injection E' as E'.
    destruct (one_start _ _ DE) as (l & CA & AL & ON & IF & IV & HW).
    destruct (proj1 (new_spec nan _ _ _ (deps_tidy _ _ l deps CA AL ON)) PE) as (PD & DP & _).
    assert (MD : pf_data (sp_context sp) = md) by (rewrite <- E'; exact PD).
    destruct (delta_samples nan N h sp value r sp' sv' ltac:(lra) ltac:(lra) PV GE) as (m & -> & ALL & EN).
    assert (KN : get id m <> None).
    { apply ALL. rewrite <- E'. cbn [sp_context]. rewrite DP.
      pose proof (kn_instrument_known _ _ (collected _ _ deps l CA AL) u (or_intror (ex_intro (fun d => In (VolOf u d) l) expiry IV))) as K. rewrite U in K. cbn [instrument_id] in K.
      unfold instrument_by_id in K. destruct (get id (col_instruments deps)) eqn:GI; [|congruence]. apply get_in in GI. apply in_map_iff. now exists (id, i). }
    destruct (get id m) as [[delta gamma]|] eqn:GM; [|congruence]. clear KN.
    destruct (EN id _ GM) as (s' & x & y & L & PX & PY & EE). rewrite MD in L. cbn [look] in L. rewrite G in L. injection L as <-.
    specialize (EE ltac:(lra)). injection EE as -> ->.
    destruct (start_elsewhere md sp s _ _ surface Live E G SU NS DZ PX) as (U0 & UF & D & q & FU & OI & XE).
    destruct (start_elsewhere md sp s _ _ surface Live E G SU NS DZ PY) as (D0 & DF & D1 & q1 & FD & OI1 & YE).
    destruct (start_today md sp s _ surface Live E PV G SU NS DZ) as (F0 & F & D2 & q2 & FH & OI2 & VE).
    destruct (start_same _ _ _ _ _ _ _ _ SU NS OI OI1) as (<- & <-). destruct (start_same _ _ _ _ _ _ _ _ SU NS OI OI2) as (<- & <-).
    destruct (forwards_scaled md divs s _ _ _ _ _ DV NC FH FU) as (-> & ->). destruct (forwards_scaled md divs s _ _ _ _ _ DV NC FH FD) as (-> & ->).
    do 3 eexists. exists F0, F. split; [reflexivity|]. split; [exact GM|]. split; [exact FH|]. intros K0.
    rewrite !Rmult_assoc in XE, YE. rewrite black_scaled in XE, YE by (auto; lra). rewrite XE, YE, VE. split; field; lra.
  Qed.

  (** Without dividends the forward cannot be nothing. *)
  Lemma plain_forwards md divs x F0 F : get id (md_divs md) = Some divs -> dividends divs = [] -> 0 < x -> forwards_if nan md u expiry x start F0 F -> 0 < F0 /\ 0 < F.
  Proof.
    intros DV NO X (rt0 & b & dv & f & A1 & A2 & A3 & A4 & A5 & A6).
    assert (dv = divs) as -> by (rewrite U in A3; cbn [instrument_id] in A3; congruence).
    unfold equity_forward_new, bootstrap_new in A4. rewrite NO in A4. cbn [rev] in A4.
    destruct (log_discount_with_borrow nan rt0 b _) as [q|m|m]; cbn [bind] in *; try discriminate.
    destruct (apply_rule (settlement u) _) as [sd|m|m]; cbn [bind] in *; try discriminate.
    destruct (discount_with_borrow nan rt0 b q sd) as [y|m|m] eqn:DY; cbn [bind] in *; try discriminate.
    unfold discount_with_borrow in DY. inv_bind DY. injection DY as <-. injection A4 as <-.
    assert (K : forall d z, forward_at nan (EquityForward (settlement u) rt0 b (div_yield divs) (mkBoot (md_spot_date md) expiry []) (nmul x (nexp (nsub a q))) q) d = Ok z -> 0 < z).
    { intros d z Z. cbn [forward_at] in Z. unfold discounted_sum_from_base, sum_at in Z. cbn [boot_hwm boot_acc] in Z.
      destruct (expiry <? d)%Z; [discriminate|]. cbn [binary_search_by bs_loop List.length] in Z.
      inv_bind Z. inv_bind Z. inv_bind Z. inv_bind Z. injection Z as <-.
      assert (a0 = 0) as -> by (revert E0; cbn; congruence). rnum. rewrite Rminus_0_r.
      repeat apply Rmult_lt_0_compat; auto; apply exp_pos. }
    split; eapply K; eassumption.
  Qed.

  Lemma plain_start_delta md sp s h divs surface value r sp' sv' : (md_spot_date md < expiry)%Z -> self_pricer_new nan [(w, opt)] md = Ok sp ->
    get id (md_spots md) = Some s -> 0 < s -> 0 < h < 1 -> get id (md_divs md) = Some divs -> dividends divs = [] -> 0 < fr ->
    get id (md_vols md) = Some surface -> no_smile nan surface -> displacement nan surface expiry = Ok 0 -> self_price nan N sp = Ok value ->
    generate nan (self_ops nan N) (DeltaGammaGenerator h) sp saved_prefetch_new value = (Ok r, sp', sv') ->
    exists m, r = DeltaGammaReport h m /\ get id m = Some (value / s, 0).
  Proof.
    intros Live E G S H DV NO FR SU NS DZ PV GE.
    destruct (start_delta md sp s h divs surface value r sp' sv' Live E G S H DV) as (m & delta & gamma & F0 & F & -> & GM & FF & Q); auto.
    { rewrite NO. intros d []. }
    destruct (plain_forwards _ _ _ _ _ DV NO S FF) as (P & _). exists m. split; [reflexivity|].
    destruct Q as (-> & ->); [|exact GM]. apply Rgt_not_eq. apply Rmult_lt_0_compat; assumption.
  Qed.
End Start.
