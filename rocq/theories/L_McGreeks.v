(** The delta and gamma that Monte Carlo reports for a European option. *)
From Coq Require Import ZArith List String Bool Lia Reals Lra Psatz Permutation.
From Verif Require Import Prelude Num L_Num M_Dates M_Calendar M_Curves M_Fixings M_Forward M_Vol M_Black76 M_Instruments M_Deps M_Risk M_Reports M_MonteCarlo
  S_Math S_Vol S_Deps S_Risk S_Reports S_MonteCarlo S_Greeks S_Expectation S_McGreeks
  L_Fixings L_Vol L_Normal L_Deps L_Risk L_Prefetch L_PrefetchTop L_Reports L_Diffusion L_Models L_Paths L_MonteCarlo.
From Verif Require L_Greeks.
Import ListNotations.
Open Scope list_scope.
Open Scope R_scope.

(** A report there is whenever the samples can be priced. *)
Section Made.
  Context {T : Type} {N : Num T} {TR : Trans T} {P : Type}.
  Variables (nan : T) (ops : pricer_ops T P) (new : saveable T).
  Hypothesis WB : well_behaved ops new.

  Lemma both_made b b' p u x y : same_target b b' -> price_after ops [b] p = Ok x -> price_after ops [b; b'] p = Ok y ->
    exists xy, up_and_down ops b b' u p new = (Ok xy, p, new).
  Proof.
    intros ST A B. cbn [price_after] in A, B. destruct (op_bump ops b p None) as [[[r|m|m] p1] s1] eqn:E1; try discriminate.
    destruct (op_bump ops b' p1 None) as [[[r'|m|m] p2] s2] eqn:E2; try discriminate.
    pose proof (wb_saving _ _ WB b p) as SV. rewrite E1 in SV. destruct (op_bump ops b p (Some new)) as [[r0 p0] s0] eqn:E0. cbn [fst] in SV. injection SV as -> ->.
    destruct (wb_restore _ _ WB b b' p r p1 s0 r' p2 s2 ST E0 E2) as (-> & s & -> & RS & CL).
    unfold up_and_down, bumped_price. rewrite E0. destruct r; cbv iota beta; [rewrite A|]; rewrite E2; cbv iota beta; [rewrite B|]; rewrite RS, CL; eauto.
  Qed.

  Lemma loop_made h p u ids : (forall id, In id ids -> exists s x y, ctx_spot (op_context ops p) id = Ok s /\ price_after ops [BSpot id (RelativeSpot h)] p = Ok x /\
      price_after ops [BSpot id (RelativeSpot h); BSpot id (RelativeSpot (nsub (ndiv (nsub n1 h) (nadd n1 h)) n1))] p = Ok y) ->
    forall res0, exists m, delta_loop ops h u ids res0 p new = (Ok m, p, new).
  Proof.
    induction ids as [|id ids IH]; intros H res0; cbn [delta_loop]; [eauto|].
    destruct (H id (or_introl eq_refl)) as (s & x & y & S & A & B). rewrite S.
    destruct (both_made _ _ p u x y (spots_same _ _ _) A B) as ((a & b) & ->). apply IH. intros i I. apply H. now right.
  Qed.

  Lemma report_made h p u ids : op_price ops p = Ok u -> reported_ids ops p = Ok ids ->
    (forall id, In id ids -> exists s x y, ctx_spot (op_context ops p) id = Ok s /\ price_after ops [BSpot id (RelativeSpot h)] p = Ok x /\
      price_after ops [BSpot id (RelativeSpot h); BSpot id (RelativeSpot (nsub (ndiv (nsub n1 h) (nadd n1 h)) n1))] p = Ok y) ->
    exists m, calculate nan ops p [DeltaGammaGenerator h] = Ok [DeltaGammaReport h m].
  Proof.
    intros PU RI H. unfold reported_ids in RI. destruct (op_dependencies ops p) as [deps|m|m] eqn:OD; try discriminate. cbn [rmap] in RI. injection RI as <-.
    destruct (loop_made h p u _ H []) as (m & E). exists m. apply (calculate_one nan ops new WB p u); [exact PU|]. cbn [generate]. rewrite OD, E. reflexivity.
  Qed.

  Lemma report_read h p m : calculate nan ops p [DeltaGammaGenerator h] = Ok [DeltaGammaReport h m] -> exists u ids,
    op_price ops p = Ok u /\ reported_ids ops p = Ok ids /\ (forall id, In id ids <-> get id m <> None) /\
    forall id e, get id m = Some e -> exists s x y, ctx_spot (op_context ops p) id = Ok s /\
      price_after ops [BSpot id (RelativeSpot h)] p = Ok x /\
      price_after ops [BSpot id (RelativeSpot h); BSpot id (RelativeSpot (nsub (ndiv (nsub n1 h) (nadd n1 h)) n1))] p = Ok y /\
      e = first_and_second x y u (nmul h s).
  Proof.
    intros E. assert (U : exists u, op_price ops p = Ok u).
    { unfold calculate in E. destruct (op_price ops p); cbn [bind] in E; try discriminate. eauto. }
    destruct U as [u U]. apply (calculate_one nan ops new WB p u _ _ U) in E.
    destruct (delta_entries nan ops new WB h p u _ _ _ U E) as (ids & m' & RI & Q & ALL & EN). injection Q as <-. eauto 8.
  Qed.
End Made.

Section Option.
  Variables (nan : R) (cdf : R -> R).
  Variable visit : smap (instrument R * list (ddf R)) -> smap (instrument R * list (ddf R)).
  Hypothesis visits : forall l, Permutation (visit l) l.
  Variable redraws : bump_time -> mc_pricer R -> nat -> nat -> R.
  Let ops := mc_ops nan cdf visit redraws.
  Variables (w : R) (v : vanilla R) (k : R) (id cr : string) (cur : currency R) (st : date_rule R) (f : diffusion_factory R) (md : market_data R).
  Hypothesis U : van_underlying v = IEquity id cr cur st.
  Notation opt := (ISpotEuropean v k).
  Notation u := (van_underlying v).
  Notation expiry := (dt_date (van_expiry v)).
  Hypothesis EX : ddf_date (van_expiry_time v) = expiry.
  Notation make draws := (mc_pricer_new nan visit draws [(w, opt)] f md).
  Notation with_spot := (L_Greeks.with_spot id md).

  (** The price when the data are those given but for the spot. *)
  Lemma sample_price draws mp mp' x y : make draws = Ok mp -> pricer_reaches ops mp mp' -> pf_data (bd_context (mp_model mp')) = with_spot x ->
    op_price ops mp' = Ok y -> exists m n value, mark_if nan md v x m /\ payment_worth nan cdf md v value /\
      bd_substepping (mp_model mp) = [n] /\ (1 <= n)%nat /\ 0 <= mk_variance m / INR n /\ (0 < df_n_paths f)%nat /\
      (mp' = mp -> 0 < df_path_substep f -> mk_variance m / INR n <= df_path_substep f) /\ y = w * (mean_payoff opt m n (df_n_paths f) draws * value).
  Proof.
    intros E RE DA PY.
    destruct (reached_paths nan cdf visit redraws draws _ _ _ _ E) as (u' & steps & SL & S1 & OL & NP & BI & (t & idt & VT & FT & BN & BS & deps & EP) & ES & H).
    destruct (H mp' RE) as (curve & surface & marks & C & S & M & GP & PA & _).
    assert (ES' : mp' = mp -> 0 < df_path_substep f -> enough_steps (df_path_substep f) marks steps) by (intros ->; eauto). clear ES.
    destruct (one_timeline _ _ _ _ _ _ (eq_refl : option_of opt = Some v) EP) as [TO _]. rewrite TO, (visit_one visit visits) in VT. injection VT as _ <- OB.
    rewrite <- OB in *. cbn [looks_at List.length] in SL, M, C, S. unfold last_date in C, S. cbn [last map] in C, S.
    inversion M as [|? m ? ? (M1 & M2 & M3) M']; subst. inversion M'; subst. clear M'.
    destruct (bd_substepping (mp_model mp)) as [|n [|]] eqn:B; try discriminate. cbn [gained] in GP. inversion GP as [|? ? ? ? GP1 _]; subst. rewrite Rminus_0_r in GP1.
    destruct (one_option nan cdf visit visits redraws draws w opt v f md mp mp' eq_refl E RE) as (paths & PA' & _ & _ & _ & PR). fold ops in PR. rewrite PA in PA'. injection PA' as <-.
    rewrite PR in PY. destruct (price nan cdf (op_context ops mp') _ _) as [value|e|e] eqn:PV; try discriminate. cbn [rmap] in PY. injection PY as <-.
    exists m, n, value.
    (* the context *)
    assert (DE := portfolio_splits _ _ _ _ EP).
    destruct (mc_new nan visit _ _ _ _ _ E) as (deps' & t' & p & EP' & EC & EM & Q0). rewrite EP in EP'. injection EP' as <- <-.
    destruct (new_model_fresh nan visit _ _ _ _ _ EM) as [FM CP].
    destruct (fresh_reaches nan cdf visit redraws mp mp' RE FM) as (_ & BT & _). rewrite CP in BT.
    destruct (L_Greeks.one_option w v k id cr cur st U _ _ DE) as (l & CA & AL & ON & IF & IV & HW).
    pose proof (cache_fresh nan _ _ l deps CA AL ON md p _ EC BT) as CF. rewrite DA in CF. set (p' := bd_context (mp_model mp')) in *.
    destruct (cache_answers nan _ _ l deps CA AL ON _ _ CF) as (AF & AV).
    destruct (AF u expiry IF) as (h & fw & HH & MF & CXF). destruct (AV u expiry expiry IF IV) as (h' & vol & VH & MV & CXV).
    assert (h = expiry) as ->.
    { pose proof (kn_forward _ _ (collected _ _ deps l CA AL) u) as L. rewrite HH in L. rewrite U in L. cbn [instrument_id] in L. rewrite HW in L.
      destruct L as [[L|[]] _]. congruence. }
    unfold ops in C, S. cbn [mc_ops op_context] in C, S. fold p' in C, S. rewrite CXF in C. injection C as <-. rewrite CXV in S. injection S as <-.
    rewrite EX in M1, M3.
    split; [|split; [|split; [reflexivity|split; [apply S1; now left|split; [exact GP1|split; [exact NP|split; [|]]]]]]].
    - exists vol. cbn zeta. split; [|split; [exact (MV (Err ""))|split; assumption]].
      unfold md_forward_curve in MF. apply bind_ok in MF as (x' & X' & MF). apply bind_ok in MF as (divs & DV & MF).
      apply bind_ok in MF as (bor & BO & MF). apply bind_ok in MF as (yl & YL & MF).
      assert (FD : forall A (m : smap A) i w a, find_data i m w = Ok a -> get i m = Some a).
      { intros A m0 i w0 a FE. unfold find_data in FE. destruct (get i m0); [congruence|discriminate]. }
      apply FD in X', DV, BO, YL. cbn [L_Greeks.with_spot md_spots md_divs md_borrows md_yields md_spot_date] in *.
      rewrite U in X' at 1. cbn [instrument_id] in X'. rewrite get_put_same in X'. injection X' as <-.
      exists yl, bor, divs, fw. repeat (split; [assumption|]). exact M1.
    - unfold payment_worth. rewrite <- PV. unfold price, ops. cbn [mc_ops op_context prefetch_context ctx_spot_date]. fold p'. rewrite DA.
      cbn [L_Greeks.with_spot md_spot_date expiry_flow prices md_context ctx_yield_curve prefetch_context]. rewrite DA. reflexivity.
    - intros EQ SP. specialize (ES' EQ SP). unfold enough_steps in ES'. cbn [gained] in ES'. rewrite Rminus_0_r in ES'. inversion ES' as [|? ? ? ? (_ & Q & _) _]; subst. exact Q.
    - unfold mean_payoff. rewrite map_map. cbn [list_sum fold_right]. change (list_sum [n]) with (n + 0)%nat. rewrite Nat.add_0_r. reflexivity.
  Qed.
  Lemma first_data draws mp : make draws = Ok mp -> pf_data (bd_context (mp_model mp)) = md.
  Proof.
    intros E. destruct (mc_new nan visit _ _ _ _ _ E) as (deps & t & p & EP & EC & EM & Q0). assert (DE := portfolio_splits _ _ _ _ EP).
    destruct (L_Greeks.one_option w v k id cr cur st U _ _ DE) as (l & CA & AL & ON & _).
    destruct (new_model_fresh nan visit _ _ _ _ _ EM) as [_ CP]. rewrite CP. exact (proj1 (proj1 (new_spec nan _ _ _ (deps_tidy _ _ l deps CA AL ON)) EC)).
  Qed.

  Lemma spot_step g mp r mp1 sv x : pf_data (bd_context (mp_model mp)) = with_spot x -> op_bump ops (BSpot id g) mp None = (Ok r, mp1, sv) ->
    pf_data (bd_context (mp_model mp1)) = with_spot (apply_spot g x).
  Proof.
    intros D E. unfold ops in E. cbn [mc_ops op_bump] in E. unfold mc_bump, diffusion_bump, diffusion_bump_saved in E.
    destruct (prefetch_bump nan (BSpot id g) (bd_context (mp_model mp)) None) as [[r1 c] i1] eqn:PB.
    destruct (prefetch_data nan (BSpot id g) (SpotFor id) _ None _ _ _ Logic.I eq_refl PB) as (DA & _). rewrite D in DA.
    assert (G : get id (md_spots (with_spot x)) = Some x) by (cbn [L_Greeks.with_spot md_spots]; apply get_put_same).
    assert (DB : snd (fst (md_bump (BSpot id g) (with_spot x) None)) = with_spot (apply_spot g x)).
    { unfold md_bump. cbn [md_bump_saved]. rewrite (apply_bump_known _ _ _ _ _ G). cbn [fst snd md_spots L_Greeks.with_spot]. rewrite put_put. reflexivity. }
    rewrite DB in DA. destruct r1 as [b|m|m]; cbv iota beta in E; try discriminate. unfold refetch_path in E.
    destruct b; cbn [negb] in E; [|injection E as <- <- <-; exact DA].
    repeat match type of E with context [match ?y with _ => _ end] => lazymatch y with context [match _ with _ => _ end] => fail | _ => destruct y end; cbv iota beta in E; try discriminate end.
    all: injection E as <- <- <-; exact DA.
  Qed.

  (** What is in the report. *)
  Lemma mark_fun x m m' : mark_if nan md v x m -> mark_if nan md v x m' -> m = m'.
  Proof.
    intros (sf & (r1 & b1 & d1 & fw & A1 & A2 & A3 & A4 & A5) & A6 & A7 & A8) (sf' & (r2 & b2 & d2 & fw' & B1 & B2 & B3 & B4 & B5) & B6 & B7 & B8).
    rewrite A1 in B1. injection B1 as <-. rewrite A2 in B2. injection B2 as <-. rewrite A3 in B3. injection B3 as <-. rewrite A4 in B4. injection B4 as <-.
    rewrite A6 in B6. injection B6 as <-. rewrite A5 in B5. injection B5 as E5. rewrite <- E5 in B7. rewrite A7 in B7. injection B7 as E7. rewrite A8 in B8. injection B8 as E8.
    destruct m, m'. cbn in *. now subst.
  Qed.

  Lemma same_spot_data s : get id (md_spots md) = Some s -> with_spot s = md.
  Proof. intros G. unfold L_Greeks.with_spot. rewrite (put_get _ _ _ G). now destruct md. Qed.

  Lemma entry_read draws mp s h delta gamma : make draws = Ok mp -> get id (md_spots md) = Some s -> 0 < s -> 0 < h < 1 ->
    delta_gamma nan ops h id mp delta gamma -> exists n value down here up, bd_substepping (mp_model mp) = [n] /\ (1 <= n)%nat /\ (0 < df_n_paths f)%nat /\
      payment_worth nan cdf md v value /\
      mark_if nan md v (s * (1 - h)) down /\ mark_if nan md v s here /\ mark_if nan md v (s * (1 + h)) up /\ 0 <= mk_variance here / INR n /\
      (0 < df_path_substep f -> mk_variance here / INR n <= df_path_substep f) /\
      let x m := mean_payoff opt m n (df_n_paths f) draws in
      delta = w * value * ((x up - x down) / (2 * (h * s))) /\ gamma = w * value * ((x up + x down - 2 * x here) / (h * s * (h * s))).
  Proof.
    intros E G S0 H (m & CE & GE). pose proof (first_data _ _ E) as FD. pose proof (same_spot_data _ G) as SD.
    destruct (report_read nan ops _ (mc_well_behaved nan cdf visit redraws) h mp m CE) as (u0 & ids & PU & _ & _ & EN).
    destruct (EN id _ GE) as (s' & x & y & CS & PX & PY & EQ).
    unfold ops in CS. cbn [mc_ops op_context prefetch_context ctx_spot md_context] in CS. rewrite FD in CS. unfold find_data in CS. rewrite G in CS. injection CS as <-.
    cbn [price_after] in PX, PY. destruct (op_bump ops (BSpot id (RelativeSpot h)) mp None) as [[[r1|e|e] mp1] sv1] eqn:B1; try discriminate.
    destruct (op_bump ops _ mp1 None) as [[[r2|e|e] mp2] sv2] eqn:B2; try discriminate.
    rewrite <- SD in FD. pose proof (spot_step _ _ _ _ _ _ FD B1) as D1. pose proof (spot_step _ _ _ _ _ _ D1 B2) as D2. cbn [apply_spot] in D1, D2.
    revert D1 D2. rnum. intros D1 D2. replace (s * (1 + h) * (1 + ((1 - h) / (1 + h) - 1))) with (s * (1 - h)) in D2 by (field; lra).
    assert (R1 : pricer_reaches ops mp mp1) by (eapply pr_step; [exact B1|constructor]).
    assert (R2 : pricer_reaches ops mp mp2) by (eapply pr_step; [exact B1|eapply pr_step; [exact B2|constructor]]).
    destruct (sample_price _ _ _ _ _ E (pr_refl _ _) FD PU) as (here & n & value & M0 & V0 & N0 & N1 & VP & NP & SM & ->). specialize (SM eq_refl).
    destruct (sample_price _ _ _ _ _ E R1 D1 PX) as (up & n' & value' & M1 & V1 & N0' & _ & _ & _ & _ & ->).
    destruct (sample_price _ _ _ _ _ E R2 D2 PY) as (down & n'' & value'' & M2 & V2 & N0'' & _ & _ & _ & _ & ->).
    rewrite N0 in N0', N0''. injection N0' as <-. injection N0'' as <-. unfold payment_worth in V0, V1, V2. rewrite V0 in V1, V2. injection V1 as <-. injection V2 as <-.
    exists n, value, down, here, up. repeat (split; [assumption|]). cbn zeta. unfold first_and_second in EQ. revert EQ. rnum. intros EQ. injection EQ as -> ->.
    assert (0 < h * s) by (apply Rmult_lt_0_compat; lra). split; field; lra.
  Qed.

  (** Without a smile. *)
  Lemma flat_marks x y m m' : no_smile nan md v -> mark_if nan md v x m -> mark_if nan md v y m' ->
    mk_variance m' = mk_variance m /\ mk_displacement m' = mk_displacement m.
  Proof.
    intros (sf & V & S & VS) (sf1 & _ & A6 & A7 & A8) (sf2 & _ & B6 & B7 & B8). rewrite S in A6, B6. injection A6 as <-. injection B6 as <-.
    rewrite VS in A7, B7. rewrite A8 in B8. split; congruence.
  Qed.
  Lemma mid_mark s h down here up : mark_if nan md v (s * (1 - h)) down -> mark_if nan md v s here -> mark_if nan md v (s * (1 + h)) up ->
    mk_forward here = (mk_forward down + mk_forward up) / 2.
  Proof.
    intros (s1 & FD & _) (s2 & FH & _) (s3 & FU & _). pose proof (L_Greeks.forward_between nan v md (1 / 2) _ _ _ _ (mk_forward here) FD FU) as M.
    replace (1 / 2 * (s * (1 - h)) + (1 - 1 / 2) * (s * (1 + h))) with s in M by lra. rewrite (M FH). lra.
  Qed.
  Lemma worth_nonneg value : payment_worth nan cdf md v value -> 0 <= value.
  Proof.
    unfold payment_worth, price, first_price. intros E. apply bind_ok in E as (xs & E & Q). destruct xs as [|x xs]; [discriminate|]. injection Q as ->.
    cbn [expiry_flow prices] in E. apply bind_ok in E as (yc & _ & E). cbn [mapM] in E. apply bind_ok in E as (z & Z & E). injection E as -> _.
    destruct (dt_leb _ _); [|injection Z as <-; rnum; lra]. apply bind_ok in Z as (sd & _ & Z). unfold df in Z. destruct (_ =? _)%Z; [injection Z as <-; rnum; lra|].
    apply bind_ok in Z as (a & _ & Z). apply bind_ok in Z as (b & _ & Z). injection Z as <-. left. apply exp_pos.
  Qed.
End Option.

(** Means. *)
Lemma mean_le {A} (l : list A) g h : (forall a, In a l -> g a <= h a) -> mean (map g l) <= mean (map h l).
Proof.
  intros H. unfold mean. rewrite !map_length. destruct l as [|a l]; [cbn; lra|]. set (L := a :: l) in *.
  assert (P : 0 < INR (List.length L)) by (apply lt_0_INR; cbn; lia). apply Rmult_le_compat_r; [left; now apply Rinv_0_lt_compat|].
  clear P. induction L as [|b L IH]; [cbn; lra|]. cbn [map fold_right]. apply Rplus_le_compat; [apply H; now left|]. apply IH. intros c I. apply H. now right.
Qed.
Lemma mean_combine {A} (l : list A) a b g h : mean (map (fun j => a * g j + b * h j) l) = a * mean (map g l) + b * mean (map h l).
Proof.
  unfold mean. rewrite !map_length. unfold Rdiv. rewrite <- !Rmult_assoc, <- Rmult_plus_distr_r. f_equal.
  induction l as [|c l IH]; cbn [map fold_right]; [ring|]. rewrite IH. ring.
Qed.

Lemma mean_nought {A} (l : list A) : mean (map (fun _ => 0) l) = 0.
Proof. unfold mean. replace (fold_right Rplus 0 (map (fun _ => 0) l)) with 0; [lra|]. induction l as [|a l IH]; cbn [map fold_right]; lra. Qed.

(** What is paid on a path. *)
Lemma pays_grown v k m n (draws : nat -> nat -> R) j : pays (ISpotEuropean v k) (path_of [m] [n] (map (draws j) (seq 0 n))) =
  ends (van_put_or_call v) ((mk_forward m - mk_displacement m) * grown (map (draws j) (seq 0 n)) (deviations [m] [n]) n + mk_displacement m) k.
Proof. unfold path_of. cbn [List.length seq map nth firstn pays]. change (list_sum [n]) with (n + 0)%nat. rewrite Nat.add_0_r. reflexivity. Qed.
Lemma growth_same m m' n paths (draws : nat -> nat -> R) : mk_variance m' = mk_variance m -> growths m' n paths draws = growths m n paths draws.
Proof. intros V. unfold growths, deviations. cbn [gained]. now rewrite V. Qed.
Lemma mean_grown v k m n paths draws :
  mean_payoff (ISpotEuropean v k) m n paths draws =
  mean (map (fun g => ends (van_put_or_call v) ((mk_forward m - mk_displacement m) * g + mk_displacement m) k) (growths m n paths draws)).
Proof. unfold mean_payoff, growths. rewrite map_map. f_equal. apply map_ext. intros j. apply pays_grown. Qed.

Lemma ends_convex pc k x y : 2 * ends pc ((x + y) / 2) k <= ends pc x k + ends pc y k.
Proof. unfold ends, Rmax. destruct pc; repeat destruct Rle_dec; lra. Qed.
Lemma ends_call_rise d k g x y : d <= k -> d <= x <= y -> 0 <= ends Call ((y - d) * g + d) k - ends Call ((x - d) * g + d) k <= (y - x) * Rmax g 0.
Proof.
  intros K X. unfold ends. destruct (Rle_lt_dec g 0) as [G|G].
  - rewrite (Rmax_right g 0) by exact G. assert ((y - d) * g <= 0) by nra. assert ((x - d) * g <= 0) by nra. rewrite !Rmax_right by lra. lra.
  - rewrite (Rmax_left g 0) by lra. assert ((x - d) * g <= (y - d) * g) by nra. unfold Rmax. repeat destruct Rle_dec; nra.
Qed.
Lemma ends_put_fall d k g x y : 0 <= g -> x <= y -> - ((y - x) * g) <= ends Put ((y - d) * g + d) k - ends Put ((x - d) * g + d) k <= 0.
Proof. intros G X. unfold ends. assert ((x - d) * g <= (y - d) * g) by nra. unfold Rmax. repeat destruct Rle_dec; nra. Qed.

Section Signs.
  Variables (nan : R) (cdf : R -> R).
  Variable visit : smap (instrument R * list (ddf R)) -> smap (instrument R * list (ddf R)).
  Hypothesis visits : forall l, Permutation (visit l) l.
  Variable redraws : bump_time -> mc_pricer R -> nat -> nat -> R.
  Let ops := mc_ops nan cdf visit redraws.
  Variables (w : R) (v : vanilla R) (k : R) (id cr : string) (cur : currency R) (st : date_rule R) (f : diffusion_factory R) (md : market_data R).
  Hypothesis U : van_underlying v = IEquity id cr cur st.
  Notation opt := (ISpotEuropean v k).
  Hypothesis EX : ddf_date (van_expiry_time v) = dt_date (van_expiry v).
  Variables (draws : nat -> nat -> R) (mp : mc_pricer R) (s h delta gamma : R).
  Hypothesis E : mc_pricer_new nan visit draws [(w, opt)] f md = Ok mp.
  Hypothesis G : get id (md_spots md) = Some s.
  Hypothesis S0 : 0 < s.
  Hypothesis H : 0 < h < 1.
  Hypothesis NS : no_smile nan md v.
  Hypothesis DG : delta_gamma nan ops h id mp delta gamma.

  Lemma gamma_sign : (0 <= w -> 0 <= gamma) /\ (w <= 0 -> gamma <= 0).
  Proof.
    destruct (entry_read nan cdf visit visits redraws w v k id cr cur st f md U EX draws mp s h delta gamma E G S0 H DG)
      as (n & value & down & here & up & B & N1 & NP & PW & MD & MH & MU & VP & _ & _ & GA). cbn zeta in GA.
    pose proof (worth_nonneg nan cdf v md value PW) as W0.
    destruct (flat_marks nan v md _ _ _ _ NS MH MD) as [V1 D1]. destruct (flat_marks nan v md _ _ _ _ NS MH MU) as [V2 D2].
    pose proof (mid_mark nan v md _ _ _ _ _ MD MH MU) as MID.
    assert (C : 0 <= mean_payoff opt up n (df_n_paths f) draws + mean_payoff opt down n (df_n_paths f) draws - 2 * mean_payoff opt here n (df_n_paths f) draws).
    { rewrite !mean_grown. rewrite (growth_same here up), (growth_same here down) by assumption. set (gs := growths here n (df_n_paths f) draws). rewrite D1, D2.
      set (pu := fun g => ends _ ((mk_forward up - _) * g + _) k). set (pd := fun g => ends _ ((mk_forward down - _) * g + _) k). set (ph := fun g => ends _ ((mk_forward here - _) * g + _) k).
      pose proof (mean_combine gs 1 1 pu pd) as MC. pose proof (mean_combine gs 2 0 ph ph) as MC'.
      assert (LE : mean (map (fun j => 2 * ph j + 0 * ph j) gs) <= mean (map (fun j => 1 * pu j + 1 * pd j) gs)); [|lra].
      apply mean_le. intros g _. unfold pu, pd, ph. rewrite MID.
      match goal with |- 2 * ends _ ?a _ + _ <= 1 * ends _ ?b _ + 1 * ends _ ?c _ => replace a with ((b + c) / 2) by field; pose proof (ends_convex (van_put_or_call v) k b c) end. lra. }
    assert (P : 0 < h * s * (h * s)) by (repeat apply Rmult_lt_0_compat; lra).
    assert (Q : forall a, 0 <= a -> 0 <= a / (h * s * (h * s))) by (intros a A; apply Rmult_le_pos; [exact A|left; now apply Rinv_0_lt_compat]).
    apply Q in C. rewrite GA. set (z := _ / (h * s * (h * s))) in *. assert (0 <= value * z) by (apply Rmult_le_pos; assumption).
    split; intros W; nra.
  Qed.

  Lemma delta_sign : exists n value down here up, bd_substepping (mp_model mp) = [n] /\ payment_worth nan cdf md v value /\ 0 <= value /\
    mark_if nan md v (s * (1 - h)) down /\ mark_if nan md v s here /\ mark_if nan md v (s * (1 + h)) up /\
    let gs := growths here n (df_n_paths f) draws in let slope := (mk_forward up - mk_forward down) / (2 * (h * s)) in let d := mk_displacement here in
    (0 <= w -> d <= mk_forward down <= mk_forward up ->
      match van_put_or_call v with
      | Call => d <= k -> 0 <= delta <= w * value * (slope * mean (map (fun g => Rmax g 0) gs))
      | Put => Forall (fun g => 0 <= g) gs -> - (w * value * (slope * mean gs)) <= delta <= 0
      end).
  Proof.
    destruct (entry_read nan cdf visit visits redraws w v k id cr cur st f md U EX draws mp s h delta gamma E G S0 H DG)
      as (n & value & down & here & up & B & N1 & NP & PW & MD & MH & MU & VP & _ & DE & _). cbn zeta in DE.
    pose proof (worth_nonneg nan cdf v md value PW) as W0.
    destruct (flat_marks nan v md _ _ _ _ NS MH MD) as [V1 D1]. destruct (flat_marks nan v md _ _ _ _ NS MH MU) as [V2 D2].
    exists n, value, down, here, up. repeat (split; [assumption|]). cbn zeta. intros W FW.
    rewrite !mean_grown in DE. rewrite (growth_same here up), (growth_same here down) in DE by assumption. set (gs := growths here n (df_n_paths f) draws) in *. rewrite D1, D2 in DE.
    set (pu := fun g => ends _ ((mk_forward up - _) * g + _) k) in DE. set (pd := fun g => ends _ ((mk_forward down - _) * g + _) k) in DE.
    assert (P : 0 < 2 * (h * s)) by (apply Rmult_lt_0_compat; [lra|apply Rmult_lt_0_compat; lra]).
    assert (PI : 0 <= w * value / (2 * (h * s))) by (apply Rmult_le_pos; [apply Rmult_le_pos; assumption|left; now apply Rinv_0_lt_compat]).
    assert (DE' : delta = w * value / (2 * (h * s)) * mean (map (fun g => 1 * pu g + -1 * pd g) gs)).
    { rewrite DE, mean_combine. field. lra. }
    assert (Q : forall lo hi, lo <= mean (map (fun g => 1 * pu g + -1 * pd g) gs) <= hi -> w * value / (2 * (h * s)) * lo <= delta <= w * value / (2 * (h * s)) * hi).
    { intros lo hi LH. rewrite DE'. split; apply Rmult_le_compat_l; tauto. }
    destruct (van_put_or_call v) eqn:PC.
    - intros GS. specialize (Q (- (mk_forward up - mk_forward down) * mean gs) 0). rewrite Rmult_0_r in Q.
      replace (w * value / (2 * (h * s)) * (- (mk_forward up - mk_forward down) * mean gs)) with (- (w * value * ((mk_forward up - mk_forward down) / (2 * (h * s)) * mean gs))) in Q by (field; lra).
      apply Q. rewrite Forall_forall in GS. split.
      + pose proof (mean_combine gs (- (mk_forward up - mk_forward down)) 0 (fun g => g) (fun g => g)) as MC. rewrite map_id in MC.
        replace (- (mk_forward up - mk_forward down) * mean gs) with (- (mk_forward up - mk_forward down) * mean gs + 0 * mean gs) by ring. rewrite <- MC. apply mean_le. intros g I. specialize (GS g I).
        pose proof (ends_put_fall (mk_displacement here) k g (mk_forward down) (mk_forward up) GS ltac:(lra)). unfold pu, pd. lra.
      + match goal with |- ?a <= 0 => enough (a <= mean (map (fun _ => 0) gs)) by (rewrite mean_nought in *; assumption) end. apply mean_le. intros g I. specialize (GS g I).
        pose proof (ends_put_fall (mk_displacement here) k g (mk_forward down) (mk_forward up) GS ltac:(lra)). unfold pu, pd. lra.
    - intros K. specialize (Q 0 ((mk_forward up - mk_forward down) * mean (map (fun g => Rmax g 0) gs))). rewrite Rmult_0_r in Q.
      replace (w * value / (2 * (h * s)) * ((mk_forward up - mk_forward down) * mean (map (fun g => Rmax g 0) gs))) with (w * value * ((mk_forward up - mk_forward down) / (2 * (h * s)) * mean (map (fun g => Rmax g 0) gs))) in Q by (field; lra).
      apply Q. split.
      + rewrite <- (mean_nought gs). apply mean_le. intros g _.
        pose proof (ends_call_rise (mk_displacement here) k g (mk_forward down) (mk_forward up) K ltac:(lra)). unfold pu, pd. lra.
      + pose proof (mean_combine gs (mk_forward up - mk_forward down) 0 (fun g => Rmax g 0) (fun g => g)) as MC.
        replace ((mk_forward up - mk_forward down) * mean (map (fun g => Rmax g 0) gs)) with ((mk_forward up - mk_forward down) * mean (map (fun g => Rmax g 0) gs) + 0 * mean (map (fun g : R => g) gs)) by ring. rewrite <- MC. apply mean_le. intros g _.
        pose proof (ends_call_rise (mk_displacement here) k g (mk_forward down) (mk_forward up) K ltac:(lra)). unfold pu, pd. lra.
  Qed.
End Signs.
