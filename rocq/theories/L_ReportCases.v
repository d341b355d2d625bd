(** Worked reports: concrete cases and counterexamples. *)
From Coq Require Import ZArith List String Bool Lia Reals Lra.
From Verif Require Import Prelude Num M_Dates M_Search M_Calendar M_Curves M_Fixings M_Forward M_Vol M_Black76 M_Instruments M_Deps M_Risk M_Reports
  S_Vol S_Instruments S_Deps S_Risk S_Reports L_Num L_Fixings L_Vol L_VolTime L_VolCases L_Deps L_Risk L_Prefetch L_PrefetchTop L_InstrumentCases L_DepsPricing
  L_RiskCases L_Reports L_SelfPricer L_SelfReports L_Compare.
Import ListNotations.
Open Scope list_scope.
Open Scope R_scope.

(** A call less a put: a forward contract. *)
Definition call_less_put : holdings R := [(1, call_100); (-1, put_100)].
Definition holding (nan s : R) : self_pricer R := mkSelfPricer call_less_put (cache nan s call_and_put rate).

Lemma holding_new nan s : self_pricer_new nan call_less_put (flat_market s) = Ok (holding nan s).
Proof.
  unfold self_pricer_new.
  assert (E : portfolio_dependencies call_less_put (md_spot_date (flat_market s)) = collect_all 0%Z call_and_put).
  { unfold portfolio_dependencies, call_less_put, call_and_put. unfold collect_all. cbn [foldM snd collect flat_market md_spot_date].
    destruct (collect_spot call_100 (collector_new 0%Z)) as [c|m|m]; cbn [bind]; [|reflexivity..].
    destruct (collect_spot put_100 c) as [c'|m|m]; reflexivity. }
  rewrite E. unfold call_and_put at 1. rewrite two_collected. cbn [bind]. rewrite two_cached. reflexivity.
Qed.

Definition var15 : R := (15 + 0) / 365 * (/ 5) ^ 2.
Lemma flat_variance nan k : variance nan flat_vol (mkDDF 15%Z 0) k = Ok var15 /\ 0 <= var15.
Proof.
  unfold var15. split; [|lra]. apply variance_real. unfold volatility_is, flat_vol. cbn [volatilities map]. rewrite every_years by (cbn; lia). cbn [bind].
  do 2 f_equal. cbn [ddf_date ddf_frac]. replace (IZR (15 - 0)) with 15 by reflexivity. field.
Qed.

Definition growth : R := 5 * (15 / 365).

Lemma cached_price nan cdf s rs pc : 0 <= s ->
  price nan cdf (prefetch_context nan (cache nan s rs rate)) (ISpotEuropean (option_on stock 15%Z pc CashSettled) 100) (mkDT 0%Z Open_) =
  Ok (match pc with
      | Call => call_price cdf (exp (- growth) * exp 0) (s * exp growth - 0) (100 + 0) (sqrt var15)
      | Put => put_price cdf (exp (- growth) * exp 0) (s * exp growth - 0) (100 + 0) (sqrt var15)
      end).
Proof.
  intros S. destruct (flat_variance nan 100) as (V & X).
  apply (option_price nan cdf (prefetch_context nan (cache nan s rs rate)) (option_on stock 15%Z pc CashSettled)) with
    (tm := mkDDF 0%Z 0) (vol := flat_vol) (yc := rate) (st := 0%Z); try reflexivity; try assumption.
  - unfold first_price. cbn [prices stock option_on van_underlying van_expiry prefetch_context ctx_spot_date ctx_forward_curve dt_date cache pf_data md_spot_date pf_forwards instrument_id].
    change ((15 =? 0)%Z) with false. unfold find_data. cbn [get String.eqb Ascii.eqb Bool.eqb bind mapM].
    pose proof (carried_at nan s rate 15%Z 15%Z growth (Z.le_refl _) (rate_rt nan 15%Z)) as FA. cbn [dt_date]. rewrite FA. reflexivity.
  - pose proof (exp_pos growth). rewrite Rminus_0_r. apply Rmult_le_pos; lra.
  - apply start_zero.
  - apply stock_time.
  - apply leb_same.
  - right. reflexivity.
Qed.

(** Its price is linear in the spot. *)
Lemma holding_price nan cdf s : (forall x, cdf (- x) = 1 - cdf x) -> 0 <= s -> self_price nan cdf (holding nan s) = Ok (s - 100 * exp (- growth)).
Proof.
  intros sym S. apply self_price_sum. cbn [sp_instruments holding call_less_put].
  pose proof (cached_price nan cdf s call_and_put Call S) as C. pose proof (cached_price nan cdf s call_and_put Put S) as P.
  pose proof (L_Black76.parity cdf (exp (- growth) * exp 0) (s * exp growth - 0) (100 + 0) (sqrt var15) sym) as Q.
  match type of Q with ?a - ?b = _ => assert (E : s - 100 * exp (- growth) = 1 * a + (-1 * b + 0)) end.
  { transitivity (exp (- growth) * exp 0 * (s * exp growth - 0 - (100 + 0))); [|lra]. rewrite exp_0.
    replace (exp (- growth) * 1 * (s * exp growth - 0 - (100 + 0))) with (s * (exp (- growth) * exp growth) - 100 * exp (- growth)) by ring.
    rewrite <- exp_plus. replace (- growth + growth) with 0 by ring. rewrite exp_0. ring. }
  rewrite E. repeat constructor; assumption.
Qed.

Lemma holding_bumped nan s f save : save = None \/ save = Some saved_prefetch_new -> exists save',
  self_bump nan (BSpot "BP" f) (holding nan s) save = (Ok true, holding nan (apply_spot f s), save').
Proof.
  intros [-> | ->]; unfold self_bump, holding; cbn [sp_context sp_instruments].
  - rewrite (spot_bumped_unsaved nan s call_and_put f eq_refl eq_refl). eauto.
  - unfold saved_prefetch_new. rewrite (spot_bumped nan s call_and_put f [] [] saved_data_new eq_refl eq_refl). eauto.
Qed.

Lemma holding_at nan cdf s x : (forall x, cdf (- x) = 1 - cdf x) -> 0 <= x ->
  price_with_spot (self_ops nan cdf) "BP" x (holding nan s) = Ok (x - 100 * exp (- growth)).
Proof.
  intros sym X. unfold price_with_spot. cbn [price_after op_bump self_ops op_price].
  destruct (holding_bumped nan s (ReplaceSpot x) None (or_introl eq_refl)) as (sv & ->). cbn [apply_spot]. now apply holding_price.
Qed.

(** There is a report on it. *)
Lemma holding_report nan cdf s h : (forall x, cdf (- x) = 1 - cdf x) -> 0 < s -> 0 < h < 1 -> exists r,
  generate nan (self_ops nan cdf) (DeltaGammaGenerator h) (holding nan s) saved_prefetch_new (s - 100 * exp (- growth)) =
  (Ok r, holding nan s, saved_prefetch_new).
Proof.
  intros sym S H. assert (U : exists r p' sv', generate nan (self_ops nan cdf) (DeltaGammaGenerator h) (holding nan s) saved_prefetch_new (s - 100 * exp (- growth)) = (Ok r, p', sv')).
  { cbn [generate op_dependencies self_ops].
    change (keys (col_instruments (pf_deps (sp_context (holding nan s))))) with ["BP"%string]. cbn [delta_loop].
    change (ctx_spot (op_context (self_ops nan cdf) (holding nan s)) "BP") with (@Ok R s). cbv iota beta.
    unfold up_and_down, bumped_price. cbn [op_bump op_price self_ops].
    destruct (holding_bumped nan s (RelativeSpot h) (Some saved_prefetch_new) (or_intror eq_refl)) as (s1 & B1).
    set (x1 := apply_spot (RelativeSpot h) s) in *. rnum. 
    match goal with |- context [BSpot "BP" (RelativeSpot ?d)] => match d with context [_ / _] =>
      destruct (holding_bumped nan x1 (RelativeSpot d) None (or_introl eq_refl)) as (s2 & B2) end end.
    rewrite B1. 
    assert (X1 : 0 <= x1) by (unfold x1; cbn [apply_spot]; rnum; apply Rmult_le_pos; lra).
    rewrite (holding_price nan cdf x1 sym X1). rewrite B2.
    match type of B2 with _ = (_, holding nan ?x, _) => assert (X2 : 0 <= x) end.
    { unfold x1. cbn [apply_spot]. rnum. replace (s * (1 + h) * (1 + ((1 - h) / (1 + h) - 1))) with (s * (1 - h)) by (field; lra). apply Rmult_le_pos; lra. }
    rewrite (holding_price nan cdf _ sym X2).
    destruct (wb_restore _ _ (self_well_behaved nan cdf) (BSpot "BP" (RelativeSpot h)) (BSpot "BP" (RelativeSpot ((1 - h) / (1 + h) - 1)))
      (holding nan s) true _ s1 true _ s2 (spots_same _ _ _) B1 B2) as (_ & sv & -> & RS & CL).
    cbn [op_restore self_ops] in RS. cbn [op_restore self_ops]. rewrite RS. cbn [delta_loop rmap]. do 3 eexists. reflexivity. }
  destruct U as (r & p' & sv' & E). exists r.
  destruct (generate_leaves nan (self_ops nan cdf) saved_prefetch_new (self_well_behaved nan cdf) _ _ _ _ _ _ E) as (-> & ->). exact E.
Qed.

(** A portfolio holding an equity: the report fails and leaves the spot bumped. *)
Lemma equity_left_bumped nan cdf s h u : exists sp m sp' sv', self_pricer_new nan [(1, stock)] (flat_market s) = Ok sp /\
  generate nan (self_ops nan cdf) (DeltaGammaGenerator h) sp saved_prefetch_new u = (Err m, sp', sv') /\
  look (pf_data (sp_context sp)) (SpotFor "BP") = Some (ASpot s) /\
  look (pf_data (sp_context sp')) (SpotFor "BP") = Some (ASpot (s * (1 + h))).
Proof.
  destruct (equity_not_cached nan s) as (sp & N & L & G). exists sp.
  destruct (not_cached_bumped nan (BSpot "BP" (RelativeSpot h)) (SpotFor "BP") "BP" (sp_context sp) (Some saved_prefetch_new) (ASpot s) Logic.I eq_refl L (or_introl eq_refl) G)
    as (m & p' & save' & B & L' & _).
  assert (D : pf_deps (sp_context sp) = deps_of [WantSpot stock]) by (injection N as <-; reflexivity).
  assert (C : ctx_spot (op_context (self_ops nan cdf) sp) "BP" = Ok s) by (injection N as <-; reflexivity).
  exists m, (mkSelfPricer (sp_instruments sp) p'). eexists. split; [exact N|]. split.
  - cbn [generate op_dependencies self_ops]. rewrite D. change (keys (col_instruments (deps_of [WantSpot stock]))) with ["BP"%string].
    cbn [delta_loop]. change (op_context (mkPricer _ _ _ _ _ _ _) sp) with (op_context (self_ops nan cdf) sp). rewrite C. unfold up_and_down, bumped_price.
    cbn [op_bump self_ops]. unfold self_bump. rewrite B. reflexivity.
  - split; [exact L|]. cbn [sp_context]. rewrite L'. reflexivity.
Qed.

(** Two options on one equity that expire together: time cannot pass. *)
Definition to_day (d : date) : bump_time := mkBumpTime (mkBumpSpotDate d StickySpot) d.
Lemma both_expire nan s : exists sp m, self_pricer_new nan call_less_put (flat_market s) = Ok sp /\
  self_bump_time nan (to_day 20%Z) sp = (Err m, sp).
Proof.
  exists (holding nan s). eexists. split; [apply holding_new|]. unfold self_bump_time, apply_time_bump.
  change (update_instruments nan (to_day 20%Z) (sp_instruments (holding nan s)) (prefetch_context nan (sp_context (holding nan s))) (pf_deps (sp_context (holding nan s))))
    with (@Err (bool * holdings R) "Duplicate fixing").
  cbn [bind]. reflexivity.
Qed.

(** One option on its own: time passes. *)
Definition one_call (nan s : R) : self_pricer R := mkSelfPricer [(1, call_100)] (cache nan s call_only rate).
Lemma one_call_new nan s : self_pricer_new nan [(1, call_100)] (flat_market s) = Ok (one_call nan s).
Proof.
  unfold self_pricer_new.
  change (portfolio_dependencies [(1, call_100)] (md_spot_date (flat_market s))) with (@Ok (collector R) (deps_of call_only)).
  cbn [bind]. rewrite one_cached. reflexivity.
Qed.

Definition settled (s : R) : holdings R :=
  if Rltb 0 (1 * (s - 100)) then [(1 * (1 * (s - 100)), payment_of (option_on stock 15%Z Call CashSettled))] else [].
Lemma one_expires nan s : update_instruments nan (to_day 20%Z) [(1, call_100)] (prefetch_context nan (cache nan s call_only rate)) (deps_of call_only) =
  Ok (true, settled s).
Proof.
  unfold settled, update_instruments. change (fixing_map _ _ _ _ _) with (@Ok (list (string * list (datetime * R))) [("BP"%string, [(mkDT 15%Z Open_, s)])]). cbn [bind].
  change (from_fixings _ _) with (@Ok (fixing_table R) (mkTable 20%Z [("BP"%string, [(mkDT 15%Z Open_, s)])])).
  cbn [bind]. cbn -[Rltb Rmult Rminus]. rnum. destruct (Rltb 0 (1 * (s - 100))); reflexivity.
Qed.

Lemma date_bumped nan s d : (0 < d)%Z -> exists p', prefetch_bump nan (BSpotDate (mkBumpSpotDate d StickySpot)) (cache nan s call_only rate) None = (Ok true, p', None) /\
  pf_data p' = mkMarket d [("BP"%string, s)] [("BP-CR"%string, rate); ("OPT-CR"%string, zero)] [("BP"%string, zero)]
    [("BP"%string, stream_new [] zero)] [("BP"%string, flat_vol)].
Proof.
  intros D. assert (TM : exists v', md_vol_surface nan (mkMarket d [("BP"%string, s)] [("BP-CR"%string, rate); ("OPT-CR"%string, zero)] [("BP"%string, zero)]
    [("BP"%string, stream_new [] zero)] [("BP"%string, flat_vol)]) stock 15%Z (Ok (EquityForward NullRule rate zero zero (mkBoot d 15%Z [])
      (s * exp (0 - 5 * (IZR d / 365) - (0 - 5 * (IZR d / 365)))) (0 - 5 * (IZR d / 365)))) = Ok v').
  { unfold md_vol_surface. change (find_data _ _ _) with (@Ok (vol_surface R) flat_vol). cbn [bind md_spot_date vol_time_dynamics_of stock].
    unfold time_modify, flat_vol. cbn [vs_base vs_calendar ddf_date]. destruct (Z.eqb_spec d 0); [lia|].
    rnum. rewrite ddf_new_zero. cbn [bind]. rewrite every_years by (cbn; lia). cbn [bind]. destruct (approx_eq _ _ _); eexists; reflexivity. }
  destruct TM as (v' & TM).
  assert (FC : md_forward_curve nan (mkMarket d [("BP"%string, s)] [("BP-CR"%string, rate); ("OPT-CR"%string, zero)] [("BP"%string, zero)]
    [("BP"%string, stream_new [] zero)] [("BP"%string, flat_vol)]) stock 15%Z = Ok (EquityForward NullRule rate zero zero (mkBoot d 15%Z [])
      (s * exp (0 - 5 * (IZR d / 365) - (0 - 5 * (IZR d / 365)))) (0 - 5 * (IZR d / 365)))).
  { change (equity_forward_new nan d s NullRule rate zero (stream_new [] zero) 15%Z = Ok (EquityForward NullRule rate zero zero (mkBoot d 15%Z [])
      (s * exp (0 - 5 * (IZR d / 365) - (0 - 5 * (IZR d / 365)))) (0 - 5 * (IZR d / 365)))).
    unfold equity_forward_new, log_discount_with_borrow, discount_with_borrow. cbn [apply_rule bind].
    unfold log_discount_with_borrow. rewrite rate_rt. unfold zero. rewrite zero_rt. cbn [bind]. reflexivity. }
  eexists. split.
  - unfold prefetch_bump, prefetch_bump_saved. cbn [bsd_date bsd_dynamics cache pf_data md_spot_date]. destruct (Z.eqb_spec d 0); [lia|].
    unfold md_bump_spot_date. cbn [bsd_date bsd_dynamics bind pf_deps md_spots md_yields md_borrows md_divs md_vols]. unfold refetch_all, walk_dependencies.
    cbn [pf_data pf_deps]. change (pf_deps (cache nan s call_only rate)) with (deps_of call_only). change (col_forward_curves (deps_of call_only)) with [("BP"%string, (stock, 15%Z))]. cbn [walk_loop].
    rewrite FC. change (vol_surface_hwm stock (deps_of call_only)) with (Some 15%Z). cbv iota beta. rewrite TM. reflexivity.
  - reflexivity.
Qed.

Lemma settled_new nan s : exists c, self_pricer_new nan (settled s) (mkMarket 20%Z [("BP"%string, s)] [("BP-CR"%string, rate); ("OPT-CR"%string, zero)] [("BP"%string, zero)]
  [("BP"%string, stream_new [] zero)] [("BP"%string, flat_vol)]) = Ok (mkSelfPricer (settled s) c) /\ md_spot_date (pf_data c) = 20%Z.
Proof. unfold settled. destruct (Rltb 0 (1 * (s - 100))); eexists; split; reflexivity. Qed.

Lemma time_passes nan s : exists sp sp', self_pricer_new nan [(1, call_100)] (flat_market s) = Ok sp /\
  self_bump_time nan (to_day 20%Z) sp = (Ok tt, sp') /\ sp_instruments sp' = settled s /\ md_spot_date (pf_data (sp_context sp')) = 20%Z.
Proof.
  destruct (date_bumped nan s 20%Z eq_refl) as (p' & B & D). destruct (settled_new nan s) as (c & E & DC).
  exists (one_call nan s), (mkSelfPricer (settled s) c). split; [apply one_call_new|]. split; [|split; [reflexivity|exact DC]].
  unfold self_bump_time, apply_time_bump. cbn [one_call sp_context sp_instruments bind].
  change (pf_deps (cache nan s call_only rate)) with (deps_of call_only). rewrite one_expires. cbn [to_day bt_spot_date_bump]. rewrite B. cbn [rmap].
  rewrite D, E. reflexivity.
Qed.

Lemma opposite_case nan cdf s : (forall x, cdf (- x) = 1 - cdf x) -> 0 < s -> exists sp x,
  self_pricer_new nan call_less_put (flat_market s) = Ok sp /\ look (pf_data (sp_context sp)) (SpotFor "BP") = Some (ASpot s) /\
  price_after (self_ops nan cdf) [BSpot "BP" (RelativeSpot (/ 2))] sp = Ok x.
Proof.
  intros sym S. exists (holding nan s). eexists. split; [apply holding_new|]. split; [reflexivity|]. cbn [price_after op_bump op_price self_ops].
  destruct (holding_bumped nan s (RelativeSpot (/ 2)) None (or_introl eq_refl)) as (sv & ->). apply holding_price; [exact sym|].
  cbn [apply_spot]. rnum. apply Rmult_le_pos; lra.
Qed.

(** Comparisons. *)
Definition tol_one : tolerances R := mkTol 1 1 1.
Definition table (x y : R) : smap (R * R) := [("BP"%string, (x, y))].
Lemma table_close a b x y x' y' : close x x' a -> close y y' b -> tables_close a b (table x y) (table x' y').
Proof.
  intros X Y. split; [reflexivity|]. unfold table. cbn [get]. intros id p q. destruct (String.eqb id "BP"); try discriminate. intros E F.
  injection E as <-. injection F as <-. now split.
Qed.
Lemma table_proper h x y : proper (DeltaGammaReport h (table x y)).
Proof. constructor. repeat constructor. intros []. Qed.

Lemma not_symmetric : exists tol (mine other : report R), proper mine /\ proper other /\
  assert_approx_eq_reports tol [mine] [other] = Ok tt /\ assert_approx_eq_reports tol [other] [mine] <> Ok tt.
Proof.
  exists tol_one, (DeltaGammaReport 1 (table 0 0)), (DeltaGammaReport 2 (table (3/4) 0)).
  split; [apply table_proper|]. split; [apply table_proper|]. split.
  - apply all_spec; [apply Forall_cons; [apply table_proper|apply Forall_nil]..|]. constructor; [|constructor]. constructor. apply table_close; unfold close; cbn [tol_unit_risk tol_one].
    + rewrite Rabs_left; lra.
    + rewrite Rabs_right; lra.
  - intros E. apply all_spec in E; [|apply Forall_cons; [apply table_proper|apply Forall_nil]..].
    inversion E as [|? ? ? ? A _]; subst. inversion A as [? ? ? ? TC| |]; subst. destruct TC as [_ TC].
    specialize (TC "BP"%string _ _ eq_refl eq_refl). destruct TC as [C _]. unfold close in C. cbn [fst tol_unit_risk tol_one] in C. rewrite Rabs_right in C; lra.
Qed.

Lemma agree_case : exists tol mine other, Forall proper mine /\ Forall proper other /\ mine <> other /\ Forall2 (agree tol) mine other.
Proof.
  exists tol_one, [TimeBumpedReport 5 0 [DeltaGammaReport 1 (table 0 0)]], [TimeBumpedReport (11/2) 0 [DeltaGammaReport 2 (table (3/4) 0)]].
  split; [|split; [|split]].
  1,2: apply Forall_cons; [|apply Forall_nil]; apply proper_time; apply Forall_cons; [apply table_proper|apply Forall_nil].
  { intros E. injection E. lra. }
  constructor; [|constructor]. constructor; [unfold close; cbn; rewrite Rabs_left; lra|unfold close; cbn; rewrite Rabs_right; lra|].
  constructor; [|constructor]. constructor. apply table_close; unfold close; cbn [tol_unit_risk tol_one].
  - rewrite Rabs_left; lra.
  - rewrite Rabs_right; lra.
Qed.

Lemma holding_reported : forall nan cdf s h, (forall x, cdf (- x) = 1 - cdf x) -> 0 < s -> 0 < h < 1 -> exists sp r u,
  self_pricer_new nan call_less_put (flat_market s) = Ok sp /\ self_price nan cdf sp = Ok u /\
  generate nan (self_ops nan cdf) (DeltaGammaGenerator h) sp saved_prefetch_new u = (Ok r, sp, saved_prefetch_new).
Proof.
  intros nan cdf s h sym S H. destruct (holding_report nan cdf s h sym S H) as (r & E). do 3 eexists.
  split; [apply holding_new|]. split; [apply holding_price; [exact sym|lra]|exact E].
Qed.

Lemma holding_delta : forall nan cdf s h, (forall x, cdf (- x) = 1 - cdf x) -> 0 < s -> 0 < h < 1 -> exists sp u m,
  self_pricer_new nan call_less_put (flat_market s) = Ok sp /\ self_price nan cdf sp = Ok u /\
  generate nan (self_ops nan cdf) (DeltaGammaGenerator h) sp saved_prefetch_new u = (Ok (DeltaGammaReport h m), sp, saved_prefetch_new) /\
  get "BP" m = Some (1, 0).
Proof.
  intros nan cdf s h sym S H. destruct (holding_report nan cdf s h sym S H) as (r & E).
  set (a := - (100 * exp (- growth))).
  assert (Q : forall x, 0 <= x -> Ok (x - 100 * exp (- growth)) = Ok (a + 1 * x + 0 * (x * x))) by (intros x _; f_equal; unfold a; ring).
  assert (X : exists m, r = DeltaGammaReport h m /\ get "BP" m = Some (1 + 2 * 0 * s, 2 * 0)).
  { refine (delta_quadratic nan cdf h (holding nan s) _ r _ _ a 1 0 "BP" s _ _ _ _ _ eq_refl _ E (or_introl eq_refl)); try lra.
    - rewrite holding_price by (auto; lra). apply Q. lra.
    - unfold a. ring.
    - intros x X. assert (0 <= x).
      { rewrite (Rabs_right (h * s)) in X by (apply Rle_ge, Rmult_le_pos; lra). pose proof (Rle_abs (- (x - s))) as A. rewrite Rabs_Ropp in A.
        pose proof (Rmult_lt_compat_r s h 1 S (proj2 H)). lra. }
      rewrite holding_at by auto. now apply Q. }
  destruct X as (m & -> & G). exists (holding nan s), (s - 100 * exp (- growth)), m.
  split; [apply holding_new|]. split; [apply holding_price; [exact sym|lra]|]. split; [exact E|]. rewrite G. f_equal. f_equal; ring.
Qed.
