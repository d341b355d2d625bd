(** A worked delta and gamma of one call. *)
From Coq Require Import ZArith List String Bool Lia Reals Lra.
From Verif Require Import Prelude Num L_Num M_Dates M_Calendar M_Curves M_Forward M_Vol M_Black76 M_Instruments M_Deps M_Risk M_Reports
  S_Math S_Vol S_Instruments S_Deps S_Risk S_Reports S_Greeks L_Vol L_VolTime L_VolCases L_Normal L_Black76 L_Deps L_Risk L_Prefetch L_PrefetchTop L_InstrumentCases L_DepsPricing
  L_RiskCases L_Reports L_SelfPricer L_SelfReports L_ReportCases L_BlackGreeks L_Greeks.
Import ListNotations.
Open Scope list_scope.
Open Scope R_scope.

Lemma one_call_price nan cdf s : 0 <= s ->
  self_price nan cdf (one_call nan s) = Ok (call_price cdf (exp (- growth) * exp 0) (s * exp growth - 0) (100 + 0) (sqrt var15)).
Proof.
  intros S. apply self_price_sum. cbn [sp_instruments one_call].
  match goal with |- context [Ok ?x] => idtac | _ => idtac end.
  pose proof (cached_price nan cdf s call_only Call S) as C. cbv iota in C.
  match type of C with _ = Ok ?x => replace x with (1 * x + 0) by ring; constructor; [|constructor]; unfold priced_at end. exact C.
Qed.

Lemma one_call_bumped nan s f save : save = None \/ save = Some saved_prefetch_new -> exists save',
  self_bump nan (BSpot "BP" f) (one_call nan s) save = (Ok true, one_call nan (apply_spot f s), save').
Proof.
  intros [-> | ->]; unfold self_bump, one_call; cbn [sp_context sp_instruments].
  - rewrite (spot_bumped_unsaved nan s call_only f eq_refl eq_refl). eauto.
  - unfold saved_prefetch_new. rewrite (spot_bumped nan s call_only f [] [] saved_data_new eq_refl eq_refl). eauto.
Qed.

Lemma one_call_report nan cdf s h u : 0 < s -> 0 < h < 1 -> exists r p' sv',
  generate nan (self_ops nan cdf) (DeltaGammaGenerator h) (one_call nan s) saved_prefetch_new u = (Ok r, p', sv').
Proof.
  intros S H. cbn [generate op_dependencies self_ops].
  change (keys (col_instruments (pf_deps (sp_context (one_call nan s))))) with ["BP"%string]. cbn [delta_loop].
  change (ctx_spot (op_context (self_ops nan cdf) (one_call nan s)) "BP") with (@Ok R s). cbv iota beta.
  unfold up_and_down, bumped_price. cbn [op_bump op_price self_ops].
  destruct (one_call_bumped nan s (RelativeSpot h) (Some saved_prefetch_new) (or_intror eq_refl)) as (s1 & B1).
  set (x1 := apply_spot (RelativeSpot h) s) in *. rnum.
  match goal with |- context [BSpot "BP" (RelativeSpot ?d)] => match d with context [_ / _] =>
    destruct (one_call_bumped nan x1 (RelativeSpot d) None (or_introl eq_refl)) as (s2 & B2) end end.
  rewrite B1.
  assert (X1 : 0 <= x1) by (unfold x1; cbn [apply_spot]; rnum; apply Rmult_le_pos; lra).
  rewrite (one_call_price nan cdf x1 X1). rewrite B2.
  match type of B2 with _ = (_, one_call nan ?x, _) => assert (X2 : 0 <= x) end.
  { unfold x1. cbn [apply_spot]. rnum. replace (s * (1 + h) * (1 + ((1 - h) / (1 + h) - 1))) with (s * (1 - h)) by (field; lra). apply Rmult_le_pos; lra. }
  rewrite (one_call_price nan cdf _ X2).
  destruct (wb_restore _ _ (self_well_behaved nan cdf) (BSpot "BP" (RelativeSpot h)) (BSpot "BP" (RelativeSpot ((1 - h) / (1 + h) - 1)))
    (one_call nan s) true _ s1 true _ s2 (spots_same _ _ _) B1 B2) as (_ & sv & -> & RS & CL).
  cbn [op_restore self_ops] in RS. cbn [op_restore self_ops]. rewrite RS. cbn [delta_loop rmap]. do 3 eexists. reflexivity.
Qed.

Lemma flat_forward nan s x F : forward_if nan (flat_market s) stock 15%Z x F -> F = x * exp growth.
Proof.
  intros (rt0 & b & d & f & A & B & C & D & E). injection A as <-. injection B as <-. injection C as <-.
  change (equity_forward_new nan 0%Z x NullRule rate zero (stream_new [] zero) 15%Z = Ok f) in D.
  rewrite carried_new in D by apply start_zero. injection D as <-.
  rewrite (carried_at nan x rate 15%Z 15%Z growth (Z.le_refl _) (rate_rt nan 15%Z)) in E. congruence.
Qed.

Lemma flat_inputs nan s D disp sd : other_inputs nan (flat_market s) (option_on stock 15%Z Call CashSettled) 100 D disp sd ->
  D = exp (- growth) /\ disp = 0 /\ sd = sqrt var15.
Proof.
  intros O. replace (exp (- growth)) with (exp (- growth) * exp 0) by (rewrite exp_0; ring). refine (other_same nan _ _ _ _ _ _ _ _ _ O _).
  exists rate, flat_vol, growth, 0%Z, 0, (mkDDF 0%Z 0), var15. cbn zeta.
  split; [reflexivity|]. split; [exact (rate_rt nan 15%Z)|]. split; [reflexivity|]. split; [apply start_zero|]. split; [reflexivity|].
  split; [reflexivity|]. split; [reflexivity|]. split; [apply stock_time|]. split; [|reflexivity].
  cbn [option_on van_expiry_time]. change (from_nil) with 0%Z. rewrite leb_same. rewrite forward_variance_started by (right; reflexivity).
  apply flat_variance.
Qed.

Lemma one_call_greeks nan N s h : normal_cdf N -> 0 < s -> 0 < h < 1 -> exists sp value m sp' sv' delta gamma,
  self_pricer_new nan [(1, call_100)] (flat_market s) = Ok sp /\ self_price nan N sp = Ok value /\
  generate nan (self_ops nan N) (DeltaGammaGenerator h) sp saved_prefetch_new value = (Ok (DeltaGammaReport h m), sp', sv') /\
  get "BP" m = Some (delta, gamma) /\ 0 < delta < 1 /\ 0 < gamma.
Proof.
  intros HN S H. destruct (one_call_report nan N s h (call_price N (exp (- growth) * exp 0) (s * exp growth - 0) (100 + 0) (sqrt var15)) S H) as (r & p' & sv' & E).
  destruct (option_greeks nan N 1 (option_on stock 15%Z Call CashSettled) 100 "BP" "BP-CR" usd NullRule eq_refl HN (flat_market s) _ s h _ r p' sv'
    eq_refl (one_call_new nan s) eq_refl S H (one_call_price nan N s (Rlt_le _ _ S)) E)
    as (m & delta & gamma & D & disp & sd & down & here & up & -> & G & OI & FD & FH & FU & MID & DP & Q).
  exists (one_call nan s). do 2 eexists. exists p', sv', delta, gamma. split; [apply one_call_new|]. split; [apply one_call_price; lra|]. split; [exact E|].
  split; [exact G|]. destruct (flat_inputs _ _ _ _ _ OI) as (-> & -> & ->).
  apply flat_forward in FD, FH, FU. subst down here up. assert (EG := exp_pos growth).
  assert (HS : 0 < h * s) by (apply Rmult_lt_0_compat; lra).
  destruct Q as ((z & Z & ->) & _ & GA & _).
  - split; [apply Rmult_lt_0_compat; [|lra]; apply Rmult_lt_0_compat; lra|]. nra.
  - lra.
  - apply sqrt_lt_R0. unfold var15. lra.
  - split; [|apply GA; lra]. rewrite exp_Ropp.
    match goal with |- context [hedge N _ ?x] => assert (B := conj (cdf_pos N HN x) (cdf_lt_1 N HN x)); cbn [van_put_or_call option_on hedge]; replace (1 * (/ exp growth * ((s * (1 + h) * exp growth - s * (1 - h) * exp growth) / (2 * h * s)) * N x)) with (N x) by (field; lra) end.
    exact B.
Qed.
