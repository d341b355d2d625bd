(** Worked implied volatilities. *)
From Coq Require Import ZArith List String Bool Lia Reals Lra.
From Verif Require Import Prelude Num M_Brent M_Dates M_Search M_Calendar M_Curves M_Fixings M_Forward M_Vol M_Black76 M_Instruments M_Deps M_Risk M_Reports M_Solver
  S_Math S_Vol S_Instruments S_Deps S_Risk S_Reports S_Solver L_Num L_Fixings L_Brent L_Vol L_VolTime L_VolCases L_Black76 L_Deps L_Risk L_Prefetch L_PrefetchTop L_InstrumentCases L_DepsPricing
  L_RiskCases L_Reports L_SelfPricer L_SelfReports L_ReportCases L_Solver.
Import ListNotations.
Open Scope list_scope.
Open Scope R_scope.

(** The call on its own, with a flat volatility. *)
Definition flat_at (v : R) : vol_surface R := FlatVolSurface v EveryDay (mkDDF 0%Z 0).
Definition call_with (nan s v : R) : self_pricer R :=
  mkSelfPricer [(1, call_100)]
    (mkPrefetch (mkMarket 0%Z [("BP"%string, s)] [("BP-CR"%string, rate); ("OPT-CR"%string, zero)] [("BP"%string, zero)]
      [("BP"%string, stream_new [] zero)] [("BP"%string, flat_at v)]) (deps_of call_only) [("BP"%string, carried s rate 15%Z)] [("BP"%string, flat_at v)]).

Lemma call_replaced nan s v : self_bump nan (BVol "BP" (ReplaceVol v)) (one_call nan s) None = (Ok true, call_with nan s v, None).
Proof.
  unfold self_bump, one_call. cbn [sp_context sp_instruments]. unfold prefetch_bump.
  rewrite (bump_dispatch nan (BVol "BP" (ReplaceVol v)) _ _ _ _ (VolFor "BP") eq_refl).
  unfold refetch_for, known. change (look (pf_data (cache nan s call_only rate)) (VolFor "BP")) with (Some (ASurface flat_vol)). cbv iota.
  match goal with |- context [mkPrefetch ?d _ _ _] =>
    use_refetch (refetch_flat nan d call_only (carried s rate 15%Z) None None flat_vol (flat_at v) eq_refl eq_refl eq_refl) end.
  reflexivity.
Qed.

Definition call_value (cdf : R -> R) (s v : R) : R :=
  call_price cdf (exp (- growth) * exp 0) (s * exp growth - 0) (100 + 0) (sqrt ((15 + 0) / 365 * v ^ 2)).

Lemma flat_at_variance nan v k : variance nan (flat_at v) (mkDDF 15%Z 0) k = Ok ((15 + 0) / 365 * v ^ 2).
Proof.
  apply variance_real. unfold volatility_is, flat_at. cbn [volatilities map]. rewrite every_years by (cbn; lia). cbn [bind].
  do 2 f_equal. cbn [ddf_date ddf_frac]. replace (IZR (15 - 0)) with 15 by reflexivity. field.
Qed.

Lemma call_with_price nan cdf s v : 0 <= s -> self_price nan cdf (call_with nan s v) = Ok (call_value cdf s v).
Proof.
  intros S. pose proof (flat_at_variance nan v 100) as V.
  apply self_price_sum. cbn [sp_instruments call_with]. replace (call_value cdf s v) with (1 * call_value cdf s v + 0) by ring.
  constructor; [|constructor]. unfold priced_at.
  apply (option_price nan cdf (prefetch_context nan (sp_context (call_with nan s v))) (option_on stock 15%Z Call CashSettled)) with
    (tm := mkDDF 0%Z 0) (vol := flat_at v) (yc := rate) (st := 0%Z); try reflexivity; try assumption.
  - unfold first_price. cbn [call_with sp_context prices stock option_on van_underlying van_expiry prefetch_context ctx_spot_date ctx_forward_curve dt_date pf_data md_spot_date pf_forwards instrument_id].
    change ((15 =? 0)%Z) with false. unfold find_data. cbn [get String.eqb Ascii.eqb Bool.eqb bind mapM].
    pose proof (carried_at nan s rate 15%Z 15%Z growth (Z.le_refl _) (rate_rt nan 15%Z)) as FA. cbn [dt_date]. rewrite FA. reflexivity.
  - pose proof (exp_pos growth). rewrite Rminus_0_r. apply Rmult_le_pos; lra.
  - apply start_zero.
  - apply stock_time.
  - apply leb_same.
  - right. reflexivity.
  - apply Rmult_le_pos; [lra|]. apply pow2_ge_0.
Qed.

Lemma call_given nan cdf s v : 0 <= s -> price_after (self_ops nan cdf) [BVol "BP" (ReplaceVol v)] (one_call nan s) = Ok (call_value cdf s v).
Proof. intros S. cbn [price_after op_bump op_price self_ops]. rewrite call_replaced. now apply call_with_price. Qed.

Lemma call_value_increases cdf s v w : normal_cdf cdf -> 0 < s -> 0 < Rabs v < Rabs w -> call_value cdf s v < call_value cdf s w.
Proof.
  intros HN S (V & W). unfold call_value.
  assert (SQ : forall x, sqrt ((15 + 0) / 365 * x ^ 2) = sqrt (15 / 365) * Rabs x).
  { intros x. rewrite Rplus_0_r, sqrt_mult by (try apply pow2_ge_0; lra). f_equal. rewrite <- (pow2_abs x). apply sqrt_pow2, Rabs_pos. }
  rewrite !SQ. assert (0 < sqrt (15 / 365)) by (apply sqrt_lt_R0; lra).
  apply (call_increasing_in_s cdf HN).
  - rewrite exp_0, Rmult_1_r. apply exp_pos.
  - rewrite Rminus_0_r. apply Rmult_lt_0_compat; [assumption|apply exp_pos].
  - lra.
  - split; [apply Rmult_lt_0_compat; assumption|apply Rmult_lt_compat_l; assumption].
Qed.

Lemma one_vol nan cdf s : depends_on_vols (self_ops nan cdf) (one_call nan s) ["BP"%string].
Proof. exists (deps_of call_only). split; reflexivity. Qed.

(** A search that ends at once: the volatility asked for is the lower bound. *)
Lemma zero_at_once nan (f : R -> res R) a b y tol n : f a = Ok 0 -> f b = Ok y -> 0 < y ->
  zbrent _ (logged f) nan a b tol (Datatypes.S n) [] = (Ok a, [b; a]).
Proof.
  intros A B Y. unfold zbrent, logged at 1 2. rewrite A, B.
  assert (SS : same_sign 0 y = false) by (apply same_sign_false; lra). rewrite SS. cbn [brent_loop].
  assert (PR : brent_prepare (mkBrent a b b nan nan 0 y y) = mkBrent b a b (b - a) (b - a) y 0 y).
  { unfold brent_prepare, rebracket. cbn [ba bb bc bd be bfa bfb bfc].
    assert (S2 : same_sign y y = true) by (apply same_sign_iff; lra). rewrite S2. unfold rotate. cbn [ba bb bc bd be bfa bfb bfc]. rnum.
    rewrite Rabs_R0, (Rabs_right y) by lra. destruct (Rltb_spec 0 y); [reflexivity|lra]. }
  rewrite PR. cbn [bfb bb]. rnum. destruct (Reqb_spec 0 0); [|lra]. rewrite orb_true_r. reflexivity.
Qed.

Lemma call_excess nan cdf s target v : 0 <= s -> excess (self_ops nan cdf) "BP" (one_call nan s) target v = Ok (call_value cdf s v - target).
Proof. intros S. unfold excess. rewrite call_given by exact S. reflexivity. Qed.

(** Where a search leaves the pricer. *)
Lemma search_left {P} nan (ops : pricer_ops R P) sv target lo hi p id r v rest y b q s : replaceable ops -> depends_on_vols ops p [id] ->
  zbrent _ (logged (excess ops id p target)) nan lo hi (iv_tolerance sv) (iv_max_iter sv) [] = (r, v :: rest) ->
  excess ops id p target v = Ok y -> op_bump ops (BVol id (ReplaceVol v)) p None = (Ok b, q, s) ->
  solve nan ops sv target lo hi p = (r, q).
Proof.
  intros R D X Y B. destruct (solve_follows nan ops R sv target lo hi p id (proj2 (single_spec _ _ _) D)) as (log & Z & L).
  destruct (solve nan ops sv target lo hi p) as [r0 p0]. cbn [fst snd] in Z, L. rewrite X in Z. injection Z as -> <-. f_equal.
  destruct L as [(r' & s' & L)|(x & l & E & Q)].
  - rewrite B in L. now injection L.
  - injection E as <- _. rewrite Y in Q. discriminate.
Qed.

Lemma call_left nan cdf s sv target lo hi r v rest : 0 <= s ->
  zbrent _ (logged (excess (self_ops nan cdf) "BP" (one_call nan s) target)) nan lo hi (iv_tolerance sv) (iv_max_iter sv) [] = (r, v :: rest) ->
  solve nan (self_ops nan cdf) sv target lo hi (one_call nan s) = (r, call_with nan s v).
Proof.
  intros S X. exact (search_left nan (self_ops nan cdf) sv target lo hi (one_call nan s) "BP" r v rest _ true (call_with nan s v) None
    (self_replaceable nan cdf) (one_vol nan cdf s) X (call_excess nan cdf s target v S) (call_replaced nan s v)).
Qed.

Lemma ends_at_once nan cdf s a b tol n : normal_cdf cdf -> 0 < s -> 0 < a < b ->
  solve nan (self_ops nan cdf) (mkImpliedVol tol (S n)) (call_value cdf s a) a b (one_call nan s) = (Ok a, call_with nan s b).
Proof.
  intros HN S A. apply (call_left nan cdf s) with (rest := [a]); [lra|]. cbn [iv_tolerance iv_max_iter].
  apply zero_at_once with (y := call_value cdf s b - call_value cdf s a).
  - rewrite call_excess by lra. f_equal. ring.
  - apply call_excess. lra.
  - assert (B : 0 < Rabs a < Rabs b) by (rewrite !Rabs_right by lra; lra). pose proof (call_value_increases cdf s a b HN S B). lra.
Qed.

Lemma left_elsewhere : exists nan cdf s v target lo hi p p' vol x, normal_cdf cdf /\
  self_pricer_new nan [(1, call_100)] (flat_market s) = Ok p /\
  solve nan (self_ops nan cdf) v target lo hi p = (Ok vol, p') /\
  price_after (self_ops nan cdf) [BVol "BP" (ReplaceVol vol)] p = Ok target /\
  op_price (self_ops nan cdf) p' = Ok x /\ target < x.
Proof.
  destruct L_Normal.normal_cdf_exists as (cdf & HN).
  exists 0, cdf, 100, (mkImpliedVol (/ 1000) 100), (call_value cdf 100 1), 1, 2, (one_call 0 100), (call_with 0 100 2), 1, (call_value cdf 100 2).
  assert (P : 0 < 100) by lra. assert (Q : 0 <= 100) by lra.
  split; [exact HN|]. split; [apply one_call_new|]. split; [apply ends_at_once; (assumption || lra)|].
  split; [now apply call_given|]. split; [now apply call_with_price|].
  apply call_value_increases; [assumption|assumption|]. rewrite !Rabs_right by lra. lra.
Qed.

(** A target that is not bracketed: an error, and the pricer is left with the upper bound. *)
Lemma unbracketed_left nan cdf s v target lo hi : normal_cdf cdf -> 0 < s -> 0 < lo < hi -> target < call_value cdf s lo -> exists m,
  solve nan (self_ops nan cdf) v target lo hi (one_call nan s) = (Err m, call_with nan s hi).
Proof.
  intros HN S A T. assert (B : 0 < Rabs lo < Rabs hi) by (rewrite !Rabs_right by lra; lra). pose proof (call_value_increases cdf s lo hi HN S B) as I.
  assert (S0 : 0 <= s) by lra.
  destruct (L_Brent.zbrent_unbracketed nan lo hi (iv_tolerance v) (iv_max_iter v) _ _ _ (call_excess nan cdf s target lo S0) (call_excess nan cdf s target hi S0)) as (m & X);
    [apply Rmult_gt_0_compat; lra|].
  exists m. exact (call_left nan cdf s v target lo hi _ _ _ S0 X).
Qed.

Lemma call_solved nan cdf s v lo hi tol j n : normal_cdf cdf -> 0 < s -> 0 < lo < v -> v < hi ->
  0 < tol -> hi - lo < tol / 2 * 2 ^ j -> ((j + 1) * (j + 1) <= n)%nat ->
  exists vol p', solve nan (self_ops nan cdf) (mkImpliedVol tol n) (call_value cdf s v) lo hi (one_call nan s) = (Ok vol, p') /\
    let within x y := Rabs (x - y) <= 4 * / 4503599627370496 * Rabs vol + tol in within (Rabs vol) v \/ within vol 0.
Proof.
  intros HN Ps Pl Ph Ht Hw Hn. assert (S0 : 0 <= s) by lra.
  destruct (solve_ends nan (self_ops nan cdf) (self_replaceable nan cdf) (mkImpliedVol tol n) (call_value cdf s v) lo hi (one_call nan s) "BP" j) as (vol & p' & E).
  - exact Ht.
  - rewrite Rabs_right by lra. exact Hw.
  - exact Hn.
  - apply one_vol.
  - intros w _. rewrite (call_given nan cdf s w S0). eauto.
  - intros x y. rewrite !(call_given nan cdf s) by exact S0. intros X Y. injection X as <-. injection Y as <-. left.
    split; left; apply call_value_increases; try assumption; rewrite !Rabs_right by lra; lra.
  - exists vol, p'. split; [exact E|].
    pose proof (solve_near nan (self_ops nan cdf) (self_replaceable nan cdf) (mkImpliedVol tol n) (call_value cdf s v) lo hi (one_call nan s) vol p' "BP" E (one_vol nan cdf s)) as SN.
    cbv zeta in SN. cbn [iv_tolerance] in SN. rewrite (Rabs_right tol) in SN by lra. apply SN; [|lra|apply call_given; exact S0].
    intros v1 w x y L. rewrite !(call_given nan cdf s) by exact S0. intros X Y. injection X as <-. injection Y as <-. now apply call_value_increases.
Qed.
