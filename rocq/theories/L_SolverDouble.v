(** Implied volatilities of an option struck at its forward, on doubles. *)
From Coq Require Import ZArith List String Bool Lia Reals Lra.
From Coq.Floats Require Import SpecFloat.
From Flocq Require Import Core.
From Verif Require Import Prelude Num M_Brent M_Dates M_Search M_Calendar M_Curves M_Fixings M_Forward M_Vol M_Black76 M_Instruments M_Deps M_Risk M_Reports M_Solver
  S_Risk S_Math S_Solver S_Reports S_SolverDouble S_Double S_BlackDouble L_Prefetch L_Double L_DoubleError L_PricingAny L_BlackDouble L_BrentDouble L_Solver L_BrentNan.
Import ListNotations.
Open Scope list_scope.
Open Scope R_scope.

Definition nil_rate : curve F64 := ZeroRateCurve 0%Z.
Definition vol_at (v : F64) : vol_surface F64 := FlatVolSurface v EveryDay (mkDDF 0%Z n0).
Definition market_at (v : F64) : market_data F64 :=
  mkMarket 0%Z [("BP"%string, nofZ 100)] [("BP-CR"%string, nil_rate); ("OPT-CR"%string, nil_rate)] [("BP"%string, nil_rate)]
    [("BP"%string, stream_new [] nil_rate)] [("BP"%string, vol_at v)].
Definition own_call : instrument F64 := ISpotEuropean (share_option Call) (nofZ 100).
Definition own_forward : forward F64 := EquityForward NullRule nil_rate nil_rate nil_rate (mkBoot 0%Z 365%Z []) (nofZ 100) n0.
Definition own_deps : collector F64 :=
  Eval vm_compute in match portfolio_dependencies [(n1 : F64, own_call)] 0%Z with Ok d => d | _ => collector_new 0%Z end.
Definition own_with (v : F64) : self_pricer F64 :=
  mkSelfPricer [(n1, own_call)] (mkPrefetch (market_at v) own_deps [("BP"%string, own_forward)] [("BP"%string, vol_at v)]).

Section Own.
  Context (TR : Trans F64) (nan : F64).
  Hypothesis Exp0 : nexp n0 = n1.

  Lemma own_forward_new v : md_forward_curve nan (market_at v) share 365%Z = Ok own_forward.
  Proof.
    change (equity_forward_new nan 0%Z (nofZ 100 : F64) NullRule nil_rate nil_rate (stream_new [] nil_rate) 365%Z = Ok own_forward).
    assert (L : log_discount_with_borrow nan nil_rate nil_rate 0%Z = Ok (n0 : F64)) by (vm_compute; reflexivity).
    unfold equity_forward_new. rewrite L. cbn [bind apply_rule]. unfold discount_with_borrow. rewrite L. cbn [bind].
    change (nsub n0 n0 : F64) with (n0 : F64). rewrite Exp0. vm_compute. reflexivity.
  Qed.
  Lemma own_vol_new v : md_vol_surface nan (market_at v) share 365%Z (Ok own_forward) = Ok (vol_at v).
  Proof. reflexivity. Qed.

  Lemma own_new v : self_pricer_new nan [(n1, own_call)] (market_at v) = Ok (own_with v).
  Proof.
    unfold self_pricer_new. assert (D : portfolio_dependencies [((n1 : F64), own_call)] (md_spot_date (market_at v)) = Ok own_deps) by (vm_compute; reflexivity).
    rewrite D. cbn [bind]. unfold prefetch_new, walk_dependencies. change (col_forward_curves own_deps) with [("BP"%string, (share, 365%Z))]. cbn [walk_loop].
    rewrite own_forward_new. change (vol_surface_hwm share own_deps) with (Some 365%Z). cbv iota beta. rewrite own_vol_new. reflexivity.
  Qed.

  Lemma own_bumped v w : self_bump nan (BVol "BP" (ReplaceVol v)) (own_with w) None = (Ok true, own_with v, None).
  Proof.
    unfold self_bump, own_with. cbn [sp_context sp_instruments]. unfold prefetch_bump.
    rewrite (bump_dispatch nan (BVol "BP" (ReplaceVol v)) _ _ _ _ (VolFor "BP") eq_refl).
    unfold refetch_for, known. change (look (pf_data (mkPrefetch (market_at w) own_deps [("BP"%string, own_forward)] [("BP"%string, vol_at w)])) (VolFor "BP")) with (Some (ASurface (vol_at w))). cbv iota.
    match goal with |- context [mkPrefetch ?d _ _ _] => change d with (market_at v) end.
    unfold refetch, refetch_vol. cbn [negb andb pf_forwards pf_deps pf_vols pf_data get String.eqb Ascii.eqb Bool.eqb put].
    change (instrument_by_id "BP" own_deps) with (Some share). cbv iota beta. change (vol_surface_hwm share own_deps) with (Some 365%Z). cbv iota beta.
    rewrite own_vol_new. reflexivity.
  Qed.

  Variable cdf : F64 -> F64.

  Lemma own_vol v : depends_on_vols (self_ops nan cdf) (own_with v) ["BP"%string].
  Proof. exists own_deps. split; reflexivity. Qed.

  Lemma own_variance v from k : ddf_leb from (mkDDF 0%Z n0) = true -> forward_variance nan (vol_at v) from (mkDDF 365%Z n0) k = Ok (nmul (nmul n1 v) v).
  Proof.
    intros L. unfold forward_variance, forward_variances, vol_at. cbn [vs_base]. rewrite L. unfold variances. cbn [volatilities].
    assert (Y : year_fraction (EveryDay : calendar F64) (mkDDF 0%Z n0) (mkDDF 365%Z n0) = Ok n1) by (vm_compute; reflexivity). rewrite Y. reflexivity.
  Qed.

  Definition own_price (v : F64) : F64 := call_price cdf (nmul (nexp (nopp n0)) (nexp n0)) (nofZ 100) (nofZ 100) (nsqrt (nmul (nmul n1 v) v)).

  Lemma own_self_price v : nltb (nmul (nmul n1 v) v) n0 = false -> self_price nan cdf (own_with v) = Ok (nadd n0 (nmul n1 (own_price v))).
  Proof.
    intros V. unfold self_price. set (c := prefetch_context nan (sp_context (own_with v))). change (sp_instruments (own_with v)) with [((n1 : F64), own_call)].
    assert (G : nsub (nofZ 100 : F64) n0 = nofZ 100) by (vm_compute; reflexivity). assert (K : nadd (nofZ 100 : F64) n0 = nofZ 100) by (vm_compute; reflexivity).
    assert (P : price nan cdf c own_call (mkDT 0%Z Open_) = Ok (call_price cdf (nmul (nexp (nopp n0)) (nexp n0)) (nsub (nofZ 100 : F64) n0) (nadd (nofZ 100) n0) (nsqrt (nmul (nmul n1 v) v)))).
    { apply (spot_priced nan cdf c (share_option Call) (nofZ 100) (mkDT 0%Z Open_) (nofZ 100) nil_rate (vol_at v) n0 n0 0%Z n0 (mkDDF 0%Z n0) (nmul (nmul n1 v) v)).
      - reflexivity.
      - assert (E : forward_at nan own_forward 365%Z = Ok (nofZ 100)).
        { unfold own_forward, forward_at. assert (L : log_discount_with_borrow nan nil_rate nil_rate 365%Z = Ok (n0 : F64)) by (vm_compute; reflexivity).
          assert (Y : rt nan nil_rate 365%Z = Ok (n0 : F64)) by (vm_compute; reflexivity).
          change (discounted_sum_from_base (mkBoot 0%Z 365%Z []) 365%Z) with (Ok (n0 : F64)). cbn [bind apply_rule]. rewrite L, Y. cbn [bind].
          change (nsub (nadd n0 n0) n0 : F64) with (n0 : F64). rewrite Exp0. vm_compute. reflexivity. }
        change (first_price (let* fwd := Ok own_forward in mapM (fun d => forward_at nan fwd (dt_date d)) [mkDT 365%Z Open_]) = Ok (nofZ 100 : F64)).
        cbn [bind mapM dt_date]. rewrite E. reflexivity.
      - reflexivity.
      - reflexivity.
      - reflexivity.
      - vm_compute. reflexivity.
      - reflexivity.
      - vm_compute. reflexivity.
      - vm_compute. reflexivity.
      - apply own_variance. vm_compute. reflexivity.
      - rewrite G. vm_compute. reflexivity.
      - exact V. }
    rewrite G, K in P. cbn [foldM fst snd]. change (ctx_spot_date c) with 0%Z. rewrite P. reflexivity.
  Qed.

  Lemma own_given v w : nltb (nmul (nmul n1 v) v) n0 = false ->
    price_after (self_ops nan cdf) [BVol "BP" (ReplaceVol v)] (own_with w) = Ok (nadd n0 (nmul n1 (own_price v))).
  Proof. intros V. cbn [price_after op_bump op_price self_ops]. rewrite own_bumped. now apply own_self_price. Qed.

  Lemma own_at_zero w : logs TR -> cdf F_nan = F_nan -> price_after (self_ops nan cdf) [BVol "BP" (ReplaceVol n0)] (own_with w) = Ok F_nan.
  Proof.
    intros HL CN. rewrite own_given by reflexivity. unfold own_price. change (nsqrt (nmul (nmul n1 n0) n0) : F64) with (n0 : F64).
    assert (F : finite (nofZ 100 : F64)) by (split; reflexivity). assert (R : real (nofZ 100) = 100) by (vm_compute; lra).
    destruct (at_the_money cdf TR (nmul (nexp (nopp n0)) (nexp n0)) (nofZ 100) (nofZ 100) HL CN F F) as [C _]; [lra|reflexivity|]. rewrite C. reflexivity.
  Qed.

  Lemma own_priced v w : finite v -> 0 < real v <= bpow radix2 400 -> exists y, price_after (self_ops nan cdf) [BVol "BP" (ReplaceVol v)] (own_with w) = Ok y.
  Proof.
    intros F B. eexists. apply own_given. destruct one_spec as [F1 R1].
    assert (P4 : bpow radix2 800 = bpow radix2 400 * bpow radix2 400) by (rewrite <- bpow_plus; reflexivity).
    destruct (mul_spec n1 v F1 F) as [Fm Rm]. { rewrite R1, Rmult_1_l. apply (bound_in_range _ 400); [lia|]. rewrite Rabs_right; lra. }
    rewrite R1, Rmult_1_l, rnd_exact in Rm by now apply finite_format.
    assert (Q : 0 < real v * real v <= bpow radix2 800) by nra.
    destruct (mul_spec (nmul n1 v) v Fm F) as [Fq Rq]. { rewrite Rm. apply (bound_in_range _ 800); [lia|]. rewrite Rabs_right; lra. }
    destruct (nltb (nmul (nmul n1 v) v) n0) eqn:K; [|reflexivity]. exfalso.
    assert (F0 : finite n0) by (split; reflexivity). apply (ltb_spec _ _ Fq F0) in K. change (real n0) with 0 in K. rewrite Rq, Rm in K.
    assert (0 <= rnd (real v * real v)); [|lra]. rewrite <- (rnd_exact 0) by apply generic_format_0. apply round_le; [apply FLT_exp_valid; reflexivity|apply valid_rnd_N|lra].
  Qed.

  (** Nothing but an exact solution or next to no volatility, whatever the price. *)
  Lemma own_solved target hi tol n w y : logs TR -> cdf F_nan = F_nan ->
    price_after (self_ops nan cdf) [BVol "BP" (ReplaceVol hi)] (own_with w) = Ok y -> number y -> finite target ->
    finite tol -> bpow radix2 (-900) <= real tol <= bpow radix2 900 -> finite hi -> bpow radix2 (-900) <= real hi <= bpow radix2 400 -> real hi <= real tol * 2 ^ n ->
    exists vol p' x, solve nan (self_ops nan cdf) (mkImpliedVol tol (S n)) target n0 hi (own_with w) = (Ok vol, p') /\ finite vol /\ 0 < real vol /\
      price_after (self_ops nan cdf) [BVol "BP" (ReplaceVol vol)] (own_with w) = Ok x /\
      (neqb (nsub x target) n0 = true \/ real vol <= real tol * (1 + bpow radix2 (-40))).
  Proof.
    intros HL CN Y Ny Ft Ftol Btol Fh Bh L.
    assert (E0 : excess (self_ops nan cdf) "BP" (own_with w) target n0 = Ok F_nan).
    { rewrite (excess_of _ _ _ _ _ _ (own_at_zero w HL CN)). now destruct target. }
    assert (P49 : bpow radix2 400 <= bpow radix2 900) by (apply bpow_le; lia).
    destruct (zbrent_to_zero (excess (self_ops nan cdf) "BP" (own_with w) target) nan hi tol n (nsub y target) E0) as (b & log & Z & Fb & Rb & z & Fz & K);
      try assumption; try lra.
    - now apply excess_of.
    - now apply sub_number.
    - intros v Fv Bv. destruct (own_priced v w Fv) as (x & X); [lra|]. exists (nsub x target). now apply excess_of.
    - destruct (excess_price _ _ _ _ _ _ Fz) as (x & X & ->).
      destruct (solve_follows nan (self_ops nan cdf) (self_replaceable nan cdf) (mkImpliedVol tol (S n)) target n0 hi (own_with w) "BP" (proj2 (single_spec _ _ _) (own_vol w))) as (log' & Zs & _).
      cbn [iv_tolerance iv_max_iter] in Zs. rewrite Z in Zs. destruct (solve nan (self_ops nan cdf) (mkImpliedVol tol (S n)) target n0 hi (own_with w)) as [r p']. cbn [fst] in Zs.
      inversion Zs; subst. exists b, p', x. repeat split; try assumption; try apply Fb; lra.
  Qed.
End Own.

Lemma at_the_money_solved :
  let flat : curve F64 := ZeroRateCurve 0%Z in
  let market w := mkMarket 0%Z [("BP"%string, nofZ 100)] [("BP-CR"%string, flat); ("OPT-CR"%string, flat)] [("BP"%string, flat)]
    [("BP"%string, stream_new [] flat)] [("BP"%string, FlatVolSurface w EveryDay (mkDDF 0%Z n0))] in
  forall (TR : Trans F64) nan cdf w v, nexp n0 = n1 -> logs TR -> cdf F_nan = F_nan ->
  vanilla_new "OPT" "OPT-CR" (IEquity "BP" "BP-CR" (mkCurrency "USD" NullRule) NullRule) NullRule (mkDT 365%Z Open_) Call CashSettled = Ok v ->
  exists p, self_pricer_new nan [(n1, ISpotEuropean v (nofZ 100))] (market w) = Ok p /\
  forall target hi tol n y, price_after (self_ops nan cdf) [BVol "BP" (ReplaceVol hi)] p = Ok y -> number y -> finite target ->
    finite tol -> bpow radix2 (-900) <= real tol <= bpow radix2 900 -> finite hi -> bpow radix2 (-900) <= real hi <= bpow radix2 400 -> real hi <= real tol * 2 ^ n ->
    exists vol p' x, solve nan (self_ops nan cdf) (mkImpliedVol tol (S n)) target n0 hi p = (Ok vol, p') /\ finite vol /\ 0 < real vol /\
      price_after (self_ops nan cdf) [BVol "BP" (ReplaceVol vol)] p = Ok x /\
      (neqb (nsub x target) n0 = true \/ real vol <= real tol * (1 + bpow radix2 (-40))).
Proof.
  intros flat market TR nan cdf w v E0 HL CN V. fold share in V. rewrite share_option_new in V. injection V as <-. exists (own_with w).
  split; [exact (own_new TR nan E0 w)|]. intros target hi tol n y. intros. now apply (own_solved TR nan E0 cdf target hi tol n w y).
Qed.

(** ** A case *)

Definition signs : Trans F64 := {| nexp := fun _ => n1; nln := fun x => if nltb n1 x then n1 else if nltb x n1 then nopp n1 else n0 |}.
Lemma signs_logs : logs signs.
Proof.
  intros x N _. assert (N1 : number (n1 : F64)) by (split; [reflexivity|discriminate]). assert (P1 : place n1 = 1) by (vm_compute; lra).
  pose proof (ltb_place n1 x N1 N) as A. pose proof (ltb_place x n1 N N1) as B. rewrite P1 in A, B. cbn [nln signs].
  destruct (nltb n1 x) eqn:K; [|destruct (nltb x n1) eqn:K'].
  - pose proof (proj1 A eq_refl). split; [exact N1|]. rewrite P1. lra.
  - pose proof (proj1 B eq_refl). assert (M : place (nopp n1) = -1) by (vm_compute; lra). split; [split; [reflexivity|discriminate]|]. rewrite M. lra.
  - split; [split; [reflexivity|discriminate]|]. rewrite (place_0). split; [|split; [|lra]]; intros Q; [apply A in Q|apply B in Q]; discriminate.
Qed.
Definition step_cdf (x : F64) : F64 := if neqb x x then if nltb x n0 then n0 else n1 else F_nan.

Lemma own_case : nexp (Trans := signs) n0 = n1 /\ logs signs /\ step_cdf F_nan = F_nan /\
  exists y, price_after (self_ops (TR := signs) F_nan step_cdf) [BVol "BP" (ReplaceVol n1)] (own_with (nlit 1 5)) = Ok y /\ number y /\
  finite (nofZ 50 : F64) /\ finite (nlit 1 100 : F64) /\ bpow radix2 (-900) <= real (nlit 1 100) <= bpow radix2 900 /\
  finite (n1 : F64) /\ bpow radix2 (-900) <= real n1 <= bpow radix2 400 /\ real n1 <= real (nlit 1 100) * 2 ^ 7.
Proof.
  split; [reflexivity|]. split; [apply signs_logs|]. split; [reflexivity|]. eexists.
  split; [rewrite own_given; reflexivity|].
  assert (R1 : real n1 = 1) by apply one_spec.
  assert (RH : real (nlit 1 100) * 2 ^ 7 >= 1) by (vm_compute; lra).
  assert (RL : 0 < real (nlit 1 100) <= 1) by (vm_compute; lra).
  assert (P1 : bpow radix2 (-900) <= bpow radix2 (-7)) by (apply bpow_le; lia). assert (P7 : bpow radix2 (-7) = / 128) by reflexivity.
  assert (P9 : 1 <= bpow radix2 900) by (change 1 with (bpow radix2 0); apply bpow_le; lia). assert (P4 : 1 <= bpow radix2 400) by (change 1 with (bpow radix2 0); apply bpow_le; lia).
  split; [split; [reflexivity|vm_compute; discriminate]|]. split; [split; reflexivity|]. split; [split; reflexivity|]. split; [lra|].
  split; [split; reflexivity|]. split; lra.
Qed.

#[local] Existing Instance signs.
Lemma own_search : let ops := self_ops F_nan (fun x => x) in let s := mkImpliedVol (nlit 1 10) 20 in let p := own_with (nlit 1 5) in exists vol p',
  solve F_nan ops s (nofZ 20) (nlit 1 10) n1 p = (Ok vol, p') /\ finite vol /\ Rabs (real vol) <= bpow radix2 900 /\
  forall v x, In v (vols_tried F_nan ops s (nofZ 20) (nlit 1 10) n1 p "BP") -> price_after ops [BVol "BP" (ReplaceVol v)] p = Ok x -> number x.
Proof.
  cbv zeta. eexists _, _. split; [vm_compute; reflexivity|]. split; [split; reflexivity|]. split.
  - assert (1 <= bpow radix2 900) by (change 1 with (bpow radix2 0); apply bpow_le; lia). eapply Rle_trans; [|eassumption]. apply Rabs_le. vm_compute. lra.
  - assert (T : vols_tried F_nan (self_ops F_nan (fun x => x)) (mkImpliedVol (nlit 1 10) 20) (nofZ 20) (nlit 1 10) n1 (own_with (nlit 1 5)) "BP" =
      [S754_finite false 7205759403792794 (-55); n1; nlit 1 10]) by (vm_compute; reflexivity).
    rewrite T. assert (Q : forall v x, nltb (nmul (nmul n1 v) v) n0 = false -> number (nadd n0 (nmul n1 (own_price signs (fun x => x) v))) ->
      price_after (self_ops F_nan (fun x => x)) [BVol "BP" (ReplaceVol v)] (own_with (nlit 1 5)) = Ok x -> number x).
    { intros v x V NV E. rewrite (own_given signs F_nan eq_refl (fun x => x) v (nlit 1 5) V) in E. assert (J : forall a b : F64, Ok a = Ok b -> a = b) by (intros a b J; now inversion J). apply J in E. rewrite <- E. exact NV. }
    intros v x [<-|[<-|[<-|[]]]]; apply Q; try (vm_compute; reflexivity); (split; [vm_compute; reflexivity|vm_compute; discriminate]).
Qed.
