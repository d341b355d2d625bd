(** Worked cases of the delta and gamma that Monte Carlo reports. *)
From Coq Require Import ZArith List String Bool Lia Reals Lra Permutation.
From Verif Require Import Prelude Num M_Dates M_Search M_Calendar M_Curves M_Fixings M_Forward M_Vol M_Instruments M_Deps M_Risk M_Reports M_MonteCarlo
  S_Vol S_Deps S_Risk S_Reports S_MonteCarlo S_Greeks S_Expectation S_McGreeks L_Num L_Fixings L_Risk L_Vol L_VolTime L_VolCases L_Prefetch L_PrefetchTop L_Diffusion L_Models L_Paths L_MonteCarlo
  L_InstrumentCases L_DepsPricing L_RiskCases L_ReportCases L_MonteCarloCases L_McGreeks.
From Verif Require L_GreeksCases.
Import ListNotations.
Open Scope list_scope.
Open Scope R_scope.

Lemma flat15 nan s pc : no_smile nan (flat_market s) (vanilla15 pc).
Proof. exists flat_vol, var15. split; [reflexivity|]. intros x. exact (proj1 (flat_variance nan x)). Qed.

Lemma mark_flat nan s pc x m : mark_if nan (flat_market s) (vanilla15 pc) x m -> m = mark15 x.
Proof.
  intros (sf & FW & S & V & D). cbn zeta in *. change (md_vol_surface nan (flat_market s) (van_underlying (vanilla15 pc)) (dt_date (van_expiry (vanilla15 pc))) (Err "")) with (Ok flat_vol) in S. injection S as <-.
  apply L_GreeksCases.flat_forward in FW. change (van_expiry_time (vanilla15 pc)) with (mkDDF 15%Z 0 : ddf R) in V. rewrite (proj1 (flat_variance nan _)) in V.
  change (Ok 0 = Ok (mk_displacement m)) in D. injection V as V. injection D as D. destruct m as [a b c]. cbn in *. unfold mark15. now subst.
Qed.

Section Cases.
  Variables (nan : R) (cdf : R -> R).
  Variable visit : smap (instrument R * list (ddf R)) -> smap (instrument R * list (ddf R)).
  Hypothesis visits : forall l, Permutation (visit l) l.
  Variable redraws : bump_time -> mc_pricer R -> nat -> nat -> R.
  Notation ops := (mc_ops nan cdf visit redraws).

  Lemma worth15 s pc value : payment_worth nan cdf (flat_market s) (vanilla15 pc) value -> value = 1.
  Proof. intros E. unfold payment_worth in E. pose proof (flow15 nan cdf s pc) as F. change (price nan cdf (md_context nan (flat_market s)) (expiry_flow (vanilla15 pc)) (mkDT 0%Z Open_) = Ok 1) in F. change (md_spot_date (flat_market s)) with 0%Z in E. congruence. Qed.

  Lemma bump15 f s most n draws pc w : op_bump ops (BSpot "BP" f) (pricer15 nan s most n draws pc w) None = (Ok true, pricer15 nan (apply_spot f s) most n draws pc w, None).
  Proof. cbn [op_bump mc_ops]. unfold mc_bump. cbn [pricer15 mp_model]. rewrite (spot15 nan cdf). reflexivity. Qed.

  Lemma report15 s most n draws pc w h : (0 < n)%nat -> exists delta gamma,
    delta_gamma nan ops h "BP" (pricer15 nan s most n draws pc w) delta gamma.
  Proof.
    intros NP. pose proof (mc_well_behaved nan cdf visit redraws) as WB.
    assert (RI : reported_ids ops (pricer15 nan s most n draws pc w) = Ok ["BP"%string]) by (destruct pc; reflexivity).
    destruct (report_made nan ops _ WB h (pricer15 nan s most n draws pc w) _ ["BP"%string] (price15 nan cdf visit redraws draws s most n pc w NP) RI) as (m & CE).
    { intros id [<-|[]]. exists s. do 2 eexists. split; [reflexivity|]. cbn [price_after]. rewrite bump15. split; [apply price15; exact NP|]. rewrite bump15. apply price15. exact NP. }
    destruct (report_read nan ops _ WB h _ m CE) as (u & ids & _ & RI' & ALL & _). rewrite RI in RI'. injection RI' as <-.
    assert (K : get "BP"%string m <> None) by (apply ALL; now left). destruct (get "BP"%string m) as [[d g]|] eqn:GE; [|congruence]. exists d, g, m. auto.
  Qed.

  (** A report of an option, for any draws. *)
  Lemma reported15 s most n draws pc w h : 0 < s -> (0 < n)%nat -> exists mp delta gamma,
    mc_pricer_new nan visit draws [(w, ISpotEuropean (vanilla15 pc) 100)] (mkFactory most n) (flat_market s) = Ok mp /\
    van_underlying (vanilla15 pc) = stock /\ ddf_date (van_expiry_time (vanilla15 pc)) = dt_date (van_expiry (vanilla15 pc)) /\
    get "BP" (md_spots (flat_market s)) = Some s /\ no_smile nan (flat_market s) (vanilla15 pc) /\
    delta_gamma nan ops h "BP" mp delta gamma.
  Proof.
    intros S NP. destruct (report15 s most n draws pc w h NP) as (delta & gamma & DG). exists (pricer15 nan s most n draws pc w), delta, gamma.
    split; [apply (pricer15_new nan cdf); assumption|]. split; [reflexivity|]. split; [reflexivity|]. split; [reflexivity|]. split; [apply flat15|exact DG].
  Qed.

  (** A put off a path that has gone below zero. *)
  Lemma put_rises s h : 0 < s -> 0 < h < 1 -> exists mp delta gamma,
    mc_pricer_new nan visit deep [(1, put_100)] (mkFactory var15 1) (flat_market s) = Ok mp /\
    mc_paths (mp_model mp) stock = Ok [[- (s * exp growth)]] /\ delta_gamma nan ops h "BP" mp delta gamma /\ delta = exp growth /\ gamma = 0.
  Proof.
    intros S H. destruct (report15 s var15 1 deep Put 1 h (Nat.lt_0_1)) as (delta & gamma & DG). exists (pricer15 nan s var15 1 deep Put 1), delta, gamma.
    pose proof (pricer15_new nan cdf visit visits s var15 1 deep Put 1 Nat.lt_0_1) as E. split; [exact E|]. split.
    { unfold mc_paths. cbn [pricer15 mp_model model15 bd_instruments bd_paths]. change (asset_of (instrument_id stock) [stock]) with (Some O). cbn [nth_error]. f_equal.
      rewrite steps_one. unfold drawn, deep. cbn [seq map]. f_equal. apply deep_path. }
    split; [exact DG|].
    destruct (entry_read nan cdf visit visits redraws 1 (vanilla15 Put) 100 "BP" "BP-CR" usd NullRule (mkFactory var15 1) (flat_market s) eq_refl eq_refl deep _ s h delta gamma E eq_refl S H DG)
      as (n & value & down & here & up & B & _ & _ & PW & MD & MH & MU & _ & _ & DE & GA). cbn zeta in DE, GA.
    cbn [pricer15 mp_model model15 bd_substepping] in B. rewrite steps_one in B. injection B as <-. apply worth15 in PW. apply mark_flat in MD, MH, MU. subst value down here up.
    assert (X : forall x, 0 < x -> mean_payoff (ISpotEuropean (vanilla15 Put) 100) (mark15 x) 1 (df_n_paths (mkFactory var15 1)) deep = 100 + x * exp growth).
    { intros x X. unfold mean_payoff. cbn [df_n_paths seq map]. unfold deep. rewrite deep_path. unfold mean. cbn [fold_right List.length INR vanilla15 option_on van_put_or_call pays].
      assert (0 < x * exp growth) by (apply Rmult_lt_0_compat; [exact X|apply exp_pos]). rewrite Rmax_left by lra. field. }
    assert (HS : 0 < h * s) by (apply Rmult_lt_0_compat; lra).
    rewrite !X in DE by nra. rewrite !X in GA by nra. rewrite ?X in GA by exact S. split; [rewrite DE; field; lra|rewrite GA; field; lra].
  Qed.
End Cases.

(** The same, with the marks: growing at the rate, of the variance of the flat surface, without displacement. *)
Lemma mc_greeks_case : forall nan cdf visit, (forall l, Permutation (visit l) l) -> forall redraws draws s most n pc w h, 0 < s -> 0 < most -> (0 < n)%nat -> 0 < h < 1 ->
  exists mp delta gamma, let v := vanilla15 pc in
    mc_pricer_new nan visit draws [(w, ISpotEuropean v 100)] (mkFactory most n) (flat_market s) = Ok mp /\
    van_underlying v = IEquity "BP" "BP-CR" usd NullRule /\ ddf_date (van_expiry_time v) = dt_date (van_expiry v) /\
    get "BP" (md_spots (flat_market s)) = Some s /\ no_smile nan (flat_market s) v /\
    delta_gamma nan (mc_ops nan cdf visit redraws) h "BP" mp delta gamma /\
    (forall x m, mark_if nan (flat_market s) v x m -> m = mkMark (x * exp growth) var15 0) /\
    0 < s * (1 - h) * exp growth /\ 0 < s * (1 + h) * exp growth /\ 0 < var15.
Proof.
  intros nan cdf visit visits redraws draws s most n pc w h S M NP H. destruct (reported15 nan cdf visit visits redraws s most n draws pc w h S NP) as (mp & delta & gamma & E & U & EX & G & NS & DG).
  exists mp, delta, gamma. cbn zeta. repeat (split; [assumption|]). split; [exact (mark_flat nan s pc)|]. pose proof (exp_pos growth). pose proof var15_positive.
  repeat split; try assumption; repeat apply Rmult_lt_0_compat; lra.
Qed.

Lemma put_gains : forall nan cdf visit, (forall l, Permutation (visit l) l) -> forall redraws s h, 0 < s -> 0 < h < 1 -> exists mp delta gamma,
  mc_pricer_new nan visit deep [(1, put_100)] (mkFactory var15 1) (flat_market s) = Ok mp /\
  mc_paths (mp_model mp) stock = Ok [[- (s * exp growth)]] /\ delta_gamma nan (mc_ops nan cdf visit redraws) h "BP" mp delta gamma /\
  delta = exp growth /\ 1 < delta /\ gamma = 0.
Proof.
  intros nan cdf visit visits redraws s h S H. destruct (put_rises nan cdf visit visits redraws s h S H) as (mp & delta & gamma & A & B & C & D & E). exists mp, delta, gamma.
  repeat (split; [assumption|]). split; [|exact E]. rewrite D, <- exp_0. apply exp_increasing. unfold growth. lra.
Qed.
