(** Expected Monte-Carlo prices in a worked market. *)
From Coq Require Import ZArith List String Bool Lia Reals Lra Permutation.
From Verif Require Import Prelude Num M_Dates M_Calendar M_Curves M_Fixings M_Forward M_Vol M_Black76 M_Instruments M_Deps M_Risk M_Reports M_MonteCarlo
  S_Math S_Vol S_Deps S_Instruments S_Risk S_Reports S_MonteCarlo S_Expectation
  L_Num L_Vol L_VolTime L_VolCases L_Normal L_Black76 L_Diffusion L_Models L_Paths L_MonteCarlo L_InstrumentCases L_DepsPricing L_RiskCases L_ReportCases L_MonteCarloCases
  L_Expectation L_Gauss L_Expected L_Unbiased L_BlackLimit L_BlackPrices.
Import ListNotations.
Open Scope list_scope.
Open Scope R_scope.

(** A forward-starting option: struck on day 10, expiring on day 15. *)
Definition later15 (pc : put_or_call) : instrument R := IForwardEuropean (vanilla15 pc) 1 (mkDT 10%Z Open_) (mkDDF 10%Z 0).
Definition var10 : R := (10 + 0) / 365 * (/ 5) ^ 2.

Lemma flat_variance10 nan k : variance nan flat_vol (mkDDF 10%Z 0) k = Ok var10.
Proof.
  unfold var10. apply variance_real. unfold volatility_is, flat_vol. cbn [volatilities map]. rewrite every_years by (cbn; lia). cbn [bind].
  do 2 f_equal. cbn [ddf_date ddf_frac]. replace (IZR (10 - 0)) with 10 by reflexivity. field.
Qed.

Section Cases.
  Variable nan : R.
  Variable cdf : R -> R.
  Variable visit : smap (instrument R * list (ddf R)) -> smap (instrument R * list (ddf R)).
  Hypothesis visits : forall l, Permutation (visit l) l.
  Variable redraws : bump_time -> mc_pricer R -> nat -> nat -> R.
  Let ops := mc_ops nan cdf visit redraws.

  Lemma context15 s most n draws pc w : let c := op_context ops (pricer15 nan s most n draws pc w) in
    ctx_forward_curve c stock 15%Z = Ok (carried s rate 15%Z) /\ ctx_vol_surface c stock 15%Z (Ok (carried s rate 15%Z)) = Ok flat_vol /\
    forward_at nan (carried s rate 15%Z) 15%Z = Ok (s * exp growth) /\ (forall k, variance nan flat_vol at15 k = Ok var15) /\ displacement nan flat_vol 15%Z = Ok 0 /\
    price nan cdf c (expiry_flow (vanilla15 pc)) (mkDT (ctx_spot_date c) Open_) = Ok 1.
  Proof.
    cbn zeta. split; [reflexivity|]. split; [reflexivity|]. split; [apply carried15|]. split; [intros k; exact (proj1 (flat_variance nan k))|]. split; [reflexivity|].
    exact (flow15 nan cdf s pc).
  Qed.

  Definition wants_later (pc : put_or_call) : list (request R) := [WantSpot (later15 pc)].
  Lemma later15_new s most n draws pc w : (0 < n)%nat -> exists mp, mc_pricer_new nan visit draws [(w, later15 pc)] (mkFactory most n) (flat_market s) = Ok mp /\
    op_context ops mp = prefetch_context nan (cache nan s (wants_later pc) rate).
  Proof.
    intros NP. unfold mc_pricer_new. change (md_spot_date (flat_market s)) with 0%Z.
    assert (EP : mc_portfolio [(w, later15 pc)] 0%Z = Ok (deps_of (wants_later pc), mkTimeline [("BP"%string, (stock, [mkDDF 10%Z 0; at15]))] [expiry_flow (vanilla15 pc)])) by (destruct pc; reflexivity).
    rewrite EP. cbn [bind]. assert (EC : prefetch_new nan (flat_market s) (deps_of (wants_later pc)) = Ok (cache nan s (wants_later pc) rate)).
    { destruct pc; [exact (cached nan s rate (wants_later Put) (start_zero nan) eq_refl eq_refl)|exact (cached nan s rate (wants_later Call) (start_zero nan) eq_refl eq_refl)]. }
    rewrite EC. cbn [bind]. set (c := prefetch_context nan (cache nan s (wants_later pc) rate)).
    unfold diffusion_new. cbn [tl_observations]. rewrite (visit_one visit visits). cbn [map fst snd df_path_substep df_n_paths].
    assert (FC : ctx_forward_curve c stock 15%Z = Ok (carried s rate 15%Z)) by reflexivity.
    assert (VC : ctx_vol_surface c stock 15%Z (Ok (carried s rate 15%Z)) = Ok flat_vol) by reflexivity.
    set (marks := [mkMark (s * exp (5 * (10 / 365))) var10 0; mkMark (s * exp growth) var15 0]).
    assert (M : marked nan (carried s rate 15%Z) flat_vol [mkDDF 10%Z 0; at15] marks).
    { constructor; [|apply marked15]. cbn [mk_forward mk_variance mk_displacement ddf_date]. split; [|split; [apply flat_variance10|reflexivity]].
      apply (carried_at nan s rate 15%Z 10%Z); [lia|apply rate_rt]. }
    assert (ST : exists n1 n2, (1 <= n1)%nat /\ (1 <= n2)%nat /\ calculate_substepping nan [mkDDF 10%Z 0; at15] c [stock] most = Ok [n1; n2]).
    { exists (Nat.max 1 (Z.to_nat (nceil ((var10 - 0) / most)))), (Nat.max 1 (Z.to_nat (nceil ((var15 - var10) / most)))). split; [lia|]. split; [lia|].
      unfold calculate_substepping. cbn [List.length Nat.eqb negb guard bind foldM]. change (last_date [mkDDF 10%Z 0; at15]) with 15%Z. rewrite FC. cbn [bind]. rewrite VC. cbn [bind map substep_loop].
      cbn [ddf_date at15]. rewrite (carried_at nan s rate 15%Z 10%Z _ ltac:(lia) (rate_rt nan 10%Z)). cbn [bind]. rewrite flat_variance10. cbn [bind].
      assert (0 < var10) by (unfold var10; lra). assert (var10 < var15) by (unfold var10, var15; lra). rnum. rcase; [lra|]. cbn [negb guard bind].
      rewrite carried15. cbn [bind]. rewrite (proj1 (flat_variance nan _)). cbn [bind]. rnum. rcase; [lra|]. reflexivity. }
    destruct ST as (n1 & n2 & P1 & P2 & EST). cbn zeta. fold c. rewrite EST. cbn [bind]. unfold fetch_gaussians.
    replace (Nat.ltb 0 (list_sum [n1; n2])) with true by (symmetry; apply Nat.ltb_lt; cbn; lia). replace (Nat.ltb 0 n) with true by (symmetry; now apply Nat.ltb_lt).
    cbn [assert_ bind List.length Nat.ltb Nat.leb]. unfold fetch_paths. cbn [List.length Nat.ltb Nat.leb assert_ bind]. replace (Nat.leb 1 n) with true by (symmetry; now apply Nat.leb_le).
    cbn [assert_ bind combine mapM fst snd]. set (g := map (fun path => map (draws path) (seq 0 (list_sum [n1; n2]))) (seq 0 n)). fold c.
    rewrite (fetch_path_ok nan stock c [mkDDF 10%Z 0; at15] g [n1; n2] (carried s rate 15%Z) flat_vol marks); try assumption; [| cbn; lia | | ].
    - cbn [bind]. destruct n as [|n]; [lia|]. eexists. split; [reflexivity|]. reflexivity.
    - cbn [marks gained mk_variance]. constructor; [|constructor; [|constructor]]; (split; [unfold var10, var15; lra|assumption]).
    - apply Forall_forall. intros row I. apply in_map_iff in I. destruct I as (k & <- & _). rewrite map_length, seq_length. reflexivity.
  Qed.
  Lemma later15_context s pc : let c := prefetch_context nan (cache nan s (wants_later pc) rate) in
    ctx_forward_curve c stock 15%Z = Ok (carried s rate 15%Z) /\ ctx_vol_surface c stock 15%Z (Ok (carried s rate 15%Z)) = Ok flat_vol /\
    forward_at nan (carried s rate 15%Z) 10%Z = Ok (s * exp (5 * (10 / 365))) /\ variance nan flat_vol (mkDDF 10%Z 0) (s * exp (5 * (10 / 365))) = Ok var10 /\ displacement nan flat_vol 10%Z = Ok 0 /\
    forward_at nan (carried s rate 15%Z) 15%Z = Ok (s * exp growth) /\ variance nan flat_vol at15 (s * exp growth) = Ok var15 /\ displacement nan flat_vol 15%Z = Ok 0 /\
    price nan cdf c (expiry_flow (vanilla15 pc)) (mkDT (ctx_spot_date c) Open_) = Ok 1.
  Proof.
    cbn zeta. split; [reflexivity|]. split; [reflexivity|]. split; [apply (carried_at nan s rate 15%Z 10%Z); [lia|apply rate_rt]|]. split; [apply flat_variance10|].
    split; [reflexivity|]. split; [apply carried15|]. split; [exact (proj1 (flat_variance nan _))|]. split; [reflexivity|]. exact (flow15 nan cdf s pc).
  Qed.

  (** An option whose credit is that of its underlying. *)
  Definition own (pc : put_or_call) : vanilla R := mkVanilla "OPT" "BP-CR" stock NullRule (mkDT 15%Z Open_) pc CashSettled at15 15%Z.
  Definition own15 (pc : put_or_call) : instrument R := ISpotEuropean (own pc) 100.
  Definition wants_own (pc : put_or_call) : list (request R) := [WantSpot (own15 pc)].
  Lemma own15_new s most n draws pc w : (0 < n)%nat -> exists mp, mc_pricer_new nan visit draws [(w, own15 pc)] (mkFactory most n) (flat_market s) = Ok mp /\
    op_context ops mp = prefetch_context nan (cache nan s (wants_own pc) rate).
  Proof.
    intros NP. unfold mc_pricer_new. change (md_spot_date (flat_market s)) with 0%Z.
    assert (EP : mc_portfolio [(w, own15 pc)] 0%Z = Ok (deps_of (wants_own pc), mkTimeline [("BP"%string, (stock, [at15]))] [expiry_flow (own pc)])) by (destruct pc; reflexivity).
    rewrite EP. cbn [bind]. assert (EC : prefetch_new nan (flat_market s) (deps_of (wants_own pc)) = Ok (cache nan s (wants_own pc) rate)).
    { destruct pc; [exact (cached nan s rate (wants_own Put) (start_zero nan) eq_refl eq_refl)|exact (cached nan s rate (wants_own Call) (start_zero nan) eq_refl eq_refl)]. }
    rewrite EC. cbn [bind]. set (c := prefetch_context nan (cache nan s (wants_own pc) rate)).
    unfold diffusion_new. cbn [tl_observations]. rewrite (visit_one visit visits). cbn [map fst snd df_path_substep df_n_paths].
    assert (FC : ctx_forward_curve c stock 15%Z = Ok (carried s rate 15%Z)) by reflexivity.
    assert (VC : ctx_vol_surface c stock 15%Z (Ok (carried s rate 15%Z)) = Ok flat_vol) by reflexivity.
    assert (ST : exists n1, (1 <= n1)%nat /\ calculate_substepping nan [at15] c [stock] most = Ok [n1]).
    { exists (Nat.max 1 (Z.to_nat (nceil ((var15 - 0) / most)))). split; [lia|].
      unfold calculate_substepping. cbn [List.length Nat.eqb negb guard bind foldM]. change (last_date [at15]) with 15%Z. rewrite FC. cbn [bind]. rewrite VC. cbn [bind map substep_loop].
      cbn [ddf_date at15]. pose proof var15_positive. rewrite carried15. cbn [bind]. rewrite (proj1 (flat_variance nan _)). cbn [bind]. rnum. rcase; [lra|]. reflexivity. }
    destruct ST as (n1 & P1 & EST). cbn zeta. fold c. rewrite EST. cbn [bind]. unfold fetch_gaussians.
    replace (Nat.ltb 0 (list_sum [n1])) with true by (symmetry; apply Nat.ltb_lt; cbn; lia). replace (Nat.ltb 0 n) with true by (symmetry; now apply Nat.ltb_lt).
    cbn [assert_ bind List.length Nat.ltb Nat.leb]. unfold fetch_paths. cbn [List.length Nat.ltb Nat.leb assert_ bind]. replace (Nat.leb 1 n) with true by (symmetry; now apply Nat.leb_le).
    cbn [assert_ bind combine mapM fst snd]. set (g := map (fun path => map (draws path) (seq 0 (list_sum [n1]))) (seq 0 n)).
    rewrite (fetch_path_ok nan stock c [at15] g [n1] (carried s rate 15%Z) flat_vol [mark15 s]); try assumption; [| cbn; lia | apply marked15 | | ].
    - cbn [bind]. destruct n as [|n]; [lia|]. eexists. split; [reflexivity|]. reflexivity.
    - cbn [gained mark15 mk_variance]. constructor; [|constructor]. pose proof var15_positive. split; [lra|assumption].
    - apply Forall_forall. intros row I. apply in_map_iff in I. destruct I as (k & <- & _). rewrite map_length, seq_length. reflexivity.
  Qed.
  Lemma own15_context s pc : let c := prefetch_context nan (cache nan s (wants_own pc) rate) in
    ctx_forward_curve c stock 15%Z = Ok (carried s rate 15%Z) /\ ctx_vol_surface c stock 15%Z (Ok (carried s rate 15%Z)) = Ok flat_vol /\
    forward_at nan (carried s rate 15%Z) 15%Z = Ok (s * exp growth) /\ (forall k, variance nan flat_vol at15 k = Ok var15) /\ displacement nan flat_vol 15%Z = Ok 0 /\
    price nan cdf c stock (mkDT 15%Z Open_) = Ok (s * exp growth) /\ price nan cdf c (expiry_flow (own pc)) (mkDT 0%Z Open_) = Ok (exp (0 - growth)) /\
    ctx_yield_curve c "BP-CR" 15%Z = Ok rate /\ rt nan rate 15%Z = Ok growth /\ rt nan rate 0%Z = Ok 0 /\ ctx_spot_date c = 0%Z /\
    dt_leb (mkDT 0%Z Open_) (mkDT 15%Z Open_) = true /\ apply_rule (@NullRule R) 0%Z = Ok 0%Z /\ time_to_day_fraction stock (mkDT 0%Z Open_) = Ok (mkDDF 0%Z 0) /\
    ddf_leb (mkDDF from_nil 0) (mkDDF 0%Z 0) = true /\ upto (mkDDF 0%Z 0) (vs_base flat_vol).
  Proof.
    cbn zeta. split; [reflexivity|]. split; [reflexivity|]. split; [apply carried15|]. split; [intros k; exact (proj1 (flat_variance nan k))|]. split; [reflexivity|].
    assert (G : rt nan rate 15%Z = Ok growth) by (rewrite rate_rt; reflexivity). split.
    { unfold price. cbn [prices stock prefetch_context ctx_spot_date ctx_forward_curve dt_date cache pf_data md_spot_date pf_forwards instrument_id].
      change ((15 =? 0)%Z) with false. unfold find_data. cbn [get String.eqb Ascii.eqb Bool.eqb bind mapM]. cbn [dt_date]. rewrite carried15. reflexivity. }
    split.
    { unfold price, expiry_flow. cbn [prices van_credit_id own van_pay_date van_expiry van_settlement van_underlying].
      change (ctx_yield_curve (prefetch_context nan (cache nan s (wants_own pc) rate)) "BP-CR" 15%Z) with (@Ok (curve R) rate). cbn [bind mapM].
      change (dt_leb (mkDT 0%Z Open_) (mkDT 15%Z Open_)) with true. cbn [apply_rule bind dt_date]. unfold df. change (15 =? 0)%Z with false. cbn match. rewrite G, start_zero. cbn [bind]. reflexivity. }
    split; [reflexivity|]. split; [exact G|]. split; [apply start_zero|]. split; [reflexivity|]. split; [reflexivity|]. split; [reflexivity|]. split; [apply stock_time|].
    split; [apply leb_same|]. right. reflexivity.
  Qed.
End Cases.

Lemma atm_forward : (100 * exp (- growth)) * exp growth = 100.
Proof. rewrite Rmult_assoc, <- exp_plus. replace (- growth + growth) with 0 by ring. rewrite exp_0. ring. Qed.

Lemma normal_facts : (exists N, normal_cdf N) /\ forall N, normal_cdf N ->
  mean_of N (fun _ => 1) 1 /\ mean_of N (fun x => x) 0 /\ mean_of N (fun x => x * x) 1 /\
  forall n g v v', expected N n g v -> expected N n g v' -> v = v'.
Proof.
  split; [exact normal_cdf_exists|]. intros N HN. split; [now apply mean_const|]. split; [now apply mean_id|]. split; [now apply mean_square|]. intros n g v v'. now apply expected_unique.
Qed.

Section Facts.
  Variable nan : R.
  Variable cdf : R -> R.
  Variable N : R -> R.
  Hypothesis HN : normal_cdf N.
  Variable visit : smap (instrument R * list (ddf R)) -> smap (instrument R * list (ddf R)).
  Hypothesis visits : forall l, Permutation (visit l) l.
  Variable redraws : bump_time -> mc_pricer R -> nat -> nat -> R.
  Let ops := mc_ops nan cdf visit redraws.

  Lemma one_step draws w v k f md mp curve surface F V d value n :
    mc_pricer_new nan visit draws [(w, ISpotEuropean v k)] f md = Ok mp -> let c := op_context ops mp in
    let expiry := van_expiry_time v in ctx_forward_curve c (van_underlying v) (ddf_date expiry) = Ok curve ->
    ctx_vol_surface c (van_underlying v) (ddf_date expiry) (Ok curve) = Ok surface ->
    forward_at nan curve (ddf_date expiry) = Ok F -> variance nan surface expiry F = Ok V -> displacement nan surface (ddf_date expiry) = Ok d ->
    price nan cdf c (expiry_flow v) (mkDT (ctx_spot_date c) Open_) = Ok value -> d < F -> 0 < V -> 0 < df_path_substep f -> V <= df_path_substep f ->
    (forall x, derivable_pt_lim N x (n x)) -> bd_substepping (mp_model mp) = [1%nat] /\
    expected_price N (op_price ops) (fun l => mc_pricer_new nan visit (dealt 1 l) [(w, ISpotEuropean v k)] f md) (df_n_paths f)
      (w * (bacheliers_price N n (van_put_or_call v) F k ((F - d) * sqrt V) * value)).
  Proof.
    intros E c expiry C S FW VA DI PR P V0 SP VS D.
    destruct (spot_steps nan cdf visit visits redraws draws w v k f md mp curve surface F V d E C S FW VA DI) as (B & _).
    destruct (spot_one_step nan cdf N HN visit visits redraws draws w v k f md mp curve surface F V d value E C S FW VA DI PR n P V0 SP VS D) as (N1 & X).
    rewrite N1 in B, X. rewrite Nat.mul_1_r in X. now split.
  Qed.

  Lemma biased pc paths : (0 < paths)%nat ->
    let md := flat_market (100 * exp (- growth)) in let f := mkFactory var15 paths in exists e,
    expected_price N (op_price ops) (fun l => mc_pricer_new nan visit (dealt 1 l) [(1, option15 pc)] f md) paths e /\
    blacks_price N pc 100 100 (sqrt var15) < e.
  Proof.
    intros P md f. pose proof var15_positive as V0. destruct (has_density N HN) as (k & K & D). set (s := 100 * exp (- growth)). set (draws := fun _ _ : nat => 0).
    destruct (context15 nan cdf visit redraws s var15 paths draws pc 1) as (C & S & FW & VA & DI & PR).
    assert (FA : s * exp growth = 100) by exact atm_forward. rewrite FA in FW.
    destruct (one_step draws 1 (vanilla15 pc) 100 f md _ _ _ 100 var15 0 1 _ (pricer15_new nan cdf visit visits s var15 paths draws pc 1 P) C S FW (VA 100) DI PR ltac:(lra) V0 V0 (Rle_refl _) D) as (_ & X).
    eexists. split; [exact X|]. cbn [vanilla15 option_on van_put_or_call]. rewrite Rmult_1_l, Rmult_1_r, Rminus_0_r.
    apply bachelier_above; [exact HN|lra|now apply sqrt_lt_R0|exact D].
  Qed.
End Facts.

Lemma case15 nan cdf visit : (forall l, Permutation (visit l) l) -> forall redraws draws s most paths pc w, 0 < s -> (0 < paths)%nat -> exists mp,
  mc_pricer_new nan visit draws [(w, ISpotEuropean (vanilla15 pc) 100)] (mkFactory most paths) (flat_market s) = Ok mp /\ let c := op_context (mc_ops nan cdf visit redraws) mp in
  van_underlying (vanilla15 pc) = stock /\ van_expiry_time (vanilla15 pc) = at15 /\ ctx_forward_curve c stock 15%Z = Ok (carried s rate 15%Z) /\
  ctx_vol_surface c stock 15%Z (Ok (carried s rate 15%Z)) = Ok flat_vol /\ marked nan (carried s rate 15%Z) flat_vol [at15] [mkMark (s * exp growth) var15 0] /\
  price nan cdf c (expiry_flow (vanilla15 pc)) (mkDT (ctx_spot_date c) Open_) = Ok 1 /\ 0 < s * exp growth /\ 0 < var15.
Proof.
  intros visits redraws draws s most paths pc w S P. exists (pricer15 nan s most paths draws pc w). split; [exact (pricer15_new nan cdf visit visits s most paths draws pc w P)|].
  destruct (context15 nan cdf visit redraws s most paths draws pc w) as (C & V & _ & _ & _ & PR). cbn zeta. split; [reflexivity|]. split; [reflexivity|]. split; [exact C|]. split; [exact V|].
  split; [apply marked15|]. split; [exact PR|]. split; [apply Rmult_lt_0_compat; [exact S|apply exp_pos]|exact var15_positive].
Qed.
Lemma case_later nan cdf visit : (forall l, Permutation (visit l) l) -> forall redraws draws s most paths pc w, 0 < s -> (0 < paths)%nat -> exists mp sd F1 F2 V1 V2,
  mc_pricer_new nan visit draws [(w, IForwardEuropean (vanilla15 pc) 1 sd (mkDDF 10%Z 0))] (mkFactory most paths) (flat_market s) = Ok mp /\
  let c := op_context (mc_ops nan cdf visit redraws) mp in
  ctx_forward_curve c stock 15%Z = Ok (carried s rate 15%Z) /\ ctx_vol_surface c stock 15%Z (Ok (carried s rate 15%Z)) = Ok flat_vol /\
  marked nan (carried s rate 15%Z) flat_vol [mkDDF 10%Z 0; at15] [mkMark F1 V1 0; mkMark F2 V2 0] /\
  price nan cdf c (expiry_flow (vanilla15 pc)) (mkDT (ctx_spot_date c) Open_) = Ok 1 /\ 0 < F1 /\ 0 < F2 /\ V1 < V2.
Proof.
  intros visits redraws draws s most paths pc w S P. destruct (later15_new nan cdf visit visits redraws s most paths draws pc w P) as (mp & E & X).
  destruct (later15_context nan cdf s pc) as (A & B & F1 & V1 & D1 & F2 & V2 & D2 & PR). exists mp, (mkDT 10%Z Open_). do 4 eexists. split; [exact E|]. cbn zeta. rewrite X.
  split; [exact A|]. split; [exact B|]. split.
  { constructor; [|constructor; [|constructor]]; cbn [mk_forward mk_variance mk_displacement]; (split; [eassumption|split; eassumption]). }
  split; [exact PR|]. split; [apply Rmult_lt_0_compat; [exact S|apply exp_pos]|]. split; [apply Rmult_lt_0_compat; [exact S|apply exp_pos]|]. unfold var10, var15. lra.
Qed.
Lemma case_own nan N visit : (forall l, Permutation (visit l) l) -> forall redraws draws s most paths pc w, 0 < s -> (0 < paths)%nat -> exists v mp,
  mc_pricer_new nan visit draws [(w, ISpotEuropean v 100)] (mkFactory most paths) (flat_market s) = Ok mp /\ let c := op_context (mc_ops nan N visit redraws) mp in
  let today := mkDT (ctx_spot_date c) Open_ in van_put_or_call v = pc /\ van_expiry_time v = at15 /\ van_expiry v = mkDT 15%Z Open_ /\ van_pay_date v = 15%Z /\
  van_underlying v = stock /\ van_credit_id v = credit_id stock /\
  ctx_forward_curve c stock 15%Z = Ok (carried s rate 15%Z) /\ ctx_vol_surface c stock 15%Z (Ok (carried s rate 15%Z)) = Ok flat_vol /\
  forward_at nan (carried s rate 15%Z) 15%Z = Ok (s * exp growth) /\ (forall k, variance nan flat_vol at15 k = Ok var15) /\ displacement nan flat_vol 15%Z = Ok 0 /\
  price nan N c stock (van_expiry v) = Ok (s * exp growth) /\ price nan N c (expiry_flow v) today = Ok (exp (0 - growth)) /\
  ctx_yield_curve c "BP-CR" 15%Z = Ok rate /\ rt nan rate 15%Z = Ok growth /\ rt nan rate 0%Z = Ok 0 /\ ctx_spot_date c = 0%Z /\
  dt_leb today (van_expiry v) = true /\ apply_rule (van_settlement v) 0%Z = Ok 0%Z /\ time_to_day_fraction stock today = Ok (mkDDF 0%Z 0) /\
  ddf_leb (mkDDF from_nil 0) (mkDDF 0%Z 0) = true /\ upto (mkDDF 0%Z 0) (vs_base flat_vol).
Proof.
  intros visits redraws draws s most paths pc w S P. destruct (own15_new nan N visit visits redraws s most paths draws pc w P) as (mp & E & X).
  exists (own pc), mp. split; [exact E|]. cbn zeta. rewrite X. do 6 (split; [reflexivity|]). exact (own15_context nan N s pc).
Qed.
