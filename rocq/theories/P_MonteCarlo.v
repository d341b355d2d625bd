(** Properties of Monte-Carlo pricing (C48 to C50, and C42, C44 and C47 for the Monte-Carlo pricer).

    [visit] is the order in which a hash map is walked and [draws] are the normal variates of the generator; both are
    arbitrary. *)
From Coq Require Import ZArith List String Bool Reals Permutation.
From Verif Require Import Prelude Num M_Dates M_Calendar M_Curves M_Fixings M_Forward M_Vol M_Instruments M_Deps M_Risk M_Reports M_MonteCarlo
  S_Instruments S_Deps S_Risk S_Reports S_MonteCarlo L_RiskCases L_ReportCases L_InstrumentCases L_PrefetchTop L_Diffusion L_Models L_Paths L_MonteCarlo L_MonteCarloCases.
Import ListNotations.
Open Scope list_scope.
Open Scope R_scope.

(** ** C48: averages *)

(** The price of an option, as made and after any bumps, is its weight times the mean of what it pays along the paths times
    the price of a unit paid then. *)
Theorem C48_mean : forall nan cdf visit, (forall l, Permutation (visit l) l) -> forall redraws draws w i v f md mp mp',
  option_of i = Some v -> mc_pricer_new nan visit draws [(w, i)] f md = Ok mp ->
  let ops := mc_ops nan cdf visit redraws in pricer_reaches ops mp mp' ->
  exists paths, mc_paths (mp_model mp') (van_underlying v) = Ok paths /\ List.length paths = df_n_paths f /\ (0 < df_n_paths f)%nat /\
    Forall (fun path => List.length path = List.length (looks_at i)) paths /\
    op_price ops mp' = rmap (fun value => w * (mean (map (pays i) paths) * value))
      (price nan cdf (op_context ops mp') (expiry_flow v) (mkDT (ctx_spot_date (op_context ops mp')) Open_)).
Proof. exact one_option. Qed.
Print Assumptions C48_mean.

(** So it is not negative. *)
Theorem C48_nonneg : forall nan cdf visit, (forall l, Permutation (visit l) l) -> forall redraws draws w i v f md mp mp' value,
  option_of i = Some v -> mc_pricer_new nan visit draws [(w, i)] f md = Ok mp ->
  let ops := mc_ops nan cdf visit redraws in pricer_reaches ops mp mp' -> 0 <= w ->
  price nan cdf (op_context ops mp') (expiry_flow v) (mkDT (ctx_spot_date (op_context ops mp')) Open_) = Ok value -> 0 <= value ->
  exists x, op_price ops mp' = Ok x /\ 0 <= x.
Proof. exact option_nonneg. Qed.
Print Assumptions C48_nonneg.

(** Parity: a call less a put on the same draws is worth the mean of the final values less the strike. *)
Theorem C48_parity : forall nan cdf visit, (forall l, Permutation (visit l) l) -> forall redraws draws w v k f md mc,
  mc_pricer_new nan visit draws [(w, ISpotEuropean (as_kind Call v) k)] f md = Ok mc ->
  exists mp, mc_pricer_new nan visit draws [(w, ISpotEuropean (as_kind Put v) k)] f md = Ok mp /\
  let ops := mc_ops nan cdf visit redraws in forall mc', pricer_reaches ops mc mc' -> exists mp', pricer_reaches ops mp mp' /\ mp_model mp' = mp_model mc' /\
  exists paths, mc_paths (mp_model mc') (van_underlying v) = Ok paths /\
    forall x, op_price ops mc' = Ok x -> exists y value, op_price ops mp' = Ok y /\
      price nan cdf (op_context ops mc') (expiry_flow v) (mkDT (ctx_spot_date (op_context ops mc')) Open_) = Ok value /\
      x - y = w * ((mean (column 0 paths) - k) * value).
Proof. exact mc_parity. Qed.
Print Assumptions C48_parity.

(** Without noise the price is what the option pays on the forwards. *)
Theorem C48_noiseless : forall nan cdf visit, (forall l, Permutation (visit l) l) -> forall redraws draws w i v f md mp mp' x,
  option_of i = Some v -> (forall k j, draws k j = 0) -> mc_pricer_new nan visit draws [(w, i)] f md = Ok mp ->
  let ops := mc_ops nan cdf visit redraws in pricer_reaches ops mp mp' -> op_price ops mp' = Ok x -> exists curve forwards value,
  ctx_forward_curve (op_context ops mp') (van_underlying v) (last_date (looks_at i)) = Ok curve /\
  Forall2 (fun o F => forward_at nan curve (ddf_date o) = Ok F) (looks_at i) forwards /\
  price nan cdf (op_context ops mp') (expiry_flow v) (mkDT (ctx_spot_date (op_context ops mp')) Open_) = Ok value /\ x = w * (pays i forwards * value).
Proof. exact noiseless. Qed.
Print Assumptions C48_noiseless.

(** Flows are evaluated linearly: the mean quantity of each times its price. *)
Theorem C48_flows : forall nan cdf d q x, evaluate_flows nan cdf d q = Ok x -> exists values,
  Forall2 (fun flow v => price nan cdf (prefetch_context nan (bd_context d)) flow (mkDT (md_spot_date (pf_data (bd_context d))) Open_) = Ok v) (bd_flows d) values /\
  x = fold_right Rplus 0 (map (fun jv => mean (column (fst jv) q) * snd jv) (combine (seq 0 (List.length (bd_flows d))) values)).
Proof. exact flows_spec. Qed.
Print Assumptions C48_flows.

(** They can be if and only if there is a quantity of each on every path and each is a payment of cash that can be priced. *)
Theorem C48_flows_possible : forall nan cdf d (q : matrix R), (exists x, evaluate_flows nan cdf d q = Ok x) <->
  List.length q = bd_n_paths d /\ Forall (fun row => List.length row = List.length (bd_flows d)) q /\
  Forall (fun flow => (exists id credit currency ex paid settlement, flow = IZeroCoupon id credit currency ex paid settlement) /\
    exists v, price nan cdf (prefetch_context nan (bd_context d)) flow (mkDT (md_spot_date (pf_data (bd_context d))) Open_) = Ok v) (bd_flows d).
Proof. exact flows_possible. Qed.
Print Assumptions C48_flows_possible.

(** The unit paid is discounted on the option's own credit, whereas the closed form discounts on its underlying's.  So the
    two pricers differ on a call less a put even when the simulation hits the forward exactly. *)
Theorem C48_discount_refuted : forall nan cdf visit, (forall l, Permutation (visit l) l) -> forall redraws s,
  (forall x, cdf (- x) = 1 - cdf x) -> 0 <= s -> s * exp growth <> 100 ->
  let ops := mc_ops nan cdf visit redraws in exists mc mp sp x y z,
  mc_pricer_new nan visit (fun _ _ => 0) [(1, call_100)] (mkFactory 1 1) (flat_market s) = Ok mc /\
  mc_pricer_new nan visit (fun _ _ => 0) [(1, put_100)] (mkFactory 1 1) (flat_market s) = Ok mp /\
  self_pricer_new nan [(1, call_100); (-1, put_100)] (flat_market s) = Ok sp /\
  (exists path, mc_paths (mp_model mc) stock = Ok [path] /\ mc_paths (mp_model mp) stock = Ok [path] /\ path = [s * exp growth]) /\
  op_price ops mc = Ok x /\ op_price ops mp = Ok y /\ self_price nan cdf sp = Ok z /\
  x - y = s * exp growth - 100 /\ z = exp (- growth) * (s * exp growth - 100) /\ x - y <> z.
Proof. exact discounts_differ. Qed.
Print Assumptions C48_discount_refuted.

Example C48_case : forall nan cdf visit, (forall l, Permutation (visit l) l) -> forall redraws draws s n w, (0 < n)%nat -> exists mp mp' x,
  mc_pricer_new nan visit draws [(w, call_100)] (mkFactory 1 n) (flat_market s) = Ok mp /\
  pricer_reaches (mc_ops nan cdf visit redraws) mp mp' /\ mp' = pricer15 nan (s * (1 + 1)) 1 n draws Call w /\
  op_price (mc_ops nan cdf visit redraws) mp' = Ok x.
Proof.
  intros nan cdf visit visits redraws draws s n w NP. do 3 eexists. split; [exact (pricer15_new nan cdf visit visits s 1 n draws Call w NP)|].
  split; [exact (reached15 nan cdf visit redraws s (RelativeSpot 1) 1 n draws Call w)|]. split; [reflexivity|].
  exact (price15 nan cdf visit redraws draws (s * (1 + 1)) 1 n Call w NP).
Qed.

(** ** C49: paths *)

(** The paths at any time are those of the forwards and variances of the market as it is then, with the draws and numbers of
    steps the pricer was made with; the numbers of steps keep the variance of each within the limit in the market the pricer
    was made in. *)
Theorem C49_paths : forall nan cdf visit redraws draws instruments f md mp,
  mc_pricer_new nan visit draws instruments f md = Ok mp ->
  let ops := mc_ops nan cdf visit redraws in exists u steps, let obs := bd_observations (mp_model mp) in
    List.length steps = List.length obs /\ (forall n, In n steps -> (1 <= n)%nat) /\ (0 < List.length obs)%nat /\ (0 < df_n_paths f)%nat /\
    bd_instruments (mp_model mp) = [u] /\
    (exists t id, visit (tl_observations t) = [(id, (u, obs))] /\ bd_flows (mp_model mp) = tl_flows t /\ bd_n_paths (mp_model mp) = df_n_paths f /\
       bd_substepping (mp_model mp) = steps /\ exists deps, mc_portfolio instruments (md_spot_date md) = Ok (deps, t)) /\
    (forall curve surface marks, ctx_forward_curve (op_context ops mp) u (last_date obs) = Ok curve ->
       ctx_vol_surface (op_context ops mp) u (last_date obs) (Ok curve) = Ok surface -> marked nan curve surface obs marks ->
       0 < df_path_substep f -> enough_steps (df_path_substep f) marks steps) /\
    forall mp', pricer_reaches ops mp mp' -> exists curve surface marks,
      ctx_forward_curve (op_context ops mp') u (last_date obs) = Ok curve /\
      ctx_vol_surface (op_context ops mp') u (last_date obs) (Ok curve) = Ok surface /\ marked nan curve surface obs marks /\
      Forall2 (fun v n => 0 <= v / INR n) (gained 0 marks) steps /\
      mc_paths (mp_model mp') u = Ok (map (fun k => path_of marks steps (map (draws k) (seq 0 (list_sum steps)))) (seq 0 (df_n_paths f))) /\
      mp_instruments mp' = instruments /\ bd_flows (mp_model mp') = bd_flows (mp_model mp) /\ bd_n_paths (mp_model mp') = df_n_paths f /\
      bd_instruments (mp_model mp') = [u].
Proof. exact reached_paths. Qed.
Print Assumptions C49_paths.

(** Without noise a path is the forwards. *)
Theorem C49_no_noise : forall marks steps draws, Forall (fun g => g = 0) draws -> path_of marks steps draws = map mk_forward marks.
Proof. exact path_zero. Qed.
Print Assumptions C49_no_noise.

(** With the same draws and variances, the excess over the displacement is in proportion to that of the forward. *)
Theorem C49_scaling : forall marks marks' steps draws j m m' v v', map mk_variance marks' = map mk_variance marks ->
  nth_error marks j = Some m -> nth_error marks' j = Some m' ->
  nth_error (path_of marks steps draws) j = Some v -> nth_error (path_of marks' steps draws) j = Some v' ->
  (v' - mk_displacement m') * (mk_forward m - mk_displacement m) = (v - mk_displacement m) * (mk_forward m' - mk_displacement m').
Proof. exact path_scales. Qed.
Print Assumptions C49_scaling.

(** If the draws take every combination of signs equally often, the mean at each observation is the forward. *)
Theorem C49_balanced : forall nan cdf visit redraws draws instruments f md mp mp' g,
  mc_pricer_new nan visit draws instruments f md = Ok mp ->
  let ops := mc_ops nan cdf visit redraws in pricer_reaches ops mp mp' ->
  map (fun k => map (draws k) (seq 0 (List.length g))) (seq 0 (df_n_paths f)) = sign_changes g -> List.length g = list_sum (bd_substepping (mp_model mp)) ->
  exists u curve paths, mc_paths (mp_model mp') u = Ok paths /\ ctx_forward_curve (op_context ops mp') u (last_date (bd_observations (mp_model mp))) = Ok curve /\
    forall j o, nth_error (bd_observations (mp_model mp)) j = Some o -> exists F, forward_at nan curve (ddf_date o) = Ok F /\ mean (column j paths) = F.
Proof. exact balanced. Qed.
Print Assumptions C49_balanced.

Example C49_balanced_case : forall nan visit, (forall l, Permutation (visit l) l) -> forall s pc w, exists mp g,
  mc_pricer_new nan visit toss [(w, option15 pc)] (mkFactory var15 2) (flat_market s) = Ok mp /\
  map (fun k => map (toss k) (seq 0 (List.length g))) (seq 0 2) = sign_changes g /\ List.length g = list_sum (bd_substepping (mp_model mp)).
Proof. exact (fun nan => toss_balanced nan (fun x => x)). Qed.

(** A bumped pricer is the one that would be made with the bumped data and the same draws, if that had the same steps. *)
Theorem C49_fresh : forall T (N : Num T) (TR : Trans T) (nan : T) cdf visit redraws draws instruments f md l mp mp' mp'',
  mc_pricer_new nan visit draws instruments f md = Ok mp ->
  all_come_to (md_spot_date md) (map (fun h => WantSpot (snd h)) instruments) l -> one_per_id l ->
  pricer_reaches (mc_ops nan cdf visit redraws) mp mp' -> let md' := pf_data (bd_context (mp_model mp')) in
  md_spot_date md' = md_spot_date md -> mc_pricer_new nan visit draws instruments f md' = Ok mp'' ->
  bd_substepping (mp_model mp'') = bd_substepping (mp_model mp') -> mp'' = mp'.
Proof. exact (fun T N TR => mc_fresh). Qed.
Print Assumptions C49_fresh.

Example C49_fresh_case : forall nan cdf visit, (forall l, Permutation (visit l) l) -> forall redraws s x draws n w, (0 < n)%nat -> exists mp mp' mp'',
  mc_pricer_new nan visit draws [(w, call_100)] (mkFactory 1 n) (flat_market s) = Ok mp /\
  all_come_to 0%Z (map (fun h => WantSpot (snd h)) [(w, call_100)]) (option_asked ++ []) /\ one_per_id (option_asked ++ []) /\
  pricer_reaches (mc_ops nan cdf visit redraws) mp mp' /\ md_spot_date (pf_data (bd_context (mp_model mp'))) = 0%Z /\
  mc_pricer_new nan visit draws [(w, call_100)] (mkFactory 1 n) (pf_data (bd_context (mp_model mp'))) = Ok mp'' /\
  bd_substepping (mp_model mp'') = bd_substepping (mp_model mp') /\ mp' = pricer15 nan (s * (1 + x)) 1 n draws Call w.
Proof.
  intros nan cdf visit visits redraws s x draws n w NP. do 3 eexists. split; [exact (pricer15_new nan cdf visit visits s 1 n draws Call w NP)|].
  split; [exact one_asked|]. split; [exact one_stock|]. split; [exact (reached15 nan cdf visit redraws s (RelativeSpot x) 1 n draws Call w)|].
  split; [reflexivity|]. split; [exact (pricer15_new nan cdf visit visits (s * (1 + x)) 1 n draws Call w NP)|]. split; reflexivity.
Qed.

(** Paths may go below zero, so that a put is worth more than its strike ever could be. *)
Theorem C49_positive_refuted : forall nan cdf visit, (forall l, Permutation (visit l) l) -> forall redraws s, 0 < s ->
  let ops := mc_ops nan cdf visit redraws in exists draws mp x,
  mc_pricer_new nan visit draws [(1, put_100)] (mkFactory var15 1) (flat_market s) = Ok mp /\
  mc_paths (mp_model mp) stock = Ok [[- (s * exp growth)]] /\ - (s * exp growth) < 0 /\
  price nan cdf (op_context ops mp) (expiry_flow (vanilla15 Put)) (mkDT 0%Z Open_) = Ok 1 /\ op_price ops mp = Ok x /\ 100 < x.
Proof. exact (fun nan cdf visit visits redraws s P => ex_intro _ deep (below_zero nan cdf visit visits redraws s P)). Qed.
Print Assumptions C49_positive_refuted.

(** The limit on the variance of a step may be broken by a bump of the volatility. *)
Theorem C49_steps_refuted : forall nan cdf visit, (forall l, Permutation (visit l) l) -> forall redraws s draws pc w,
  let ops := mc_ops nan cdf visit redraws in exists mp mp' curve surface marks,
  mc_pricer_new nan visit draws [(w, option15 pc)] (mkFactory var15 1) (flat_market s) = Ok mp /\ pricer_reaches ops mp mp' /\
  ctx_forward_curve (op_context ops mp') stock 15%Z = Ok curve /\ ctx_vol_surface (op_context ops mp') stock 15%Z (Ok curve) = Ok surface /\
  marked nan curve surface (looks_at (option15 pc)) marks /\ ~ enough_steps var15 marks (bd_substepping (mp_model mp')).
Proof. exact steps_stale. Qed.
Print Assumptions C49_steps_refuted.

(** ** C50: portfolios *)

(** A pricer can only be made of options that are all on one underlying. *)
Theorem C50_one_underlying : forall nan visit, (forall l, Permutation (visit l) l) -> forall draws instruments f md mp,
  mc_pricer_new nan visit draws instruments f md = Ok mp ->
  exists id, Forall (fun h => exists v, option_of (snd h) = Some v /\ instrument_id (van_underlying v) = id) instruments.
Proof. exact (fun nan visit visits => new_one_underlying nan (fun x => x) visit visits (fun _ _ _ _ => 0)). Qed.
Print Assumptions C50_one_underlying.

Theorem C50_not_none : forall nan visit, (forall l, Permutation (visit l) l) -> forall draws f md mp,
  mc_pricer_new nan visit draws [] f md <> Ok mp.
Proof. exact (fun nan visit visits => empty_fails nan (fun x => x) visit visits (fun _ _ _ _ => 0)). Qed.
Print Assumptions C50_not_none.

(** If there are two of them, or more, asking for the price panics. *)
Theorem C50_two_panic : forall nan cdf visit, (forall l, Permutation (visit l) l) -> forall redraws draws h1 h2 rest f md mp mp',
  mc_pricer_new nan visit draws (h1 :: h2 :: rest) f md = Ok mp -> pricer_reaches (mc_ops nan cdf visit redraws) mp mp' ->
  exists m, op_price (mc_ops nan cdf visit redraws) mp' = Panic m.
Proof. exact two_panic. Qed.
Print Assumptions C50_two_panic.

Theorem C50_portfolio_refuted : forall nan visit, (forall l, Permutation (visit l) l) -> exists mp,
  mc_pricer_new nan visit (fun _ _ => 0) call_less_put (mkFactory var15 1) (flat_market 100) = Ok mp.
Proof. exact (fun nan => two15_new nan (fun x => x)). Qed.
Print Assumptions C50_portfolio_refuted.

(** No pricer can be made of an option whose expiry is in the fixings. *)
Theorem C50_fixed : forall nan visit, (forall l, Permutation (visit l) l) -> forall draws v k t l f md,
  fix_instrument t (ISpotEuropean v k) = Ok (Some l) -> forall mp, mc_pricer_factory nan visit draws f (ISpotEuropean v k) t md <> Ok mp.
Proof. exact (fun nan visit visits => fixed_not_simulated nan (fun x => x) visit visits (fun _ _ _ _ => 0)). Qed.
Print Assumptions C50_fixed.

Example C50_fixed_case : exists l, fix_instrument one_fixing dead = Ok (Some l).
Proof. eexists. exact dead_fixed. Qed.

(** And time cannot pass the expiry of one there is. *)
Theorem C50_expiry : forall nan cdf visit, (forall l, Permutation (visit l) l) -> forall redraws bt mp mp' w v k,
  mp_instruments mp = [(w, ISpotEuropean v k)] -> let ops := mc_ops nan cdf visit redraws in op_bump_time ops bt mp = (Ok tt, mp') ->
  exists r d' save', update_instruments nan bt (mp_instruments mp) (op_context ops mp) (pf_deps (bd_context (mp_model mp))) = Ok (false, mp_instruments mp) /\
    diffusion_bump nan (BSpotDate (bt_spot_date_bump bt)) (mp_model mp) None = (Ok r, d', save') /\ mp' = mkMcPricer (mp_factory mp) (mp_instruments mp) d'.
Proof. exact kept_alive. Qed.
Print Assumptions C50_expiry.

Theorem C50_expiry_refuted : forall nan cdf visit, (forall l, Permutation (visit l) l) -> forall redraws s draws, exists mp,
  mc_pricer_new nan visit draws [(1, call_100)] (mkFactory 1 1) (flat_market s) = Ok mp /\
  forall mp', op_bump_time (mc_ops nan cdf visit redraws) (to_day 20%Z) mp <> (Ok tt, mp').
Proof. exact not_settled. Qed.
Print Assumptions C50_expiry_refuted.

(** ** C42, C44 and C47 for the Monte-Carlo pricer *)

(** Bumps are undone if each datum is saved when it is first bumped and not after, and no two of them move the same paths. *)
Theorem C42_monte_carlo : forall T (N : Num T) (TR : Trans T) (nan : T) cdf visit redraws h mp mp' s', careful (pf_deps (bd_context (mp_model mp))) [] h ->
  let ops := mc_ops nan cdf visit redraws in pricer_bumps ops h mp (op_new_saveable ops mp) mp' s' -> op_restore ops s' mp' = (Ok tt, mp).
Proof. exact (fun T N TR => mc_restore_undoes). Qed.
Print Assumptions C42_monte_carlo.

Example C42_monte_carlo_case : forall nan cdf visit, (forall l, Permutation (visit l) l) -> forall redraws s x most n draws pc w, (0 < n)%nat ->
  let ops := mc_ops nan cdf visit redraws in exists mp mp' sv h,
  mc_pricer_new nan visit draws [(w, option15 pc)] (mkFactory most n) (flat_market s) = Ok mp /\
  h = [(BSpot "BP" (RelativeSpot x), true)] /\ careful (pf_deps (bd_context (mp_model mp))) [] h /\
  pricer_bumps ops h mp (op_new_saveable ops mp) mp' sv /\ mp' = pricer15 nan (s * (1 + x)) most n draws pc w.
Proof. exact careful15. Qed.

(** A spot and a surface bumped one after the other are not: the market is restored and the paths are not. *)
Theorem C42_monte_carlo_refuted : forall nan cdf visit, (forall l, Permutation (visit l) l) -> forall redraws,
  let ops := mc_ops nan cdf visit redraws in exists mp mp' sv mp'' x x',
  mc_pricer_new nan visit (fun _ _ => 0) [(1, option15 Call)] (mkFactory 1 1) (flat_market 100) = Ok mp /\
  pricer_bumps ops [(BSpot "BP" (RelativeSpot 1), true); (BVol "BP" (FlatAdditive 1), true)] mp (op_new_saveable ops mp) mp' sv /\
  op_restore ops sv mp' = (Ok tt, mp'') /\ op_context ops mp'' = op_context ops mp /\
  op_price ops mp = Ok x /\ op_price ops mp'' = Ok x' /\ x <> x'.
Proof. exact not_restored. Qed.
Print Assumptions C42_monte_carlo_refuted.

(** The theorems about reports apply. *)
Theorem C44_monte_carlo : forall T (N : Num T) (TR : Trans T) (nan : T) cdf visit redraws, well_behaved (mc_ops nan cdf visit redraws) diffusion_saveable.
Proof. exact (fun T N TR => mc_well_behaved). Qed.
Print Assumptions C44_monte_carlo.

Theorem C47_monte_carlo : forall T (N : Num T) (TR : Trans T) (nan : T) cdf visit redraws bt mp mp',
  let ops := mc_ops nan cdf visit redraws in op_bump_time ops bt mp = (Ok tt, mp') ->
  exists changed ins' r d' save', update_instruments nan bt (mp_instruments mp) (op_context ops mp) (pf_deps (bd_context (mp_model mp))) = Ok (changed, ins') /\
    diffusion_bump nan (BSpotDate (bt_spot_date_bump bt)) (mp_model mp) None = (Ok r, d', save') /\
    (if changed then mc_pricer_new nan visit (redraws bt mp) ins' (mp_factory mp) (pf_data (bd_context d')) = Ok mp'
     else mp' = mkMcPricer (mp_factory mp) (mp_instruments mp) d').
Proof. exact @mc_time_bumped. Qed.
Print Assumptions C47_monte_carlo.

Example C47_monte_carlo_case : forall nan cdf visit, (forall l, Permutation (visit l) l) -> forall redraws draws s n w, (0 < n)%nat -> exists mp mp',
  mc_pricer_new nan visit draws [(w, call_100)] (mkFactory 1 n) (flat_market s) = Ok mp /\
  op_bump_time (mc_ops nan cdf visit redraws) (to_day 5%Z) mp = (Ok tt, mp') /\ md_spot_date (pf_data (bd_context (mp_model mp'))) = 5%Z.
Proof. exact time_simulated. Qed.
