(** C64: what Monte-Carlo prices are expected to be, over independent normal draws. *)
From Coq Require Import ZArith List String Bool Lia Reals Lra Permutation.
From Verif Require Import Prelude Num M_Dates M_Calendar M_Curves M_Fixings M_Forward M_Vol M_Black76 M_Instruments M_Deps M_Risk M_Reports M_MonteCarlo
  S_Math S_Vol S_Deps S_Instruments S_Risk S_Reports S_MonteCarlo S_Expectation
  L_Normal L_MonteCarloCases L_ReportCases L_RiskCases L_InstrumentCases L_DepsPricing
  L_Expectation L_Expected L_Unbiased L_BlackLimit L_BlackPrices L_ExpectationCases.
Import ListNotations.
Open Scope list_scope.
Open Scope R_scope.

(** There is a normal distribution function, its mean is zero and its variance one, and what is expected is one number. *)
Theorem C64_normal : (exists N, normal_cdf N) /\ forall N, normal_cdf N ->
  mean_of N (fun _ => 1) 1 /\ mean_of N (fun x => x) 0 /\ mean_of N (fun x => x * x) 1 /\
  forall n g v v', expected N n g v -> expected N n g v' -> v = v'.
Proof. exact normal_facts. Qed.
Print Assumptions C64_normal.

(** Whatever the option, the expected price is the expected payoff of one path, discounted, and does not depend on the number of
    paths; the expected square of the distance from it is the variance of what one path pays divided by the number of paths. *)
Theorem C64_unbiased : forall nan cdf N, normal_cdf N -> forall visit, (forall l, Permutation (visit l) l) -> forall redraws draws w i v f md mp curve surface marks value e,
  option_of i = Some v -> mc_pricer_new nan visit draws [(w, i)] f md = Ok mp -> let ops := mc_ops nan cdf visit redraws in let c := op_context ops mp in
  ctx_forward_curve c (van_underlying v) (last_date (looks_at i)) = Ok curve ->
  ctx_vol_surface c (van_underlying v) (last_date (looks_at i)) (Ok curve) = Ok surface -> marked nan curve surface (looks_at i) marks ->
  price nan cdf c (expiry_flow v) (mkDT (ctx_spot_date c) Open_) = Ok value ->
  let steps := bd_substepping (mp_model mp) in let n := list_sum steps in let payoff := fun l => pays i (path_of marks steps l) in
  expected N n payoff e -> let make := fun l => mc_pricer_new nan visit (dealt n l) [(w, i)] f md in
  expected_price N (op_price ops) make (df_n_paths f * n) (w * (e * value)) /\
  forall q, expected N n (fun l => payoff l * payoff l) q ->
    expected_error N (op_price ops) make (df_n_paths f * n) (w * (e * value)) (w * value * (w * value) * (q - e * e) / INR (df_n_paths f)).
Proof. exact dealt_price. Qed.
Print Assumptions C64_unbiased.

(** The mean of the paths of any portfolio is expected to be the forward at every observation.  That of the squares of what they
    exceed the displacement by is expected to be less than for a lognormal path, by no more than the limit on the steps allows. *)
Theorem C64_paths : forall nan cdf N, normal_cdf N -> forall visit redraws draws instruments f md mp,
  mc_pricer_new nan visit draws instruments f md = Ok mp -> 0 < df_path_substep f ->
  exists u curve surface, let ops := mc_ops nan cdf visit redraws in
    let obs := bd_observations (mp_model mp) in let n := list_sum (bd_substepping (mp_model mp)) in
    let make := fun l => mc_pricer_new nan visit (dealt n l) instruments f md in
    let average j g mp := rmap (fun paths => mean (map g (column j paths))) (mc_paths (mp_model mp) u) in
    bd_instruments (mp_model mp) = [u] /\ ctx_forward_curve (op_context ops mp) u (last_date obs) = Ok curve /\
    ctx_vol_surface (op_context ops mp) u (last_date obs) (Ok curve) = Ok surface /\
    forall j o, nth_error obs j = Some o -> exists F V d q, forward_at nan curve (ddf_date o) = Ok F /\ variance nan surface o F = Ok V /\
      displacement nan surface (ddf_date o) = Ok d /\
      expected_price N (average j (fun s => s)) make (df_n_paths f * n) F /\
      expected_price N (average j (fun s => (s - d) * (s - d))) make (df_n_paths f * n) q /\
      (F - d) * (F - d) * exp (V - df_path_substep f * V / 2) <= q <= (F - d) * (F - d) * exp V.
Proof. exact path_moments. Qed.
Print Assumptions C64_paths.

(** The expected price of a spot-starting option is Black's, but for an error that vanishes with the limit on the variance of a
    step.  The expected square of the distance of the price from its expected value vanishes with the number of paths. *)
Theorem C64_black : forall nan cdf N, normal_cdf N -> forall visit, (forall l, Permutation (visit l) l) -> forall redraws draws w v k f md mp curve surface F V d value,
  mc_pricer_new nan visit draws [(w, ISpotEuropean v k)] f md = Ok mp -> let ops := mc_ops nan cdf visit redraws in let c := op_context ops mp in
  let expiry := van_expiry_time v in ctx_forward_curve c (van_underlying v) (ddf_date expiry) = Ok curve ->
  ctx_vol_surface c (van_underlying v) (ddf_date expiry) (Ok curve) = Ok surface ->
  forward_at nan curve (ddf_date expiry) = Ok F -> variance nan surface expiry F = Ok V -> displacement nan surface (ddf_date expiry) = Ok d ->
  price nan cdf c (expiry_flow v) (mkDT (ctx_spot_date c) Open_) = Ok value -> d < F -> d < k -> 0 < V -> 0 < df_path_substep f ->
  let n := list_sum (bd_substepping (mp_model mp)) in exists e q,
  expected_error N (op_price ops) (fun l => mc_pricer_new nan visit (dealt n l) [(w, ISpotEuropean v k)] f md) (df_n_paths f * n) (w * (e * value)) q /\
  Rabs (e - blacks_price N (van_put_or_call v) (F - d) (k - d) (sqrt V)) <= (F - d) * sqrt (exp V * (df_path_substep f * V / 2)) /\
  0 <= q <= w * value * (w * value) * ((F - d) * (F - d)) * (exp V - 1) / INR (df_n_paths f).
Proof. exact spot_black. Qed.
Print Assumptions C64_black.

(** So it is the closed form price, but for that error, if there is no displacement, the variance is the same at the strike as at
    the forward, and the option is of the credit of its underlying. *)
Theorem C64_closed_form : forall nan N, normal_cdf N -> forall visit, (forall l, Permutation (visit l) l) -> forall redraws draws w v k f md mp curve surface F V value yc u st r tm,
  mc_pricer_new nan visit draws [(w, ISpotEuropean v k)] f md = Ok mp -> let ops := mc_ops nan N visit redraws in
  let c := op_context ops mp in let expiry := van_expiry_time v in let today := mkDT (ctx_spot_date c) Open_ in
  ddf_date expiry = dt_date (van_expiry v) -> ctx_forward_curve c (van_underlying v) (ddf_date expiry) = Ok curve ->
  ctx_vol_surface c (van_underlying v) (ddf_date expiry) (Ok curve) = Ok surface -> forward_at nan curve (ddf_date expiry) = Ok F ->
  variance nan surface expiry F = Ok V -> variance nan surface expiry k = Ok V -> displacement nan surface (ddf_date expiry) = Ok 0 ->
  price nan N c (van_underlying v) (van_expiry v) = Ok F -> price nan N c (expiry_flow v) today = Ok value ->
  ctx_yield_curve c (van_credit_id v) (van_pay_date v) = Ok yc -> ctx_yield_curve c (credit_id (van_underlying v)) (van_pay_date v) = Ok yc ->
  rt nan yc (van_pay_date v) = Ok u -> dt_leb today (van_expiry v) = true -> apply_rule (van_settlement v) (ctx_spot_date c) = Ok st -> rt nan yc st = Ok r ->
  time_to_day_fraction (van_underlying v) today = Ok tm -> ddf_leb (mkDDF from_nil 0) tm = true -> upto tm (vs_base surface) ->
  0 < F -> 0 < k -> 0 < V -> 0 < df_path_substep f -> let n := list_sum (bd_substepping (mp_model mp)) in
  exists x e, price nan N c (ISpotEuropean v k) today = Ok x /\
    expected_price N (op_price ops) (fun l => mc_pricer_new nan visit (dealt n l) [(w, ISpotEuropean v k)] f md) (df_n_paths f * n) e /\
    Rabs (e - w * x) <= Rabs w * value * (F * sqrt (exp V * (df_path_substep f * V / 2))).
Proof. exact closed_form. Qed.
Print Assumptions C64_closed_form.

(** An option struck at a fraction of a later spot, without displacement: Black's price with the forward to the strike date in the
    strike and the variance gained since. *)
Theorem C64_forward_start : forall nan cdf N, normal_cdf N -> forall visit, (forall l, Permutation (visit l) l) -> forall redraws draws w v phi sd start f md mp curve surface F1 F2 V1 V2 value,
  mc_pricer_new nan visit draws [(w, IForwardEuropean v phi sd start)] f md = Ok mp -> let ops := mc_ops nan cdf visit redraws in let c := op_context ops mp in
  let expiry := van_expiry_time v in ctx_forward_curve c (van_underlying v) (ddf_date expiry) = Ok curve ->
  ctx_vol_surface c (van_underlying v) (ddf_date expiry) (Ok curve) = Ok surface ->
  forward_at nan curve (ddf_date start) = Ok F1 -> variance nan surface start F1 = Ok V1 -> displacement nan surface (ddf_date start) = Ok 0 ->
  forward_at nan curve (ddf_date expiry) = Ok F2 -> variance nan surface expiry F2 = Ok V2 -> displacement nan surface (ddf_date expiry) = Ok 0 ->
  price nan cdf c (expiry_flow v) (mkDT (ctx_spot_date c) Open_) = Ok value -> 0 < F1 -> 0 < F2 -> 0 < phi -> V1 < V2 -> 0 < df_path_substep f ->
  let n := list_sum (bd_substepping (mp_model mp)) in exists e,
  expected_price N (op_price ops) (fun l => mc_pricer_new nan visit (dealt n l) [(w, IForwardEuropean v phi sd start)] f md) (df_n_paths f * n) (w * (e * value)) /\
  Rabs (e - blacks_price N (van_put_or_call v) F2 (phi * F1) (sqrt (V2 - V1))) <=
    F2 * sqrt (exp V2 * (df_path_substep f * V2 / 2)) + phi * F1 * sqrt (exp V1 * (df_path_substep f * V1 / 2)).
Proof. exact later_black. Qed.
Print Assumptions C64_forward_start.

(** If the limit allows it there is one step, and what is expected is Bachelier's price, not Black's. *)
Theorem C64_one_step : forall nan cdf N, normal_cdf N -> forall visit, (forall l, Permutation (visit l) l) -> forall redraws draws w v k f md mp curve surface F V d value n,
  mc_pricer_new nan visit draws [(w, ISpotEuropean v k)] f md = Ok mp -> let ops := mc_ops nan cdf visit redraws in let c := op_context ops mp in
  let expiry := van_expiry_time v in ctx_forward_curve c (van_underlying v) (ddf_date expiry) = Ok curve ->
  ctx_vol_surface c (van_underlying v) (ddf_date expiry) (Ok curve) = Ok surface ->
  forward_at nan curve (ddf_date expiry) = Ok F -> variance nan surface expiry F = Ok V -> displacement nan surface (ddf_date expiry) = Ok d ->
  price nan cdf c (expiry_flow v) (mkDT (ctx_spot_date c) Open_) = Ok value -> d < F -> 0 < V -> 0 < df_path_substep f -> V <= df_path_substep f ->
  (forall x, derivable_pt_lim N x (n x)) -> bd_substepping (mp_model mp) = [1%nat] /\
  expected_price N (op_price ops) (fun l => mc_pricer_new nan visit (dealt 1 l) [(w, ISpotEuropean v k)] f md) (df_n_paths f)
    (w * (bacheliers_price N n (van_put_or_call v) F k ((F - d) * sqrt V) * value)).
Proof. exact one_step. Qed.
Print Assumptions C64_one_step.

(** Which is more, for an option struck at the forward. *)
Theorem C64_one_step_above : forall N, normal_cdf N -> forall pc n F s, 0 < F -> 0 < s -> (forall x, derivable_pt_lim N x (n x)) ->
  blacks_price N pc F F s < bacheliers_price N n pc F F (F * s).
Proof. exact bachelier_above. Qed.
Print Assumptions C64_one_step_above.

(** So prices are not unbiased, however many paths there are. *)
Theorem C64_bias_refuted : forall nan cdf N, normal_cdf N -> forall visit, (forall l, Permutation (visit l) l) -> forall redraws pc paths, (0 < paths)%nat ->
  let md := flat_market (100 * exp (- growth)) in let f := mkFactory var15 paths in let ops := mc_ops nan cdf visit redraws in exists e,
  expected_price N (op_price ops) (fun l => mc_pricer_new nan visit (dealt 1 l) [(1, option15 pc)] f md) paths e /\
  blacks_price N pc 100 100 (sqrt var15) < e.
Proof. exact biased. Qed.
Print Assumptions C64_bias_refuted.

Example C64_case : forall nan cdf visit, (forall l, Permutation (visit l) l) -> forall redraws draws s most paths pc w, 0 < s -> (0 < paths)%nat -> exists mp,
  mc_pricer_new nan visit draws [(w, ISpotEuropean (vanilla15 pc) 100)] (mkFactory most paths) (flat_market s) = Ok mp /\ let c := op_context (mc_ops nan cdf visit redraws) mp in
  van_underlying (vanilla15 pc) = stock /\ van_expiry_time (vanilla15 pc) = at15 /\ ctx_forward_curve c stock 15%Z = Ok (carried s rate 15%Z) /\
  ctx_vol_surface c stock 15%Z (Ok (carried s rate 15%Z)) = Ok flat_vol /\ marked nan (carried s rate 15%Z) flat_vol [at15] [mkMark (s * exp growth) var15 0] /\
  price nan cdf c (expiry_flow (vanilla15 pc)) (mkDT (ctx_spot_date c) Open_) = Ok 1 /\ 0 < s * exp growth /\ 0 < var15.
Proof. exact case15. Qed.

Example C64_forward_start_case : forall nan cdf visit, (forall l, Permutation (visit l) l) -> forall redraws draws s most paths pc w, 0 < s -> (0 < paths)%nat -> exists mp sd F1 F2 V1 V2,
  mc_pricer_new nan visit draws [(w, IForwardEuropean (vanilla15 pc) 1 sd (mkDDF 10%Z 0))] (mkFactory most paths) (flat_market s) = Ok mp /\
  let c := op_context (mc_ops nan cdf visit redraws) mp in
  ctx_forward_curve c stock 15%Z = Ok (carried s rate 15%Z) /\ ctx_vol_surface c stock 15%Z (Ok (carried s rate 15%Z)) = Ok flat_vol /\
  marked nan (carried s rate 15%Z) flat_vol [mkDDF 10%Z 0; at15] [mkMark F1 V1 0; mkMark F2 V2 0] /\
  price nan cdf c (expiry_flow (vanilla15 pc)) (mkDT (ctx_spot_date c) Open_) = Ok 1 /\ 0 < F1 /\ 0 < F2 /\ V1 < V2.
Proof. exact case_later. Qed.

Example C64_closed_form_case : forall nan N visit, (forall l, Permutation (visit l) l) -> forall redraws draws s most paths pc w, 0 < s -> (0 < paths)%nat -> exists v mp,
  mc_pricer_new nan visit draws [(w, ISpotEuropean v 100)] (mkFactory most paths) (flat_market s) = Ok mp /\ let c := op_context (mc_ops nan N visit redraws) mp in
  let today := mkDT (ctx_spot_date c) Open_ in van_put_or_call v = pc /\ van_expiry_time v = at15 /\ van_expiry v = mkDT 15%Z Open_ /\ van_pay_date v = 15%Z /\
  van_underlying v = stock /\ van_credit_id v = credit_id stock /\
  ctx_forward_curve c stock 15%Z = Ok (carried s rate 15%Z) /\ ctx_vol_surface c stock 15%Z (Ok (carried s rate 15%Z)) = Ok flat_vol /\
  forward_at nan (carried s rate 15%Z) 15%Z = Ok (s * exp growth) /\ (forall k, variance nan flat_vol at15 k = Ok var15) /\ displacement nan flat_vol 15%Z = Ok 0 /\
  price nan N c stock (van_expiry v) = Ok (s * exp growth) /\ price nan N c (expiry_flow v) today = Ok (exp (0 - growth)) /\
  ctx_yield_curve c "BP-CR" 15%Z = Ok rate /\ rt nan rate 15%Z = Ok growth /\ rt nan rate 0%Z = Ok 0 /\ ctx_spot_date c = 0%Z /\
  dt_leb today (van_expiry v) = true /\ apply_rule (van_settlement v) 0%Z = Ok 0%Z /\ time_to_day_fraction stock today = Ok (mkDDF 0%Z 0) /\
  ddf_leb (mkDDF from_nil 0) (mkDDF 0%Z 0) = true /\ upto (mkDDF 0%Z 0) (vs_base flat_vol).
Proof. exact case_own. Qed.
