(** C79: the delta and gamma that Monte Carlo reports. *)
From Coq Require Import ZArith List String Bool Reals Permutation.
From Verif Require Import Prelude Num M_Dates M_Calendar M_Curves M_Fixings M_Forward M_Vol M_Instruments M_Deps M_Risk M_Reports M_MonteCarlo
  S_Math S_MonteCarlo S_Expectation S_McGreeks L_InstrumentCases L_RiskCases L_ReportCases L_MonteCarloCases L_McGreeks L_McExpected L_McGreeksCases.
Import ListNotations.
Open Scope list_scope.
Open Scope string_scope.
Open Scope R_scope.

(** A European option on a share, priced by Monte Carlo.  The delta and gamma reported are the central differences of the mean payoff on
    paths made from the very same draws, in the same number of steps, with the spot down, as it is and up by the bump.  What is paid is
    discounted as it was. *)
Theorem C79_paths : forall nan cdf visit, (forall l, Permutation (visit l) l) -> forall redraws w v k id cr cur st f md,
  van_underlying v = IEquity id cr cur st -> ddf_date (van_expiry_time v) = dt_date (van_expiry v) -> forall draws mp s h delta gamma,
  mc_pricer_new nan visit draws [(w, ISpotEuropean v k)] f md = Ok mp -> get id (md_spots md) = Some s -> 0 < s -> 0 < h < 1 ->
  delta_gamma nan (mc_ops nan cdf visit redraws) h id mp delta gamma ->
  exists n value down here up, bd_substepping (mp_model mp) = [n] /\ (1 <= n)%nat /\ (0 < df_n_paths f)%nat /\ payment_worth nan cdf md v value /\
    mark_if nan md v (s * (1 - h)) down /\ mark_if nan md v s here /\ mark_if nan md v (s * (1 + h)) up /\
    0 <= mk_variance here / INR n /\ (0 < df_path_substep f -> mk_variance here / INR n <= df_path_substep f) /\
    let x m := mean_payoff (ISpotEuropean v k) m n (df_n_paths f) draws in
    delta = w * value * ((x up - x down) / (2 * (h * s))) /\ gamma = w * value * ((x up + x down - 2 * x here) / (h * s * (h * s))).
Proof. exact entry_read. Qed.
Print Assumptions C79_paths.

(** Whatever the draws, such a report can be made of an option held or sold off a market with a flat volatility, and has no smile. *)
Example C79_paths_example : forall nan cdf visit, (forall l, Permutation (visit l) l) -> forall redraws draws s most n pc w h, 0 < s -> 0 < most -> (0 < n)%nat -> 0 < h < 1 ->
  exists mp delta gamma, let v := vanilla15 pc in
    mc_pricer_new nan visit draws [(w, ISpotEuropean v 100)] (mkFactory most n) (flat_market s) = Ok mp /\
    van_underlying v = IEquity "BP" "BP-CR" usd NullRule /\ ddf_date (van_expiry_time v) = dt_date (van_expiry v) /\
    get "BP" (md_spots (flat_market s)) = Some s /\ no_smile nan (flat_market s) v /\
    delta_gamma nan (mc_ops nan cdf visit redraws) h "BP" mp delta gamma /\
    (forall x m, mark_if nan (flat_market s) v x m -> m = mkMark (x * exp growth) var15 0) /\
    0 < s * (1 - h) * exp growth /\ 0 < s * (1 + h) * exp growth /\ 0 < var15.
Proof. exact mc_greeks_case. Qed.

(** Without a smile the reported gamma of an option held is never negative and that of an option sold never positive.  It does not
    matter how few paths there are, what was drawn or whether the paths go below zero. *)
Theorem C79_gamma : forall nan cdf visit, (forall l, Permutation (visit l) l) -> forall redraws w v k id cr cur st f md,
  van_underlying v = IEquity id cr cur st -> ddf_date (van_expiry_time v) = dt_date (van_expiry v) -> forall draws mp s h delta gamma,
  mc_pricer_new nan visit draws [(w, ISpotEuropean v k)] f md = Ok mp -> get id (md_spots md) = Some s -> 0 < s -> 0 < h < 1 -> no_smile nan md v ->
  delta_gamma nan (mc_ops nan cdf visit redraws) h id mp delta gamma -> (0 <= w -> 0 <= gamma) /\ (w <= 0 -> gamma <= 0).
Proof. exact gamma_sign. Qed.
Print Assumptions C79_gamma.

(** The delta of a call held is not negative, and is at most what the forward moves per move of the spot, discounted, times the mean of
    what the paths have grown by.  That of a put held is not positive provided no path has crossed the displacement. *)
Theorem C79_delta : forall nan cdf visit, (forall l, Permutation (visit l) l) -> forall redraws w v k id cr cur st f md,
  van_underlying v = IEquity id cr cur st -> ddf_date (van_expiry_time v) = dt_date (van_expiry v) -> forall draws mp s h delta gamma,
  mc_pricer_new nan visit draws [(w, ISpotEuropean v k)] f md = Ok mp -> get id (md_spots md) = Some s -> 0 < s -> 0 < h < 1 -> no_smile nan md v ->
  delta_gamma nan (mc_ops nan cdf visit redraws) h id mp delta gamma ->
  exists n value down here up, bd_substepping (mp_model mp) = [n] /\ payment_worth nan cdf md v value /\ 0 <= value /\
    mark_if nan md v (s * (1 - h)) down /\ mark_if nan md v s here /\ mark_if nan md v (s * (1 + h)) up /\
    let gs := growths here n (df_n_paths f) draws in let slope := (mk_forward up - mk_forward down) / (2 * (h * s)) in let d := mk_displacement here in
    (0 <= w -> d <= mk_forward down <= mk_forward up ->
      match van_put_or_call v with
      | Call => d <= k -> 0 <= delta <= w * value * (slope * mean (map (fun g => Rmax g 0) gs))
      | Put => Forall (fun g => 0 <= g) gs -> - (w * value * (slope * mean gs)) <= delta <= 0
      end).
Proof. exact delta_sign. Qed.
Print Assumptions C79_delta.

(** That proviso is needed, because paths are made in steps that are not lognormal: a put held with one path, which has gone below zero,
    is reported to gain when the spot rises, by more than a share would. *)
Theorem C79_delta_refuted : forall nan cdf visit, (forall l, Permutation (visit l) l) -> forall redraws s h, 0 < s -> 0 < h < 1 -> exists mp delta gamma,
  mc_pricer_new nan visit deep [(1, put_100)] (mkFactory var15 1) (flat_market s) = Ok mp /\
  mc_paths (mp_model mp) stock = Ok [[- (s * exp growth)]] /\ delta_gamma nan (mc_ops nan cdf visit redraws) h "BP" mp delta gamma /\
  delta = exp growth /\ 1 < delta /\ gamma = 0.
Proof. exact put_gains. Qed.
Print Assumptions C79_delta_refuted.

(** Without a smile and over independent normal draws, the delta and gamma that a report is expected to give differ from the central
    differences of Black's prices by no more than an error that vanishes with the limit on the variance of a step.  Of gamma it is also
    divided by the square of the bump. *)
Theorem C79_expected : forall nan cdf N, normal_cdf N -> forall visit, (forall l, Permutation (visit l) l) -> forall redraws w v k id cr cur st f md,
  van_underlying v = IEquity id cr cur st -> ddf_date (van_expiry_time v) = dt_date (van_expiry v) -> forall draws mp s h delta0 gamma0,
  let make draws := mc_pricer_new nan visit draws [(w, ISpotEuropean v k)] f md in let ops := mc_ops nan cdf visit redraws in
  make draws = Ok mp -> get id (md_spots md) = Some s -> 0 < s -> 0 < h < 1 -> no_smile nan md v ->
  delta_gamma nan ops h id mp delta0 gamma0 -> 0 < df_path_substep f -> exists n value down here up delta gamma ed eg,
    bd_substepping (mp_model mp) = [n] /\ payment_worth nan cdf md v value /\
    mark_if nan md v (s * (1 - h)) down /\ mark_if nan md v s here /\ mark_if nan md v (s * (1 + h)) up /\
    (forall l, List.length l = (df_n_paths f * n)%nat -> exists mp', make (dealt n l) = Ok mp' /\ delta_gamma nan ops h id mp' (delta l) (gamma l)) /\
    expected N (df_n_paths f * n) delta ed /\ expected N (df_n_paths f * n) gamma eg /\
    let d := mk_displacement here in let V := mk_variance here in let e := sqrt (exp V * (df_path_substep f * V / 2)) in
    let black m := blacks_price N (van_put_or_call v) (mk_forward m - d) (k - d) (sqrt V) in
    (d < mk_forward down -> d < mk_forward up -> d < k -> 0 < V ->
      Rabs (ed - w * value * ((black up - black down) / (2 * (h * s)))) <= Rabs w * value * ((mk_forward here - d) * e / (h * s)) /\
      Rabs (eg - w * value * ((black up + black down - 2 * black here) / (h * s * (h * s)))) <= Rabs w * value * (4 * (mk_forward here - d) * e / (h * s * (h * s)))).
Proof. exact expected_greeks. Qed.
Print Assumptions C79_expected.
