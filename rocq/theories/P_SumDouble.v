(** C81: sums over portfolios and baskets and averages over paths, on doubles. *)
From Coq Require Import ZArith List String Reals Permutation.
From Flocq Require Import Core.
From Verif Require Import Prelude Num M_Dates M_Calendar M_Instruments M_Risk M_Reports M_MonteCarlo S_Double S_Instruments S_MonteCarlo S_SumDouble
  L_Displacement L_BlackDouble L_MeanDouble L_MeanDoubleCases.
Import ListNotations.
Open Scope list_scope.
Open Scope R_scope.

(** The price of a portfolio is the sum of the holdings times their prices, up to rounding: one part in 2^52 of the gross value for
    each holding.  Unless the gross value is beyond 2^1000 it does not overflow on the way. *)
Theorem C81_portfolio : forall (TR : Trans F64) nan cdf (sp : self_pricer F64) x, self_price nan cdf sp = Ok x ->
  let c := prefetch_context nan (sp_context sp) in
  exists ps, Forall2 (fun h p => price nan cdf c (snd h) (mkDT (ctx_spot_date c) Open_) = Ok p) (sp_instruments sp) ps /\
    let pairs := combine (map fst (sp_instruments sp)) ps in
    (addable pairs -> finite x /\ Rabs (real x - exact_sum pairs) <= sum_error pairs).
Proof. exact @portfolio_double. Qed.
Print Assumptions C81_portfolio.

(** So is each of the prices of a basket. *)
Theorem C81_basket : forall (TR : Trans F64) nan cdf c id cr cur s (ms : holdings F64) dates l,
  prices nan cdf c (IBasket id cr cur s ms) dates = Ok l -> forall j, (j < List.length dates)%nat ->
  exists ps x, Forall2 (fun h p => nth_price (fun i => prices nan cdf c i dates) j (snd h) p) ms ps /\ nth_error l j = Some x /\
    let pairs := combine ps (map fst ms) in
    (addable pairs -> finite x /\ Rabs (real x - exact_sum pairs) <= sum_error pairs).
Proof. exact @basket_double. Qed.
Print Assumptions C81_basket.

(** The same holdings in another order are worth the same, up to twice that. *)
Theorem C81_order : forall (TR : Trans F64) nan cdf context (l l' : holdings F64) x x',
  self_price nan cdf (mkSelfPricer l context) = Ok x -> self_price nan cdf (mkSelfPricer l' context) = Ok x' -> Permutation l l' ->
  let c := prefetch_context nan context in
  exists ps, Forall2 (fun h p => price nan cdf c (snd h) (mkDT (ctx_spot_date c) Open_) = Ok p) l ps /\
    let pairs := combine (map fst l) ps in (addable pairs -> Rabs (real x - real x') <= 2 * sum_error pairs).
Proof. exact @order_double. Qed.
Print Assumptions C81_order.

(** Not exactly the same: 2^53 coins and one and one are 2^53 coins, but one and one and 2^53 coins are two more. *)
Theorem C81_order_refuted : forall (TR : Trans F64) nan cdf, let great_first := [(great, coin); (n1, coin); (n1, coin)] in
  let great_last := [(n1, coin); (n1, coin); (great, coin)] in
  Permutation great_first great_last /\
  exists x y, self_price nan cdf (mkSelfPricer great_first no_market) = Ok x /\ self_price nan cdf (mkSelfPricer great_last no_market) = Ok y /\
    real x = 9007199254740992 /\ real y = 9007199254740994.
Proof. exact @coins_case. Qed.
Print Assumptions C81_order_refuted.

(** The price of an option by Monte Carlo is the mean of what it pays on the paths there are, times the value of one unit paid, times the
    holding, up to rounding: three parts in 2^52, and one more for each path.  The exact mean is meant: the payoffs, their sum, the
    average and the products are all rounded on the way. *)
Theorem C81_average : forall (TR : Trans F64) nan cdf visit draws (w : F64) v k f md mp x spots value,
  mc_pricer_new nan visit draws [(w, ISpotEuropean v k)] f md = Ok mp -> mc_pricer_price nan cdf mp = Ok x ->
  let c := prefetch_context nan (bd_context (mp_model mp)) in
  mc_paths (mp_model mp) (van_underlying v) = Ok (map (fun s => [s]) spots) ->
  price nan cdf c (expiry_flow v) (mkDT (ctx_spot_date c) Open_) = Ok value ->
  of_size 800 k -> of_size 50 w -> of_size 50 value -> Forall (of_size 800) spots -> (Z.of_nat (df_n_paths f) <= 2 ^ 50)%Z ->
  let m := mean (map (fun s => intrinsic_of (van_put_or_call v) (real s) (real k)) spots) in
  List.length spots = df_n_paths f /\ finite x /\ 0 <= m /\
  Rabs (real x - real w * (m * real value)) <=
    (INR (df_n_paths f) + 3) * bpow radix2 (-52) * (Rabs (real w) * (m * Rabs (real value))) +
    bpow radix2 (-1073) * (Rabs (real w) * Rabs (real value) + Rabs (real w) + 1).
Proof. exact @average_double. Qed.
Print Assumptions C81_average.

(** Numbers that can be added; and a pricer with two paths, along which the share is worth 100 and 125 at expiry and a call at 90 is
    worth 22.5, the logarithms and exponentials being those to first order. *)
Example C81_example : addable [(nlit 5 2, nofZ 100); (nopp n1, nofZ 250)] /\ forall cdf : F64 -> F64, let TF : Trans F64 := first_order in
  mc_pricer_new F_nan (fun l => l) two_draws [(n1, ISpotEuropean (share_option Call) (nofZ 90))] (mkFactory n1 2) still_market = Ok still_pricer /\
  mc_pricer_price F_nan cdf still_pricer = Ok (nlit 45 2) /\
  let c := prefetch_context F_nan (bd_context (mp_model still_pricer)) in
  mc_paths (mp_model still_pricer) share = Ok (map (fun s => [s]) [nofZ 100; nofZ 125]) /\
  price F_nan cdf c (expiry_flow (share_option Call)) (mkDT (ctx_spot_date c) Open_) = Ok n1 /\
  Forall (of_size 800) [nofZ 100; nofZ 125].
Proof. exact (conj addable_case average_case). Qed.
