(** C77: the implied volatility of any European option on a share. *)
From Coq Require Import ZArith List String Bool Reals.
From Verif Require Import Prelude Num M_Dates M_Calendar M_Curves M_Vol M_Instruments M_Risk M_Reports M_Solver
  S_Math S_Vol S_Reports S_Solver S_Greeks S_Implied L_InstrumentCases L_RiskCases L_ReportCases L_SolverCases L_GreeksCases L_Implied L_ImpliedCases.
Import ListNotations.
Open Scope list_scope.
Open Scope R_scope.

(** With its volatility replaced, the option is worth what Black's formula says, with no displacement whatever the surface had, and
    the same for a negative volatility. *)
Theorem C77_price : forall nan N w v k id md sp t F D, option_held nan w v k id md sp t F D ->
  depends_on_vols (self_ops nan N) sp [id] /\
  forall x, price_after (self_ops nan N) [BVol id (ReplaceVol x)] sp = Ok (w * black_formula N (van_put_or_call v) D F k (Rabs x * sqrt t)).
Proof. exact held_price. Qed.
Print Assumptions C77_price.

(** Every value strictly between the least and the most an option can be worth comes from exactly one volatility. *)
Theorem C77_unique : forall nan N w v k id md sp t F D, option_held nan w v k id md sp t F D -> normal_cdf N -> w <> 0 ->
  forall q, floor_value (van_put_or_call v) D F k < q < cap_value (van_put_or_call v) D F k ->
  exists x, 0 < x /\ price_after (self_ops nan N) [BVol id (ReplaceVol x)] sp = Ok (w * q) /\
    forall y, 0 < y -> price_after (self_ops nan N) [BVol id (ReplaceVol y)] sp = Ok (w * q) -> y = x.
Proof. exact held_unique. Qed.
Print Assumptions C77_unique.

(** And that is found, with bounds around it and enough iterations, whether the option is held or sold: up to sign, unless the answer is
    near nothing. *)
Theorem C77_found : forall nan N w v k id md sp t F D, option_held nan w v k id md sp t F D -> normal_cdf N -> w <> 0 ->
  forall x lo hi tol j n target, price_after (self_ops nan N) [BVol id (ReplaceVol x)] sp = Ok target ->
  0 < lo < x -> x < hi -> 0 < tol -> hi - lo < tol / 2 * 2 ^ j -> ((j + 1) * (j + 1) <= n)%nat ->
  exists vol sp', solve nan (self_ops nan N) (mkImpliedVol tol n) target lo hi sp = (Ok vol, sp') /\
    let within x y := Rabs (x - y) <= 4 * / 4503599627370496 * Rabs vol + tol in within (Rabs vol) x \/ within vol 0.
Proof. exact held_found. Qed.
Print Assumptions C77_found.

(** The price of an option off a surface without displacement gives back the volatility the surface has for it. *)
Theorem C77_own : forall nan N w v k id md sp t F D, option_held nan w v k id md sp t F D ->
  forall surface vol value, get id (md_vols md) = Some surface -> volatility_is nan surface (van_expiry_time v) k vol t -> 0 <= vol ->
  displacement nan surface (dt_date (van_expiry v)) = Ok 0 -> self_price nan N sp = Ok value ->
  price_after (self_ops nan N) [BVol id (ReplaceVol vol)] sp = Ok value.
Proof. exact held_own. Qed.
Print Assumptions C77_own.

(** Volatilities that are near give prices that are: so a volatility within the tolerance reprices the option to within the tolerance times
    the holding, its discounted forward and the root of the time. *)
Theorem C77_reprices : forall nan N w v k id md sp t F D, option_held nan w v k id md sp t F D -> normal_cdf N ->
  forall x y p q, x <> 0 -> y <> 0 -> price_after (self_ops nan N) [BVol id (ReplaceVol x)] sp = Ok p ->
  price_after (self_ops nan N) [BVol id (ReplaceVol y)] sp = Ok q ->
  Rabs (p - q) <= Rabs w * (D * F * sqrt t * Rabs (Rabs x - Rabs y)).
Proof. exact held_apart. Qed.
Print Assumptions C77_reprices.

(** A target that is not between the prices at the two bounds is an error ... *)
Theorem C77_outside : forall nan N w v k id md sp t F D, option_held nan w v k id md sp t F D ->
  forall target x y lo hi c, 0 < lo < hi -> price_after (self_ops nan N) [BVol id (ReplaceVol lo)] sp = Ok x ->
  price_after (self_ops nan N) [BVol id (ReplaceVol hi)] sp = Ok y -> target < x /\ target < y \/ x < target /\ y < target ->
  exists m sp', solve nan (self_ops nan N) c target lo hi sp = (Err m, sp').
Proof. exact held_outside. Qed.
Print Assumptions C77_outside.

(** ... and so, whatever the bounds, is one that would be an arbitrage. *)
Theorem C77_arbitrage : forall nan N w v k id md sp t F D, option_held nan w v k id md sp t F D -> normal_cdf N -> w <> 0 ->
  forall q lo hi c, 0 < lo < hi -> q <= floor_value (van_put_or_call v) D F k \/ cap_value (van_put_or_call v) D F k <= q ->
  exists m sp', solve nan (self_ops nan N) c (w * q) lo hi sp = (Err m, sp').
Proof. exact held_arbitrage. Qed.
Print Assumptions C77_arbitrage.

(** A call of 15 days on a share at any spot. *)
Example C77_applies : forall nan s, 0 < s ->
  option_held nan 1 (option_on stock 15%Z Call CashSettled) 100 "BP" (flat_market s) (one_call nan s) (15 / 365) (s * exp growth) (exp (- growth)).
Proof. exact one_call_held. Qed.
Example C77_own_case : forall nan N s, normal_cdf N -> 0 < s -> exists value, self_price nan N (one_call nan s) = Ok value /\
  price_after (self_ops nan N) [BVol "BP" (ReplaceVol (/ 5))] (one_call nan s) = Ok value.
Proof. exact one_call_own. Qed.
