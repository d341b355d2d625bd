(** Properties of implied volatility (C51). *)
From Coq Require Import ZArith List String Bool Reals Lra.
From Verif Require Import Prelude Num M_Brent M_Dates M_Calendar M_Curves M_Forward M_Vol M_Fixings M_Instruments M_Deps M_Risk M_Reports M_MonteCarlo M_Solver
  S_Math S_Instruments S_Deps S_Risk S_Reports S_MonteCarlo S_Solver L_InstrumentCases L_RiskCases L_ReportCases L_Solver L_SolverAfter L_SolverCases L_Normal.
Import ListNotations.
Open Scope list_scope.
Open Scope R_scope.

(** Both pricers can have a volatility replaced over and over. *)
Theorem C51_self_pricer : forall T (N : Num T) (TR : Trans T) (nan : T) cdf, replaceable (self_ops nan cdf).
Proof. exact (fun T N TR => self_replaceable). Qed.
Print Assumptions C51_self_pricer.

Theorem C51_monte_carlo : forall T (N : Num T) (TR : Trans T) (nan : T) cdf visit redraws, replaceable (mc_ops nan cdf visit redraws).
Proof. exact (fun T N TR => mc_replaceable). Qed.
Print Assumptions C51_monte_carlo.

(** On success the price depends on one volatility, and the answer is where the price crosses the target, as far as the
    volatilities tried show; the pricer is left with the last one tried. *)
Theorem C51_encloses : forall P nan (ops : pricer_ops R P), replaceable ops -> forall s target lo hi p vol p',
  solve nan ops s target lo hi p = (Ok vol, p') -> exists id log,
    depends_on_vols ops p [id] /\ enclosed (excess ops id p target) (iv_tolerance s) vol log /\
    exists last rest, log = last :: rest /\ with_vol ops id last p p'.
Proof. intros P. exact solve_encloses. Qed.
Print Assumptions C51_encloses.

(** With a target between the prices at the two bounds, enough iterations, and prices up to three widths outside the bounds (which may be
    negative volatilities), there is an answer. *)
Theorem C51_found : forall P nan (ops : pricer_ops R P), replaceable ops -> forall s target lo hi p id j,
  0 < iv_tolerance s -> Rabs (hi - lo) < iv_tolerance s / 2 * 2 ^ j -> ((j + 1) * (j + 1) <= iv_max_iter s)%nat ->
  depends_on_vols ops p [id] ->
  (forall v, Rmin lo hi - 3 * Rabs (hi - lo) <= v <= Rmax lo hi + 3 * Rabs (hi - lo) -> exists x, price_after ops [BVol id (ReplaceVol v)] p = Ok x) ->
  (forall x y, price_after ops [BVol id (ReplaceVol lo)] p = Ok x -> price_after ops [BVol id (ReplaceVol hi)] p = Ok y -> x <= target <= y \/ y <= target <= x) ->
  exists vol p', solve nan ops s target lo hi p = (Ok vol, p').
Proof. intros P. exact solve_ends. Qed.
Print Assumptions C51_found.

(** If the price increases with the size of the volatility, whichever gives the target is near the answer, up to sign, unless
    the answer is near nothing. *)
Theorem C51_near : forall P nan (ops : pricer_ops R P), replaceable ops -> forall s target lo hi p vol p' id,
  solve nan ops s target lo hi p = (Ok vol, p') -> depends_on_vols ops p [id] ->
  (forall v w x y, 0 < Rabs v < Rabs w -> price_after ops [BVol id (ReplaceVol v)] p = Ok x ->
     price_after ops [BVol id (ReplaceVol w)] p = Ok y -> x < y) ->
  forall v, 0 < v -> price_after ops [BVol id (ReplaceVol v)] p = Ok target ->
  let within x y := Rabs (x - y) <= 4 * / 4503599627370496 * Rabs vol + Rabs (iv_tolerance s) in
  within (Rabs vol) v \/ within vol 0.
Proof. intros P. exact solve_near. Qed.
Print Assumptions C51_near.

(** No volatility, or more than one, is an error and nothing is bumped. *)
Theorem C51_ambiguous : forall T (N : Num T) P (nan : T) (ops : pricer_ops T P) s target lo hi p ids, depends_on_vols ops p ids -> List.length ids <> 1%nat ->
  exists m, solve nan ops s target lo hi p = (Err m, p).
Proof. exact (fun T N P => solve_ambiguous). Qed.
Print Assumptions C51_ambiguous.

(** However a search ends, in whatever arithmetic, the pricer is left as it was, or with one volatility replaced in it and nothing else changed, or
    as the first replacement that failed left it, in which case that failure is the outcome. *)
Theorem C51_after : forall T (N : Num T) (TR : Trans T) P (nan : T) (ops : pricer_ops T P), replaceable ops -> forall s target lo hi p r p',
  solve nan ops s target lo hi p = (r, p') ->
  p' = p \/ exists id vol, depends_on_vols ops p [id] /\
    (with_vol ops id vol p p' \/
     exists q f c, (q = p \/ exists w, with_vol ops id w p q) /\ op_bump ops (BVol id (ReplaceVol vol)) q None = (f, p', c) /\
       (exists m, f = Err m /\ r = Err m \/ f = Panic m /\ r = Panic m)).
Proof. exact @solve_leaves. Qed.
Print Assumptions C51_after.

(** A call meets the hypotheses. *)
Example C51_near_call : forall nan cdf s v, normal_cdf cdf -> 0 < s ->
  self_pricer_new nan [(1, call_100)] (flat_market s) = Ok (one_call nan s) /\
  depends_on_vols (self_ops nan cdf) (one_call nan s) ["BP"%string] /\
  price_after (self_ops nan cdf) [BVol "BP" (ReplaceVol v)] (one_call nan s) = Ok (call_value cdf s v) /\
  forall v w x y, 0 < Rabs v < Rabs w -> price_after (self_ops nan cdf) [BVol "BP" (ReplaceVol v)] (one_call nan s) = Ok x ->
     price_after (self_ops nan cdf) [BVol "BP" (ReplaceVol w)] (one_call nan s) = Ok y -> x < y.
Proof.
  intros nan cdf s v HN P. split; [apply one_call_new|]. split; [apply one_vol|]. assert (S : 0 <= s) by lra. split; [now apply call_given|].
  intros v1 w x y L. rewrite !(call_given nan cdf s) by exact S. intros X Y. injection X as <-. injection Y as <-. now apply call_value_increases.
Qed.

(** The whole of it, for a call: whatever volatility between the bounds its price comes from is found, up to the tolerance and up to sign. *)
Theorem C51_call : forall nan cdf s v lo hi tol j n, normal_cdf cdf -> 0 < s -> 0 < lo < v -> v < hi ->
  0 < tol -> hi - lo < tol / 2 * 2 ^ j -> ((j + 1) * (j + 1) <= n)%nat ->
  exists vol p', solve nan (self_ops nan cdf) (mkImpliedVol tol n) (call_value cdf s v) lo hi (one_call nan s) = (Ok vol, p') /\
    let within x y := Rabs (x - y) <= 4 * / 4503599627370496 * Rabs vol + tol in within (Rabs vol) v \/ within vol 0.
Proof. exact call_solved. Qed.
Print Assumptions C51_call.

(** A search that succeeds. *)
Example C51_encloses_call : forall nan cdf s a b tol n, normal_cdf cdf -> 0 < s -> 0 < a < b ->
  solve nan (self_ops nan cdf) (mkImpliedVol tol (S n)) (call_value cdf s a) a b (one_call nan s) = (Ok a, call_with nan s b).
Proof. exact ends_at_once. Qed.

(** Equity alone depends on no volatility. *)
Example C51_ambiguous_case : forall nan cdf s, exists sp, self_pricer_new nan [(1, stock)] (flat_market s) = Ok sp /\
  depends_on_vols (self_ops nan cdf) sp [].
Proof. intros nan cdf s. eexists. split; [reflexivity|]. eexists. split; reflexivity. Qed.

(** The pricer is not left at the answer: it then prices to something else. *)
Theorem C51_left_refuted : exists nan cdf s v target lo hi p p' vol x, normal_cdf cdf /\
  self_pricer_new nan [(1, call_100)] (flat_market s) = Ok p /\
  solve nan (self_ops nan cdf) v target lo hi p = (Ok vol, p') /\
  price_after (self_ops nan cdf) [BVol "BP" (ReplaceVol vol)] p = Ok target /\
  op_price (self_ops nan cdf) p' = Ok x /\ target < x.
Proof. exact left_elsewhere. Qed.
Print Assumptions C51_left_refuted.

(** Nor is it put back after an error: with a target that is not bracketed it is left with the upper bound. *)
Theorem C51_error_refuted : forall nan cdf s v target lo hi, normal_cdf cdf -> 0 < s -> 0 < lo < hi -> target < call_value cdf s lo -> exists m,
  solve nan (self_ops nan cdf) v target lo hi (one_call nan s) = (Err m, call_with nan s hi).
Proof. exact unbracketed_left. Qed.
Print Assumptions C51_error_refuted.

Example C51_error_case : exists cdf, normal_cdf cdf /\ 0 < 100 /\ 0 < 1 < 2 /\ call_value cdf 100 1 - 1 < call_value cdf 100 1.
Proof. destruct normal_cdf_exists as (cdf & HN). exists cdf. split; [exact HN|]. lra. Qed.
