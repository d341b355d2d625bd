(** Property C66: volatilities and variances on IEEE-754 doubles, rounding, NaN and infinity included. *)
From Coq Require Import ZArith List String Bool Lia Reals Lra.
From Coq.Floats Require Import SpecFloat.
From Flocq Require Import Core.
From Verif Require Import Prelude Num M_Dates M_Interp M_Forward M_Vol M_Calendar S_Calendar S_Vol S_Double L_Double S_VolDouble L_VolDouble.
Import ListNotations.
Open Scope string_scope.
Open Scope list_scope.
Open Scope R_scope.

(** C66: a flat surface: squared volatility times the weighted time, up to rounding. *)
Theorem C66_flat : forall (TR : Trans F64) nan vol cal base,
  finite_weights cal -> proper (exact cal) -> (nesting cal <= 1000)%nat -> finite vol -> Rabs (real vol) <= 1000 -> in_day base ->
  forall d k x, in_day d -> (ddf_date base <= ddf_date d < ddf_date base + 2 ^ 40)%Z ->
  variance nan (FlatVolSurface vol cal base) d k = Ok x ->
  finite x /\ Rabs (real x - real vol ^ 2 * weighted_years (exact cal) (exact_time base) (exact_time d)) <= allowance cal base d vol.
Proof. exact @flat_variance_near. Qed.
Print Assumptions C66_flat.

(** C66: its forward variance: the squared volatility times the time between the dates, up to rounding, and not negative; or
    a complaint that it is negative, if it is no larger than the rounding. *)
Theorem C66_flat_forward : forall (TR : Trans F64) nan vol cal base,
  finite_weights cal -> proper (exact cal) -> (nesting cal <= 1000)%nat -> finite vol -> Rabs (real vol) <= 1000 -> in_day base ->
  forall from to k t t', in_day from -> in_day to -> before (exact_time base) (exact_time from) -> upto (exact_time from) (exact_time to) ->
  (ddf_date to < ddf_date base + 2 ^ 40)%Z -> year_fraction cal base from = Ok t -> year_fraction cal base to = Ok t' ->
  (exists x, forward_variance nan (FlatVolSurface vol cal base) from to k = Ok x /\ finite x /\ 0 <= real x /\
    Rabs (real x - real vol ^ 2 * weighted_years (exact cal) (exact_time from) (exact_time to)) <= allowance cal base to vol) \/
  (forward_variance nan (FlatVolSurface vol cal base) from to k = Err "Negative forward variance" /\
    real vol ^ 2 * weighted_years (exact cal) (exact_time from) (exact_time to) <= allowance cal base to vol).
Proof. exact @flat_forward_near. Qed.
Print Assumptions C66_flat_forward.

(** C66: based at the start of a day, or where every day counts, there is never a complaint. *)
Theorem C66_flat_forward_total : forall (TR : Trans F64) nan vol cal base,
  finite_weights cal -> proper (exact cal) -> (nesting cal <= 1000)%nat -> finite vol -> Rabs (real vol) <= 1000 -> in_day base ->
  forall from to k t t', in_day from -> in_day to -> before (exact_time base) (exact_time from) -> upto (exact_time from) (exact_time to) ->
  (ddf_date to < ddf_date base + 2 ^ 40)%Z -> year_fraction cal base from = Ok t -> year_fraction cal base to = Ok t' ->
  real (ddf_frac base) = 0 \/ every_day cal ->
  exists x, forward_variance nan (FlatVolSurface vol cal base) from to k = Ok x /\ finite x /\ 0 <= real x /\
    Rabs (real x - real vol ^ 2 * weighted_years (exact cal) (exact_time from) (exact_time to)) <= allowance cal base to vol.
Proof. exact @flat_forward_ok. Qed.
Print Assumptions C66_flat_forward_total.

(** Weekends weighted by 0.3 and 25%, from a Thursday to a Monday and the Wednesday after it. *)
Example C66_flat_example : finite_weights L_CalendarDouble.three_tenths /\ proper (exact L_CalendarDouble.three_tenths) /\
  finite (nlit 1 4) /\ Rabs (real (nlit 1 4)) <= 1000 /\ in_day (mkDDF 7%Z n0) /\ in_day (mkDDF 11%Z n0) /\ in_day (mkDDF 13%Z n0) /\
  exists t t', year_fraction L_CalendarDouble.three_tenths (mkDDF 7%Z n0) (mkDDF 11%Z n0) = Ok t /\
    year_fraction L_CalendarDouble.three_tenths (mkDDF 7%Z n0) (mkDDF 13%Z n0) = Ok t'.
Proof. exact flat_case. Qed.

(** C66: based within a day, a flat surface does complain: over a weekend, which takes no time, from a Thursday at 0.074 of
    the day. *)
Theorem C66_weekend_refuted : forall (TR : Trans F64) nan k, exists vol cal base from to,
  finite vol /\ in_day base /\ in_day from /\ in_day to /\ before (exact_time base) (exact_time from) /\ before (exact_time from) (exact_time to) /\
  forward_variance nan (FlatVolSurface vol cal base) from to k = Err "Negative forward variance".
Proof. exact weekend_case. Qed.
Print Assumptions C66_weekend_refuted.

(** C66: a surface built of 32% to nine years and 24% to sixteen, which is accepted, has no volatility between them. *)
Theorem C66_accepted_refuted : forall (TR : Trans F64) nan, exists v,
  linear_new [(0%Z, nofZ 100); (1000%Z, nofZ 100)] Flat Flat = Ok level_hundred /\
  vbp_new nan [(mkDDF 3285%Z n0, FlatSmile (nlit 32 100)); (mkDDF 5840%Z n0, FlatSmile (nlit 24 100))] EveryDay (mkDDF 0%Z n0)
    level_hundred level_hundred NoCashDivs = Ok v /\
  forall k, volatilities nan (VolByProbability v) (mkDDF 4000%Z n0) [k] = Err "Negative forward variance".
Proof. exact @accepted_but_negative. Qed.
Print Assumptions C66_accepted_refuted.

(** C66: with pillars on a Saturday and the Monday after it, at no time from each other, the volatility on the Sunday is NaN,
    though both smiles are flat at 25%. *)
Theorem C66_weekend_nan_refuted : forall (TR : Trans F64) nan, exists v,
  vbp_new nan [(mkDDF 9%Z n0, FlatSmile (nlit 1 4)); (mkDDF 11%Z n0, FlatSmile (nlit 1 4))] Weekday (mkDDF 7%Z n0)
    level_hundred level_hundred NoCashDivs = Ok v /\
  forall k, exists t, volatility_is nan (VolByProbability v) (mkDDF 10%Z n0) k F_nan t.
Proof. exact @weekend_nan. Qed.
Print Assumptions C66_weekend_nan_refuted.

(** C66: a surface evolved in time has no variance below zero, whatever its volatilities are, infinities and NaN included. *)
Theorem C66_evolved_nonnegative : forall (TR : Trans F64) nan s d k v t, time_evolved s -> volatility_is nan s d k v t -> double v -> double t ->
  exists x, variance nan s d k = Ok x /\ nltb x n0 = false.
Proof. exact @evolved_not_below. Qed.
Print Assumptions C66_evolved_nonnegative.

(** C66: a parallel bump gives volatilities that are never NaN or below zero; where the volatility or the bump is NaN, and so
    nothing is known, it says zero. *)
Theorem C66_bumped : forall (TR : Trans F64) nan s d k v t b, volatility_is nan s d k v t -> double v -> double b ->
  exists v', volatility_is nan (ParallelBumpVol s b) d k v' t /\ v' <> F_nan /\ nltb v' n0 = false /\
    (nadd v b = F_nan -> v' = n0) /\ (nltb n0 (nadd v b) = true -> v' = nadd v b).
Proof. exact @bumped_double. Qed.
Print Assumptions C66_bumped.

(** C66: so the surface whose volatility is NaN on a Sunday has, bumped by one percent, the volatility zero. *)
Theorem C66_nan_hidden_refuted : forall (TR : Trans F64) nan, exists s d, forall k,
  (exists t, volatility_is nan s d k F_nan t) /\ (exists t, volatility_is nan (ParallelBumpVol s (nlit 1 100)) d k n0 t) /\
  forall x, variance nan (ParallelBumpVol s (nlit 1 100)) d k = Ok x -> x = n0.
Proof. exact @nan_hidden. Qed.
Print Assumptions C66_nan_hidden_refuted.
