(** Properties C58-C62: linear interpolation, root finding, business-day arithmetic, discount factors and options on IEEE-754
    doubles, rounding included. *)
From Coq Require Import ZArith List String Bool Lia Reals Lra.
From Coq.Floats Require Import SpecFloat.
From Flocq Require Import Core.
From Verif Require Import Prelude Num M_Interp S_Interp M_Brent S_Math M_Dates M_Forward M_Vol M_Calendar S_Calendar S_Double L_Double L_InterpDouble L_BrentDouble
  L_CalendarDouble M_Curves S_Data S_CurveDouble L_CurveDouble M_Fixings M_Black76 M_Instruments S_BlackDouble L_BlackDouble L_InterpNan.
Import ListNotations.
Open Scope string_scope.
Open Scope list_scope.
Open Scope R_scope.

Example C58_points_exist : exists (f : linear F64 F64), linear_new [(nofZ 0, nofZ 3); (nofZ 1, nofZ 4)] Flat Flat = Ok f /\
  double (nofZ 0) /\ double (nofZ 1).
Proof. eexists. repeat split; reflexivity. Qed.

(** C58: exact at the given points, whatever the sign of a zero. *)
Theorem C58_at_points : forall (pts : list (F64 * F64)), (forall p, In p pts -> double (fst p)) ->
  forall nan l r f, linear_new pts l r = Ok f ->
  forall x x' y, double x' -> In (x, y) pts -> neqb x' x = true -> linear_at nan f x' = Ok y.
Proof. exact doubles_at. Qed.
Print Assumptions C58_at_points.

(** C58: outside, the policies, unless the left one is Natural. *)
Theorem C58_left_policy : forall (pts : list (F64 * F64)), (forall p, In p pts -> double (fst p)) ->
  forall nan l r f, linear_new pts l r = Ok f ->
  forall x p, double x -> first_point pts p -> nltb x (fst p) = true -> l <> Natural -> obeys nan l (snd p) (linear_at nan f x).
Proof. exact doubles_left. Qed.
Print Assumptions C58_left_policy.

Theorem C58_right_policy : forall (pts : list (F64 * F64)), (forall p, In p pts -> double (fst p)) ->
  forall nan l r f, linear_new pts l r = Ok f ->
  forall x p, double x -> last_point pts p -> nltb (fst p) x = true -> l <> Natural -> obeys nan r (snd p) (linear_at nan f x).
Proof. exact doubles_right. Qed.
Print Assumptions C58_right_policy.

(** C58: between two points the value is within 2^-49 of the line, relative to the larger ordinate, and between ordinates
    of one sign it has that sign. *)
Theorem C58_between : forall (pts : list (F64 * F64)), (forall p, In p pts -> double (fst p)) ->
  forall nan l r f, linear_new pts l r = Ok f ->
  forall x p q M, modest x -> modest (fst p) -> modest (fst q) -> finite (snd p) -> finite (snd q) ->
  neighbours pts p q -> real (fst p) < real x < real (fst q) ->
  Rabs (real (snd p)) <= M -> Rabs (real (snd q)) <= M -> M <= bpow radix2 1000 ->
  exists y, linear_at nan f x = Ok y /\ finite y /\
    Rabs (real y - (real (snd p) + (real (snd q) - real (snd p)) * ((real x - real (fst p)) / (real (fst q) - real (fst p)))))
      <= bpow radix2 (-49) * M + bpow radix2 (-1073) /\
    (0 <= real (snd p) -> 0 <= real (snd q) -> 0 <= real y) /\
    (real (snd p) <= 0 -> real (snd q) <= 0 -> real y <= 0).
Proof. exact doubles_between. Qed.
Print Assumptions C58_between.

(** C58: an interpolator whose points are numbers panics when it is asked about NaN, and never otherwise. *)
Theorem C58_nan_panics : forall (pts : list (F64 * F64)), (forall p, In p pts -> number (fst p)) -> forall nan l r,
  (forall f x, linear_new pts l r = Ok f -> double x -> (exists m, linear_at nan f x = Panic m) <-> x = F_nan) /\
  (forall s x, spline_new pts l r = Ok s -> double x -> (exists m, spline_at nan s x = Panic m) <-> x = F_nan).
Proof. exact (fun pts D nan l r => conj (linear_panics pts D nan l r) (spline_panics pts D nan l r)). Qed.
Print Assumptions C58_nan_panics.

Example C58_dates_exist : exists (f : linear F64 Z), linear_new [(0, nofZ 3); (10, nofZ 4)]%Z Flat Flat = Ok f.
Proof. eexists. reflexivity. Qed.

(** C58: the same between dates.  Dates are accepted exactly when they increase. *)
Theorem C58_dates_accepted : forall (pts : list (Z * F64)), (forall p, In p pts -> i32 (fst p)) ->
  forall l r f, linear_new pts l r = Ok f <->
    pts <> [] /\ (forall p q, neighbours pts p q -> (fst p < fst q)%Z) /\ f = mkLinear l r pts.
Proof. exact dates_new. Qed.
Print Assumptions C58_dates_accepted.

Theorem C58_at_dates : forall (pts : list (Z * F64)), (forall p, In p pts -> i32 (fst p)) ->
  forall nan l r f, linear_new pts l r = Ok f -> forall x y, In (x, y) pts -> linear_at nan f x = Ok y.
Proof. exact dates_at. Qed.
Print Assumptions C58_at_dates.

Theorem C58_outside_dates : forall (pts : list (Z * F64)), (forall p, In p pts -> i32 (fst p)) ->
  forall nan l r f, linear_new pts l r = Ok f -> forall x p, i32 x -> l <> Natural ->
  (first_point pts p -> (x < fst p)%Z -> obeys nan l (snd p) (linear_at nan f x)) /\
  (last_point pts p -> (fst p < x)%Z -> obeys nan r (snd p) (linear_at nan f x)).
Proof.
  exact (fun pts D nan l r f N x p Dx L => conj (fun F K => dates_left pts D nan l r f N x p Dx F K L)
                                                (fun F K => dates_right pts D nan l r f N x p Dx F K L)).
Qed.
Print Assumptions C58_outside_dates.

Theorem C58_between_dates : forall (pts : list (Z * F64)), (forall p, In p pts -> i32 (fst p)) ->
  forall nan l r f, linear_new pts l r = Ok f ->
  forall x p q M, finite (snd p) -> finite (snd q) -> neighbours pts p q -> (fst p < x < fst q)%Z ->
  Rabs (real (snd p)) <= M -> Rabs (real (snd q)) <= M -> M <= bpow radix2 1000 ->
  exists y, linear_at nan f x = Ok y /\ finite y /\
    Rabs (real y - (real (snd p) + (real (snd q) - real (snd p)) * (IZR (x - fst p) / IZR (fst q - fst p))))
      <= bpow radix2 (-49) * M + bpow radix2 (-1073) /\
    (0 <= real (snd p) -> 0 <= real (snd q) -> 0 <= real y) /\
    (real (snd p) <= 0 -> real (snd q) <= 0 -> real y <= 0).
Proof. exact dates_between. Qed.
Print Assumptions C58_between_dates.

(** C58: cubic splines too are exact at their points and obey the policies, over doubles and over dates. *)
Theorem C58_spline_doubles : forall (pts : list (F64 * F64)), (forall p, In p pts -> double (fst p)) ->
  forall nan l r s, spline_new pts l r = Ok s ->
  (forall x x' y, double x' -> In (x, y) pts -> neqb x' x = true -> spline_at nan s x' = Ok y) /\
  (forall x p, double x -> l <> Natural ->
    (first_point pts p -> nltb x (fst p) = true -> obeys nan l (snd p) (spline_at nan s x)) /\
    (last_point pts p -> nltb (fst p) x = true -> obeys nan r (snd p) (spline_at nan s x))).
Proof. exact spline_doubles. Qed.
Print Assumptions C58_spline_doubles.

Theorem C58_spline_dates : forall (pts : list (Z * F64)), (forall p, In p pts -> i32 (fst p)) ->
  forall nan l r s, spline_new pts l r = Ok s ->
  (forall x y, In (x, y) pts -> spline_at nan s x = Ok y) /\
  (forall x p, i32 x -> l <> Natural ->
    (first_point pts p -> (x < fst p)%Z -> obeys nan l (snd p) (spline_at nan s x)) /\
    (last_point pts p -> (fst p < x)%Z -> obeys nan r (snd p) (spline_at nan s x))).
Proof. exact spline_dates. Qed.
Print Assumptions C58_spline_dates.

Example C58_splines_exist : exists (s : spline F64 F64) (s' : spline F64 Z),
  spline_new [(nofZ 0, nofZ 3); (nofZ 1, nofZ 4); (nofZ 3, nofZ 2)] Flat Flat = Ok s /\
  spline_new [(0, nofZ 3); (10, nofZ 4)]%Z Zero Throw = Ok s'.
Proof. eexists _, _. split; vm_compute; reflexivity. Qed.

(** C58: the segment function meets its ends exactly, as its documentation guarantees... *)
Theorem C58_segment_ends : forall y0 y1, finite y0 -> finite y1 ->
  (finite (lerp y0 y1 n0) /\ real (lerp y0 y1 n0) = real y0) /\ (finite (lerp y0 y1 n1) /\ real (lerp y0 y1 n1) = real y1).
Proof. exact lerp_ends. Qed.
Print Assumptions C58_segment_ends.

(** ... unless the other end is infinite. *)
Theorem C58_segment_ends_refuted : forall y0 : F64, lerp y0 (S754_infinity false) n0 = F_nan.
Proof. exact lerp_infinite. Qed.
Print Assumptions C58_segment_ends_refuted.

(** C58: a curve of threes is above 3 two days into a segment of ten: the value is not always between the ordinates. *)
Theorem C58_flat_curve_refuted : exists (f : linear F64 Z) y, linear_new [(0, nofZ 3); (10, nofZ 3)]%Z Flat Flat = Ok f /\
  (forall nan, linear_at nan f 2%Z = Ok y) /\ nltb (nofZ 3) y = true.
Proof. exact flat_above. Qed.
Print Assumptions C58_flat_curve_refuted.

(** C58: nor is the interpolant of increasing data always increasing. *)
Theorem C58_monotone_refuted : exists (f : linear F64 F64) x x' y y',
  linear_new [(nofZ 0, nofZ 3); (nofZ 1, nofZ 4)] Flat Flat = Ok f /\
  nltb x x' = true /\ (forall nan, linear_at nan f x = Ok y) /\ (forall nan, linear_at nan f x' = Ok y') /\ nltb y' y = true.
Proof. exact not_monotone. Qed.
Print Assumptions C58_monotone_refuted.

(** C59: the answer of the root finder is a zero, or there is an evaluated point within the tolerance at which the function
    has the other sign, if the function is never NaN. *)
Theorem C59_encloses : forall (f : F64 -> res F64) nan x1 x2 tol n b log,
  (forall x y, f x = Ok y -> number y) -> modest tol -> (forall x, In x log -> modest x) ->
  zbrent _ (logged f) nan x1 x2 tol n [] = (Ok b, log) ->
  exists fb, f b = Ok fb /\ In b log /\
    (place fb = 0 \/ exists c fc, f c = Ok fc /\ In c log /\ place fb * place fc <= 0 /\
      Rabs (real c - real b) <=
        (bpow radix2 (-50) * Rabs (real b) + Rabs (real tol)) * (1 + bpow radix2 (-49)) + bpow radix2 (-1072)).
Proof. exact zbrent_doubles. Qed.
Print Assumptions C59_encloses.

Example C59_example : exists b log, zbrent _ (logged (fun x => Ok (nsub (nmul x x) (nofZ 2)))) F_nan n1 (nofZ 2) (nlit 1 10) 20 [] = (Ok b, log) /\
  nltb n1 b = true.
Proof. eexists _, _. split; vm_compute; reflexivity. Qed.

(** C59: a function that is NaN at the second end of the bracket is "solved" there at once. *)
Theorem C59_nan_refuted : forall (f : F64 -> res F64) nan x1 x2 tol n fa,
  f x1 = Ok fa -> f x2 = Ok F_nan -> modest x2 -> modest tol -> 0 <= real tol ->
  zbrent _ (logged f) nan x1 x2 tol (S n) [] = (Ok x2, [x2; x1]).
Proof. exact zbrent_nan. Qed.
Print Assumptions C59_nan_refuted.

Example C59_nan_example : modest (nofZ 3) /\ 0 <= real (nofZ 3).
Proof. split; [now apply whole_modest|]. rewrite (proj2 (ofZ_exact 3 ltac:(cbn; lia))). lra. Qed.

(** C60: on doubles a count of business days is the weighted time, up to a few units in the last place of the number of days. *)
Theorem C60_count : forall c from ff to tf x, finite_weights c -> proper (exact c) -> (nesting c <= 1000)%nat ->
  finite ff -> 0 <= real ff <= 1 -> finite tf -> 0 <= real tf <= 1 -> (from <= to < from + 2 ^ 40)%Z ->
  count_business_days c from ff to tf = Ok x ->
  finite x /\ Rabs (real x - weighted_time (weight (exact c)) from (real ff) to (real tf))
    <= (3 + 9 * INR (nesting c)) * bpow radix2 (-53) * IZR (to - from + 1).
Proof. exact count_near. Qed.
Print Assumptions C60_count.

(** C60: with whole days and no holiday weight it is exact. *)
Theorem C60_whole_days : forall (c : calendar F64) from ff to tf x, plain c -> orderly c ->
  finite ff -> (real ff = 0 \/ real ff = 1) -> finite tf -> (real tf = 0 \/ real tf = 1) -> (to < from + 2 ^ 40)%Z ->
  count_business_days c from ff to tf = Ok x ->
  finite x /\ real x = weighted_time (weight_of (business_of c) 0) from (real ff) to (real tf).
Proof. exact count_wholes. Qed.
Print Assumptions C60_whole_days.

(** C60: a step by a volatility calendar ends, up to rounding, as near to the request as any day. *)
Theorem C60_step : forall name inner w from x fwd r, let c := VolCal name inner w in
  finite_weights c -> proper (exact c) -> (nesting c <= 1000)%nat -> finite x -> Rabs (real x) <= 1048576 ->
  nleb (nlit 1 1000000000000) w = true ->
  step_partial c from x fwd = Ok r ->
  exists k : nat, r = (from + dir_of fwd * Z.of_nat k)%Z /\
    forall j, Rabs (distance (weight (exact c)) (dir_of fwd) from k - Rabs (real x))
      <= Rabs (distance (weight (exact c)) (dir_of fwd) from j - Rabs (real x))
         + (20 + 36 * INR (nesting c)) * bpow radix2 (-53) * (INR k + 1 + Rabs (real x)).
Proof. exact step_nearly. Qed.
Print Assumptions C60_step.

(** The calendar of weekdays and a holiday weight of 0.3 meets these conditions. *)
Example C60_example : finite_weights three_tenths /\ proper (exact three_tenths) /\ nleb (nlit 1 1000000000000) (nlit 3 10 : F64) = true /\
  step_partial three_tenths 7%Z (nofZ 3) true = Ok 11%Z.
Proof. destruct three_tenths_proper as (A & B & C). split; [exact A|]. split; [exact B|]. split; [exact C|]. vm_compute. reflexivity. Qed.

(** C60: but the time between two moments may be a step that the same calendar cannot take: it panics. *)
Theorem C60_count_is_no_step_refuted : exists x, count_business_days three_tenths 11%Z n0 27%Z (nlit 6 10) = Ok x /\
  step_partial three_tenths 7%Z x true = Panic "steps_needed >= -1.0".
Proof. exact count_is_no_step. Qed.
Print Assumptions C60_count_is_no_step_refuted.

(** C60: that happens only if the step is within rounding of the distance of some day. *)
Theorem C60_panic_is_rounding : forall name inner w from x fwd, let c := VolCal name inner w in
  finite_weights c -> proper (exact c) -> (nesting c <= 1000)%nat -> finite x -> Rabs (real x) <= 1048576 ->
  nleb (nlit 1 1000000000000) w = true ->
  step_partial c from x fwd = Panic "steps_needed >= -1.0" ->
  exists k : nat, Rabs (distance (weight (exact c)) (dir_of fwd) from k - Rabs (real x))
    <= (20 + 36 * INR (nesting c)) * bpow radix2 (-53) * (INR k + 1 + Rabs (real x)).
Proof. exact step_panics_near. Qed.
Print Assumptions C60_panic_is_rounding.

(** C60: through the search for a smile of the same tenor, a forward variance panics: here on a surface with a flat smile of
    25%, based on a Thursday, from a Monday to 0.6 of a Wednesday; whatever exp and ln are. *)
Theorem C60_forward_variance_refuted : forall (TR : Trans F64), exists (f : linear F64 Z) v,
  linear_new [(0, nofZ 100); (1000, nofZ 100)]%Z Flat Flat = Ok f /\
  vbp_new F_nan [(mkDDF 100%Z n0, FlatSmile (nlit 1 4))] three_tenths (mkDDF 7%Z n0) f f NoCashDivs = Ok v /\
  forall strikes, forward_variances F_nan (VolByProbability v) (mkDDF 11%Z n0) (mkDDF 27%Z (nlit 6 10)) strikes = Panic "steps_needed >= -1.0".
Proof. exact forward_variance_panics. Qed.
Print Assumptions C60_forward_variance_refuted.

(** C60: and so does a flat surface of 25% moved with rolling expiries from that Thursday to a Monday, when asked for the
    volatility on the next day. *)
Theorem C60_rolling_refuted : forall (TR : Trans F64), exists s,
  time_modify RollingExpiryDynamics (FlatVolSurface (nlit 1 4) three_tenths (mkDDF 7%Z n0)) 25%Z = Ok s /\
  forall nan ks, volatilities nan s (mkDDF 26%Z n0) ks = Panic "steps_needed >= -1.0".
Proof. exact rolled_surface_panics. Qed.
Print Assumptions C60_rolling_refuted.

(** C61: rate times time on a curve of doubles, against the curve of the real numbers they stand for. *)
Theorem C61_rate_times_time : forall nan nan' (TR : Trans F64) c M d x, rates_within M c -> bpow radix2 (-900) <= M <= bpow radix2 900 -> (bumps c <= 1000)%nat -> i32 d ->
  rt nan c d = Ok x ->
  finite x /\ exists y, rt nan' (exact_curve c) d = Ok y /\ Rabs y <= M * Rabs (years (base_date c) d) /\
    Rabs (real x - y) <= (20 + 2 * INR (bumps c)) * bpow radix2 (-53) * M * Rabs (years (base_date c) d).
Proof. exact rt_near. Qed.
Print Assumptions C61_rate_times_time.

(** C61: discount factors are those of the curve of real numbers, up to the error eps of the exponential and the rounding of its
    argument. *)
Theorem C61_discount_factor : forall nan nan' eps (TR : Trans F64) c M d1 d2 x, accurate eps TR -> 0 <= eps ->
  rates_within M c -> bpow radix2 (-900) <= M <= bpow radix2 900 -> (bumps c <= 1000)%nat -> i32 d1 -> i32 d2 ->
  let years_away := Rabs (years (base_date c) d1) + Rabs (years (base_date c) d2) in M * years_away <= 600 ->
  df nan c d1 d2 = Ok x ->
  finite x /\ exists y, df nan' (exact_curve c) d1 d2 = Ok y /\
    Rabs (real x - y) <= ((1 + eps) * exp ((22 + 2 * INR (bumps c)) * bpow radix2 (-53) * M * years_away) - 1) * y.
Proof. exact df_near. Qed.
Print Assumptions C61_discount_factor.

(** C61: between a day and itself the factor is one exactly; it is positive where rate times time is of a sensible size. *)
Theorem C61_same : forall nan (TR : Trans F64) (c : curve F64) d, df nan c d d = Ok n1.
Proof. exact df_same_double. Qed.
Print Assumptions C61_same.
Theorem C61_positive : forall nan eps (TR : Trans F64) c d1 d2 x a1 a2, accurate eps TR -> 0 <= eps < 1 ->
  rt nan c d1 = Ok a1 -> rt nan c d2 = Ok a2 -> finite a1 -> finite a2 -> Rabs (real a1) <= 300 -> Rabs (real a2) <= 300 ->
  df nan c d1 d2 = Ok x -> finite x /\ 0 < real x.
Proof. exact df_positive_double. Qed.
Print Assumptions C61_positive.

(** C61: on every kind of curve, with every kind of bump, two factors multiply to the one over both periods, and forwards and
    backwards to one, up to rounding. *)
Theorem C61_compose : forall nan eps (TR : Trans F64) c d1 d2 d3 x y z a1 a2 a3, accurate eps TR -> 0 <= eps <= / 1000 ->
  rt nan c d1 = Ok a1 -> rt nan c d2 = Ok a2 -> rt nan c d3 = Ok a3 -> finite a1 -> finite a2 -> finite a3 ->
  Rabs (real a1) <= 300 -> Rabs (real a2) <= 300 -> Rabs (real a3) <= 300 ->
  df nan c d1 d2 = Ok x -> df nan c d2 d3 = Ok y -> df nan c d1 d3 = Ok z ->
  Rabs (real x * real y - real z) <= (4 * eps + bpow radix2 (-40)) * real z.
Proof. exact df_compose_double. Qed.
Print Assumptions C61_compose.
Theorem C61_inverse : forall nan eps (TR : Trans F64) c d1 d2 x y a1 a2, accurate eps TR -> 0 <= eps <= / 1000 ->
  rt nan c d1 = Ok a1 -> rt nan c d2 = Ok a2 -> finite a1 -> finite a2 -> Rabs (real a1) <= 300 -> Rabs (real a2) <= 300 ->
  df nan c d1 d2 = Ok x -> df nan c d2 d1 = Ok y -> Rabs (real x * real y - 1) <= 4 * eps + bpow radix2 (-40).
Proof. exact df_inverse_double. Qed.
Print Assumptions C61_inverse.

(** C61: there is such an exponential: the real one rounded to the nearest double has eps = 2^-52. *)
Theorem C61_exponential : accurate (2 * bpow radix2 (-53)) rounded_exp.
Proof. exact rounded_exp_accurate. Qed.
Print Assumptions C61_exponential.

(** The hypotheses hold of a curve of two points bumped by 2^-10. *)
Example C61_example : exists c a1 a2, bumped_curve = Ok c /\ rates_within 1 c /\ bumps c = 1%nat /\
  (forall TR : Trans F64, rt F_nan c 200%Z = Ok a1 /\ rt F_nan c 400%Z = Ok a2) /\ finite a1 /\ finite a2 /\
  Rabs (real a1) <= 300 /\ Rabs (real a2) <= 300 /\ real a1 <> real a2.
Proof. exact bumped_curve_fine. Qed.

(** C62: put-call parity of the Black formula, up to the asymmetry eps of the distribution function and rounding; no overflow and
    no NaN, and neither price is above the discounted forward or strike. *)
Theorem C62_parity : forall eps cdf (TR : Trans F64) df f k s, balanced eps cdf -> logs TR -> finite df -> finite f -> finite k -> finite s ->
  0 <= real df <= bpow radix2 400 -> 0 <= real f <= bpow radix2 400 -> 0 < real k <= bpow radix2 400 -> 0 < real s <= bpow radix2 400 ->
  let c := call_price cdf df f k s in let p := put_price cdf df f k s in
  finite c /\ finite p /\ real c <= rnd (real df * real f) /\ real p <= rnd (real df * real k) /\
  Rabs (real c - real p - real df * (real f - real k)) <=
    (7 * bpow radix2 (-53) + eps) * (real df * (real f + real k)) + 8 * bpow radix2 (-1075) * (real df + 1).
Proof. exact black_parity. Qed.
Print Assumptions C62_parity.

(** C62: with no variance left the price is the discounted intrinsic value, correctly rounded twice, unless strike and forward
    are equal... *)
Theorem C62_intrinsic : forall cdf (TR : Trans F64) df f k, logs TR -> cdf plus_infinity = n1 -> cdf minus_infinity = n0 ->
  finite df -> finite f -> finite k ->
  0 <= real df <= bpow radix2 400 -> 0 <= real f <= bpow radix2 400 -> 0 < real k <= bpow radix2 400 -> real f <> real k ->
  let c := call_price cdf df f k n0 in let p := put_price cdf df f k n0 in
  finite c /\ finite p /\ real c = rnd (real df * rnd (Rmax (real f - real k) 0)) /\ real p = rnd (real df * rnd (Rmax (real k - real f) 0)).
Proof. exact intrinsic. Qed.
Print Assumptions C62_intrinsic.

(** C62: ... when both prices are NaN, not the zero they are worth. *)
Theorem C62_at_the_money : forall cdf (TR : Trans F64) df f k, logs TR -> cdf F_nan = F_nan -> finite f -> finite k ->
  0 < real k -> real f = real k -> call_price cdf df f k n0 = F_nan /\ put_price cdf df f k n0 = F_nan.
Proof. exact at_the_money. Qed.
Print Assumptions C62_at_the_money.

(** C62: so an option on a share, struck where the share stands and priced on the day it expires, has the price NaN: the market
    holds a spot and a forward of 100, a flat volatility of one fifth and a curve of zero rates. *)
Theorem C62_expiry_day_refuted :
  let market := mkContext 0%Z (fun _ _ => Ok (ZeroRateCurve 0%Z)) (fun _ => Ok (nofZ 100)) (fun _ _ => Ok (DriftlessForward (nofZ 100)))
    (fun _ _ _ => Ok (FlatVolSurface (nlit 1 5) EveryDay (mkDDF 0%Z n0))) in
  forall (TR : Trans F64) nan cdf pc, logs TR -> cdf F_nan = F_nan -> exists v,
    vanilla_new "OPT" "OPT-CR" (IEquity "BP" "BP-CR" (mkCurrency "USD" NullRule) NullRule) NullRule (mkDT 365%Z Open_) pc CashSettled = Ok v /\
    price nan cdf market (ISpotEuropean v (nofZ 100)) (mkDT 365%Z Open_) = Ok F_nan.
Proof. exact expiry_day. Qed.
Print Assumptions C62_expiry_day_refuted.

(** C62: fixing. An option is exercised exactly when that is worth something, whatever the rounding; the cash is the intrinsic
    value rounded once, and physical settlement exchanges the strike exactly. *)
Theorem C62_fixing : forall (t : fixing_table F64) v k x, get_optional t (instrument_id (van_underlying v)) (van_expiry v) = Some x -> modest x -> modest k ->
  exists d, fix_instrument t (ISpotEuropean v k) = Ok (Some d) /\ (~ in_the_money (van_put_or_call v) x k -> d = []) /\
    (in_the_money (van_put_or_call v) x k -> match van_cash_or_physical v, van_put_or_call v with
      | CashSettled, pc => exists pay e, d = [(pay, payment_of v)] /\ finite pay /\ Rabs e <= bpow radix2 (-53) /\
          real pay = match pc with Call => real x - real k | Put => real k - real x end * (1 + e)
      | PhysicalSettled, Call => exists w, d = [(w, payment_of v); (n1, van_underlying v)] /\ finite w /\ real w = - real k
      | PhysicalSettled, Put => exists w, d = [(w, payment_of v); (nopp n1, van_underlying v)] /\ finite w /\ real w = real k
      end).
Proof. exact fix_double. Qed.
Print Assumptions C62_fixing.

(** C62: there are such a logarithm and such a distribution function. *)
Theorem C62_assumptions_hold : logs rounded_ln /\ accurate (2 * bpow radix2 (-53)) rounded_ln /\
  exists cdf, balanced 0 cdf /\ cdf F_nan = F_nan /\ cdf plus_infinity = n1 /\ cdf minus_infinity = n0.
Proof. exact assumptions_hold. Qed.
Print Assumptions C62_assumptions_hold.

(** The hypotheses on the numbers hold of an ordinary option. *)
Example C62_example : forall x, In x [nlit 9 10; nofZ 100; nofZ 120; nlit 1 5] -> finite x /\ 0 < real x <= bpow radix2 400.
Proof. exact ordinary_numbers. Qed.
