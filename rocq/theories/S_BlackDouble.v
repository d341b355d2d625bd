(** Specification vocabulary for option prices on doubles. *)
From Coq Require Import ZArith Reals.
From Coq.Floats Require Import SpecFloat.
From Flocq Require Import Core.
From Verif Require Import Num M_Dates M_Curves M_Instruments S_Data S_Double S_CurveDouble.
Open Scope R_scope.

(** A distribution function with values between 0 and 1 that is symmetric up to eps, NaN apart. *)
Definition balanced (eps : R) (cdf : F64 -> F64) : Prop := forall x, number x ->
  finite (cdf x) /\ 0 <= real (cdf x) <= 1 /\ Rabs (real (cdf x) + real (cdf (nopp x)) - 1) <= eps.

(** A logarithm that is no NaN where numbers have a logarithm, infinities included, and has the right sign. *)
Definition logs (TR : Trans F64) : Prop := forall x, number x -> 0 <= place x ->
  number (nln x) /\ (1 < place x -> 0 < place (nln x)) /\ (place x < 1 -> place (nln x) < 0) /\ (place x = 1 -> place (nln x) = 0).

(** The exercise of an option struck at k is worth something when its underlying fixes at x. *)
Definition in_the_money (pc : put_or_call) (x k : F64) : Prop := match pc with Call => real k < real x | Put => real x < real k end.

(** A logarithm and a distribution function that are right up to eps. *)
Definition close_ln (eps : R) (TR : Trans F64) : Prop := forall x, finite x -> 0 < real x ->
  finite (nln x) /\ Rabs (real (nln x) - ln (real x)) <= eps * Rabs (ln (real x)).
Definition close_cdf (eps : R) (N : R -> R) (cdf : F64 -> F64) : Prop := forall x, finite x ->
  finite (cdf x) /\ 0 <= real (cdf x) <= 1 /\ Rabs (real (cdf x) - N (real x)) <= eps.

(** The error allowed in an option price, as a fraction of the discounted forward and strike: [eps] is the error of the functions
    of the library, [ratio] is forward over strike, [dev] is the square root of the variance, [variance_error] is the error of the
    variance, and [rates] is how much rate times time has been added up. *)
Definition pricing_error (eps rates ratio dev variance_error : R) : R :=
  let unit := bpow radix2 (-53) in
  5 * eps + (10 + rates) * unit + 2 * ((eps + 4 * unit) * Rabs (ln ratio) + 5 * unit) / dev + 5 * unit * dev + 2 * variance_error / dev.

(** A curve of rates within a half a year, from no more than ten bumps, and a date within forty years of where a curve starts. *)
Definition ordinary_curve (c : curve F64) : Prop := rates_within (/ 2) c /\ (bumps c <= 10)%nat.
Definition near_date (c : curve F64) (d : date) : Prop := i32 d /\ Rabs (years (base_date c) d) <= 40.
