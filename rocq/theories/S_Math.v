(** Specification vocabulary for root finding and for the normal distribution. *)
From Coq Require Import List Reals String.
From Verif Require Import Prelude.
Import ListNotations.
Open Scope list_scope.
Open Scope R_scope.

(** Logging the points at which a function is evaluated. *)
Definition logged {T} (f : T -> res T) (x : T) (log : list T) : res T * list T := (f x, x :: log).

(** f(b) = 0, or f changes sign between b and a point c within the tolerance; both points were evaluated. *)
Definition enclosed (f : R -> res R) (tol b : R) (log : list R) : Prop :=
  exists fb, f b = Ok fb /\ In b log /\
    (fb = 0 \/ exists c fc, f c = Ok fc /\ In c log /\ fb * fc <= 0 /\
                 Rabs (c - b) <= 4 * / 4503599627370496 * Rabs b + tol).

(** The outcome, whatever the arithmetic: at most n + 2 evaluations, and an outcome other than a root is the failure of
    [f] at the last of them, or one of two errors. *)
Definition outcome_of {T} (f : T -> res T) (r : res T) (log : list T) : Prop :=
  match r with
  | Ok b => forall x, In x log -> exists y, f x = Ok y
  | other => (exists x rest, log = x :: rest /\ f x = other /\ forall z, In z rest -> exists y, f z = Ok y)
             \/ other = Err "Maximum number of iterations exceeded in zbrent"%string
             \/ other = Err "Root must be bracketed in zbrent"%string
  end.

Definition strictly_between (x y z : R) : Prop := (x < z < y) \/ (y < z < x).

(** The cumulative distribution function of the standard normal distribution: it has a density proportional to
    exp(-x^2/2), vanishes at minus infinity and is symmetric. *)
Record normal_cdf (N : R -> R) : Prop := {
  nc_density : exists k, 0 < k /\ forall x, derivable_pt_lim N x (k * exp (- (x * x / 2)));
  nc_tail : forall eps, 0 < eps -> exists M, forall x, x <= M -> Rabs (N x) < eps;
  nc_symmetric : forall x, N (- x) = 1 - N x
}.
