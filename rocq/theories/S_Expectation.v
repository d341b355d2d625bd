(** Specification vocabulary for expected values over normal draws. *)
From Coq Require Import List Reals.
From Verif Require Import Prelude M_Instruments.
Import ListNotations.
Open Scope R_scope.

(** Limits at plus and minus infinity. *)
Definition tends_up (g : R -> R) (l : R) : Prop := forall eps, 0 < eps -> exists M, forall x, M <= x -> Rabs (g x - l) < eps.
Definition tends_down (g : R -> R) (l : R) : Prop := forall eps, 0 < eps -> exists M, forall x, x <= M -> Rabs (g x - l) < eps.

(** The mean of [g x] when [x] has the cumulative distribution function [N]: the integral of [g] times the density over the line,
    that is how much a function of that slope rises from one end to the other. *)
Definition mean_of (N : R -> R) (g : R -> R) (v : R) : Prop := exists N' G lo hi,
  (forall x, derivable_pt_lim N x (N' x)) /\ (forall x, derivable_pt_lim G x (g x * N' x)) /\
  tends_down G lo /\ tends_up G hi /\ v = hi - lo.

(** The expected value of a function of [n] independent draws: the mean over the first of the expected value over the others. *)
Inductive expected (N : R -> R) : nat -> (list R -> R) -> R -> Prop :=
| ex_none f v : f [] = v -> expected N O f v
| ex_draw n f g v : (forall x, expected N n (fun rest => f (x :: rest)) (g x)) -> mean_of N g v -> expected N (S n) f v.

(** Draws dealt to paths one after the other, so many steps to each. *)
Definition dealt (steps : nat) (draws : list R) (path step : nat) : R := nth (path * steps + step) draws 0.

(** The expected price of what is made from [n] draws, and the expected square of its distance from that. *)
Section Prices.
  Context {P : Type}.
  Variables (N : R -> R) (price_of : P -> res R) (make : list R -> res P) (n : nat).
  Definition prices_are (p : list R -> R) : Prop := forall draws, List.length draws = n -> exists x, make draws = Ok x /\ price_of x = Ok (p draws).
  Definition expected_price (v : R) : Prop := exists p, prices_are p /\ expected N n p v.
  Definition expected_error (v q : R) : Prop := exists p, prices_are p /\ expected N n p v /\ expected N n (fun l => (p l - v) * (p l - v)) q.
End Prices.

(** What an option pays when it is struck at [strike] and the underlying ends at [spot]; Black's undiscounted price of that for a
    lognormal underlying with that forward and that root of the variance of its logarithm; and Bachelier's for a normal one with
    that standard deviation, [n] being the density of [N]. *)
Definition ends (pc : put_or_call) (spot strike : R) : R := match pc with Call => Rmax (spot - strike) 0 | Put => Rmax (strike - spot) 0 end.
Definition blacks_price (N : R -> R) (pc : put_or_call) (forward strike dev : R) : R :=
  let up := (ln (forward / strike) + dev * dev / 2) / dev in
  let down := (ln (forward / strike) - dev * dev / 2) / dev in
  match pc with Call => forward * N up - strike * N down | Put => strike * N (- down) - forward * N (- up) end.
Definition bacheliers_price (N n : R -> R) (pc : put_or_call) (forward strike dev : R) : R :=
  let x := (forward - strike) / dev in
  match pc with Call => (forward - strike) * N x + dev * n x | Put => (strike - forward) * N (- x) + dev * n x end.
