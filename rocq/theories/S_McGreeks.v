(** Specification vocabulary for the greeks that Monte Carlo reports for a European option. *)
From Coq Require Import ZArith List String Bool Reals.
From Verif Require Import Prelude Num M_Dates M_Calendar M_Curves M_Forward M_Vol M_Instruments M_Deps M_Risk M_Reports M_MonteCarlo
  S_MonteCarlo S_Greeks.
Import ListNotations.
Open Scope R_scope.

(** A report of delta and gamma has this entry. *)
Definition delta_gamma {P} (nan : R) (ops : pricer_ops R P) (h : R) (id : string) (p : P) (delta gamma : R) : Prop :=
  exists m, calculate nan ops p [DeltaGammaGenerator h] = Ok [DeltaGammaReport h m] /\ get id m = Some (delta, gamma).

(** What the market says of the expiry of an option, were the spot x: the forward, and the variance there and the displacement of
    the vol surface. *)
Definition mark_if (nan : R) (md : market_data R) (v : vanilla R) (x : R) (m : mark) : Prop :=
  exists surface, let u := van_underlying v in let expiry := dt_date (van_expiry v) in
    forward_if nan md u expiry x (mk_forward m) /\ md_vol_surface nan md u expiry (Err "") = Ok surface /\
    variance nan surface (van_expiry_time v) (mk_forward m) = Ok (mk_variance m) /\ displacement nan surface expiry = Ok (mk_displacement m).

(** The variance is the same at every strike. *)
Definition no_smile (nan : R) (md : market_data R) (v : vanilla R) : Prop :=
  exists surface V, md_vol_surface nan md (van_underlying v) (dt_date (van_expiry v)) (Err "") = Ok surface /\
    forall x, variance nan surface (van_expiry_time v) x = Ok V.

(** What a unit paid when the option pays is worth. *)
Definition payment_worth (nan : R) (cdf : R -> R) (md : market_data R) (v : vanilla R) (value : R) : Prop :=
  price nan cdf (md_context nan md) (expiry_flow v) (mkDT (md_spot_date md) Open_) = Ok value.

(** The mean of what an option pays on so many paths of so many steps. *)
Definition mean_payoff (i : instrument R) (m : mark) (n paths : nat) (draws : nat -> nat -> R) : R :=
  mean (map (fun j => pays i (path_of [m] [n] (map (draws j) (seq 0 n)))) (seq 0 paths)).

(** What the excess of the forward over the displacement has been multiplied by at the end of each path. *)
Definition growths (m : mark) (n paths : nat) (draws : nat -> nat -> R) : list R :=
  map (fun j => grown (map (draws j) (seq 0 n)) (deviations [m] [n]) n) (seq 0 paths).
