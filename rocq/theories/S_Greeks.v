(** Specification vocabulary for the greeks of a European option. *)
From Coq Require Import ZArith List String Bool Reals.
From Verif Require Import Prelude Num M_Dates M_Calendar M_Curves M_Forward M_Vol M_Black76 M_Instruments M_Risk.
Import ListNotations.
Open Scope R_scope.

(** The forward of a share to a date, were its spot x. *)
Definition forward_if (nan : R) (md : market_data R) (u : instrument R) (d : date) (x F : R) : Prop :=
  exists rate borrow divs f, get (credit_id u) (md_yields md) = Some rate /\ get (instrument_id u) (md_borrows md) = Some borrow /\
    get (instrument_id u) (md_divs md) = Some divs /\
    equity_forward_new nan (md_spot_date md) x (settlement u) rate borrow divs d = Ok f /\ forward_at nan f d = Ok F.

(** The other numbers that go into the price of an option today, none of which has to do with the spot: the discount factor from
    its payment to settlement, the displacement of its vol surface, and its standard deviation. *)
Definition other_inputs (nan : R) (md : market_data R) (v : vanilla R) (k D disp sd : R) : Prop :=
  exists yc vol pay st r now q, let u := van_underlying v in let today := mkDT (md_spot_date md) Open_ in
    get (credit_id u) (md_yields md) = Some yc /\ rt nan yc (van_pay_date v) = Ok pay /\
    apply_rule (van_settlement v) (md_spot_date md) = Ok st /\ rt nan yc st = Ok r /\ D = exp (- pay) * exp r /\
    md_vol_surface nan md u (dt_date (van_expiry v)) (Err "") = Ok vol /\ displacement nan vol (dt_date (van_expiry v)) = Ok disp /\
    time_to_day_fraction u today = Ok now /\
    forward_variance nan vol (if ddf_leb (mkDDF from_nil 0) now then now else mkDDF from_nil 0) (van_expiry_time v) k = Ok q /\ sd = sqrt q.

(** The first argument of the distribution function in Black's formula. *)
Definition d_one (f k sd : R) : R := ln (f / k) / sd + sd / 2.

(** How much of the forward the option is worth: N for a call, N - 1 for a put. *)
Definition hedge (N : R -> R) (pc : put_or_call) (x : R) : R := match pc with Call => N x | Put => N x - 1 end.

(** The sensitivity of Black's formula to the volatility at volatility z, for a discount factor D, a forward f, a strike k, a time
    to expiry whose root is r, and the density phi of the normal distribution. *)
Definition vega_at (phi : R -> R) (D f k r z : R) : R := D * f * r * phi (d_one f k (z * r)).

(** The same data on another date. *)
Definition on_date (md : market_data R) (d : date) : market_data R :=
  mkMarket d (md_spots md) (md_yields md) (md_borrows md) (md_divs md) (md_vols md).
