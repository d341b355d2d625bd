(** What goes into the price of a European option besides its strike and its variance. *)
From Coq Require Import ZArith Reals.
From Verif Require Import Prelude Num M_Dates M_Calendar M_Curves M_Forward M_Vol M_Instruments.
Open Scope R_scope.

(** For option [v] valued at [d] in a market, with vol surface [vol]: the discount factor [D] from its payment to settlement, the
    forward [F], the displacement [disp], and the time [start] from which variance counts. *)
Definition option_parts (nan : R) (N : R -> R) (c : pricing_context R) (v : vanilla R) (vol : vol_surface R) (d : datetime)
    (D F disp : R) (start : ddf R) : Prop :=
  exists yc y st r now, let u := van_underlying v in let expiry := dt_date (van_expiry v) in
    ctx_vol_surface c u expiry (ctx_forward_curve c u expiry) = Ok vol /\
    price nan N c u (van_expiry v) = Ok F /\ displacement nan vol expiry = Ok disp /\
    ctx_yield_curve c (credit_id u) (van_pay_date v) = Ok yc /\ rt nan yc (van_pay_date v) = Ok y /\
    apply_rule (van_settlement v) (dt_date d) = Ok st /\ rt nan yc st = Ok r /\ D = exp (- y) * exp r /\
    time_to_day_fraction u d = Ok now /\ start = if ddf_leb (mkDDF from_nil 0) now then now else mkDDF from_nil 0.
