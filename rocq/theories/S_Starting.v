(** Specification vocabulary for an option whose strike is a fraction of the spot on a later date. *)
From Coq Require Import ZArith List String Bool Reals.
From Verif Require Import Prelude Num M_Dates M_Calendar M_Curves M_Forward M_Vol M_Instruments M_Risk.
Import ListNotations.
Open Scope R_scope.

(** Dividends that are fractions of the spot, if any. *)
Definition no_cash (l : list (dividend R)) : Prop := forall d, In d l -> cash d = 0.

(** The forwards of a share to a first date and to the horizon, were its spot x. *)
Definition forwards_if (nan : R) (md : market_data R) (u : instrument R) (horizon : date) (x : R) (first : date) (F0 F : R) : Prop :=
  exists rate borrow divs f, get (credit_id u) (md_yields md) = Some rate /\ get (instrument_id u) (md_borrows md) = Some borrow /\
    get (instrument_id u) (md_divs md) = Some divs /\
    equity_forward_new nan (md_spot_date md) x (settlement u) rate borrow divs horizon = Ok f /\
    forward_at nan f first = Ok F0 /\ forward_at nan f horizon = Ok F.

(** The discount factor from payment to settlement, and the variance from the later of now and the time [x0] the strike is set, when
    the forward to that time is F0 and the strike the fraction [fr] of it. *)
Definition start_inputs (nan : R) (md : market_data R) (v : vanilla R) (fr : R) (x0 : ddf R) (F0 D q : R) : Prop :=
  exists yc vol pay st r now, let u := van_underlying v in
    get (credit_id u) (md_yields md) = Some yc /\ rt nan yc (van_pay_date v) = Ok pay /\
    apply_rule (van_settlement v) (md_spot_date md) = Ok st /\ rt nan yc st = Ok r /\ D = exp (- pay) * exp r /\
    md_vol_surface nan md u (dt_date (van_expiry v)) (Err "") = Ok vol /\
    time_to_day_fraction u (mkDT (md_spot_date md) Open_) = Ok now /\
    forward_variance nan vol (if ddf_leb x0 now then now else x0) (van_expiry_time v) (F0 * fr) = Ok q.
