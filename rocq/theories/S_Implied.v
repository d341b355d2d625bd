(** Specification vocabulary for the implied volatility of a European option. *)
From Coq Require Import ZArith List String Bool Reals.
From Verif Require Import Prelude Num M_Dates M_Calendar M_Curves M_Vol M_Instruments M_Risk M_Reports S_Greeks.
Import ListNotations.
Open Scope R_scope.

(** Black's formula, for a discount factor D, a forward f, a strike k and a standard deviation sd. *)
Definition black_formula (N : R -> R) (pc : put_or_call) (D f k sd : R) : R :=
  let d := d_one f k sd in
  match pc with Call => D * (f * N d - k * N (d - sd)) | Put => D * (k * N (sd - d) - f * N (- d)) end.

(** The discount factor from the payment of an option to settlement today. *)
Definition payment_discount (nan : R) (md : market_data R) (v : vanilla R) (D : R) : Prop :=
  exists yc pay st r, get (credit_id (van_underlying v)) (md_yields md) = Some yc /\ rt nan yc (van_pay_date v) = Ok pay /\
    apply_rule (van_settlement v) (md_spot_date md) = Ok st /\ rt nan yc st = Ok r /\ D = exp (- pay) * exp r.

(** The least an option can be worth, and the most, whatever the volatility. *)
Definition floor_value (pc : put_or_call) (D f k : R) : R := D * match pc with Call => Rmax (f - k) 0 | Put => Rmax (k - f) 0 end.
Definition cap_value (pc : put_or_call) (D f k : R) : R := D * match pc with Call => f | Put => k end.

(** A holding w of a European option on a share, alone in a pricer, before its expiry, with a vol surface that starts on the spot date:
    F is its forward, D its discount factor and t the time to expiry, as the calendar of the surface has it. *)
Record option_held (nan w : R) (v : vanilla R) (k : R) (id : string) (md : market_data R) (sp : self_pricer R) (t F D : R) : Prop := {
  oh_share : exists credit cur st, van_underlying v = IEquity id credit cur st;
  oh_pricer : self_pricer_new nan [(w, ISpotEuropean v k)] md = Ok sp;
  oh_live : (0 <= md_spot_date md < dt_date (van_expiry v))%Z;
  oh_spot : exists s, get id (md_spots md) = Some s /\ forward_if nan md (van_underlying v) (dt_date (van_expiry v)) s F;
  oh_vols : exists surface, get id (md_vols md) = Some surface /\
    ddf_date (vs_base surface) = md_spot_date md /\ 0 <= ddf_frac (vs_base surface) /\
    year_fraction (vs_calendar surface) (vs_base surface) (van_expiry_time v) = Ok t;
  oh_discount : payment_discount nan md v D;
  oh_time : 0 < t;
  oh_forward : 0 < F;
  oh_strike : 0 < k
}.
