(** Specification vocabulary for volatility surfaces on doubles. *)
From Coq Require Import ZArith Reals.
From Coq.Floats Require Import SpecFloat.
From Flocq Require Import Core.
From Verif Require Import Num M_Calendar S_Double.

(** A point in time whose day fraction is the real number that the double stands for. *)
Definition exact_time (d : ddf F64) : ddf R := mkDDF (ddf_date d) (real (ddf_frac d)).

(** A point in time as the constructor accepts it. *)
Definition in_day (d : ddf F64) : Prop := finite (ddf_frac d) /\ (0 <= real (ddf_frac d) < 1)%R.

(** Every day counts, in whatever way holidays would be weighted. *)
Fixpoint every_day {T} (c : calendar T) : Prop :=
  match c with
  | EveryDay => True
  | VolCal _ inner _ => every_day inner
  | _ => False
  end.

(** The rounding allowed in a variance from [base] to [d]: 2^-53 of the squared volatility for each day, as many times as the
    calendar has levels, and a little for numbers near the smallest. *)
Definition allowance (cal : calendar F64) (base d : ddf F64) (vol : F64) : R :=
  ((1 + INR (nesting cal)) * bpow radix2 (-53) * IZR (ddf_date d - ddf_date base + 1) * real vol ^ 2 + bpow radix2 (-1060))%R.
