(** Specification vocabulary for IEEE-754 doubles: which bit patterns exist, the real number each stands for, and rounding. *)
From Coq Require Import ZArith Reals.
From Coq.Floats Require Import SpecFloat.
From Flocq Require Import Core BinarySingleNaN.
From Verif Require Import Num M_Calendar.   (* only for the type [calendar] *)

(** A double is a spec_float with a normalised mantissa in the range of the format: precision 53, largest exponent 1024. *)
Definition double (x : F64) : Prop := valid_binary 53 1024 x = true.
Definition finite (x : F64) : Prop := double x /\ is_finite_SF x = true.

(** The real number a finite double stands for. *)
Definition real (x : F64) : R := SF2R radix2 x.

(** Rounding to the nearest double, ties to even, subnormal numbers included; overflow is apart. *)
Definition rnd (x : R) : R := round radix2 (FLT_exp (-1074) 53) ZnearestE x.
Definition in_range (x : R) : Prop := (Rabs (rnd x) < bpow radix2 1024)%R.

(** A double that is not NaN, and its place in the order of the doubles: the infinities are beyond all the finite ones. *)
Definition number (x : F64) : Prop := double x /\ x <> F_nan.
Definition place (x : F64) : R :=
  match x with
  | S754_infinity false => bpow radix2 1024
  | S754_infinity true => (- bpow radix2 1024)%R
  | _ => real x
  end.

(** A finite double of a size at which nothing overflows. *)
Definition modest (x : F64) : Prop := finite x /\ (Rabs (real x) <= bpow radix2 1000)%R.

(** A 32-bit number, such as a date. *)
Definition i32 (z : Z) : Prop := (- 2147483648 <= z < 2147483648)%Z.

(** The calendar whose weights are the real numbers that the doubles stand for. *)
Fixpoint exact (c : calendar F64) : calendar R :=
  match c with
  | EveryDay => EveryDay
  | Weekday => Weekday
  | Holidays name hols => Holidays name hols
  | VolCal name inner w => VolCal name (exact inner) (real w)
  end.

(** Weights are finite numbers; how deep volatility calendars are nested. *)
Fixpoint finite_weights (c : calendar F64) : Prop :=
  match c with
  | VolCal _ inner w => finite w /\ finite_weights inner
  | _ => True
  end.
Fixpoint nesting (c : calendar F64) : nat :=
  match c with
  | VolCal _ inner _ => S (nesting inner)
  | _ => O
  end.
