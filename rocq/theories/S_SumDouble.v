(** Specification vocabulary for sums of products on doubles. *)
From Coq Require Import ZArith List Reals.
From Flocq Require Import Core.
From Verif Require Import Num M_Instruments S_Double.
Import ListNotations.
Open Scope R_scope.

(** The exact sum of the products of some pairs of doubles, and the sum of the sizes of the products. *)
Definition exact_sum (pairs : list (F64 * F64)) : R := fold_right Rplus 0 (map (fun q => real (fst q) * real (snd q)) pairs).
Definition gross_sum (pairs : list (F64 * F64)) : R := fold_right Rplus 0 (map (fun q => Rabs (real (fst q) * real (snd q))) pairs).

(** Finite numbers, not very many of them, and far from overflow. *)
Definition addable (pairs : list (F64 * F64)) : Prop :=
  Forall (fun q => finite (fst q) /\ finite (snd q)) pairs /\ (Z.of_nat (length pairs) <= 2 ^ 50)%Z /\ gross_sum pairs <= bpow radix2 1000.

(** What rounding may add to or take from the sum: one part in 2^52 of the gross sum for every term, and one more, and for
    every term the smallest positive double. *)
Definition sum_error (pairs : list (F64 * F64)) : R :=
  (INR (length pairs) + 1) * bpow radix2 (-52) * gross_sum pairs + INR (length pairs) * bpow radix2 (-1074).

(** What an option pays if the share is worth [s]. *)
Definition intrinsic_of (pc : put_or_call) (s k : R) : R := match pc with Call => Rmax (s - k) 0 | Put => Rmax (k - s) 0 end.

(** A finite number of at most [2^k]. *)
Definition of_size (k : Z) (x : F64) : Prop := finite x /\ Rabs (real x) <= bpow radix2 k.
