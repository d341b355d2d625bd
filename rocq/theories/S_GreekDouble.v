(** Specification vocabulary for greeks on doubles. *)
From Coq Require Import ZArith Reals.
From Flocq Require Import Core.
From Verif Require Import Num S_Double.
Open Scope R_scope.

(** A spot and a relative bump of it with which nothing overflows or underflows. *)
Definition ordinary_bump (h s : F64) : Prop :=
  finite h /\ bpow radix2 (-100) <= Rabs (real h) <= / 2 /\ finite s /\ bpow radix2 (-100) <= Rabs (real s) <= bpow radix2 100.
Definition ordinary_price (x : F64) : Prop := finite x /\ Rabs (real x) <= bpow radix2 500.
