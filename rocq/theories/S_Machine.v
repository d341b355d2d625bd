(** What is known of 32-bit arithmetic: a result that fits is right, and any other is off by a multiple of 2^32 or stops the program. *)
From Coq Require Import ZArith.
From Verif Require Import Prelude.
Open Scope Z_scope.

Definition fits (z : Z) : Prop := - 2147483648 <= z <= 2147483647.

Definition machine (norm : Z -> res Z) : Prop :=
  (forall z, fits z -> norm z = Ok z) /\
  (forall z r, norm z = Ok r -> fits r /\ exists k, r = z + k * 4294967296) /\
  (forall z m, norm z <> Err m).
