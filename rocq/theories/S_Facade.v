(** Specification: what a pricer factory must be to be written and read. *)
From Coq Require Import ZArith.
From Verif Require Import Prelude Num M_MonteCarlo M_Facade.

(** Finite numbers, and counts that fit a [usize]. *)
Definition storable_factory {T} (finite : T -> bool) (f : pricer_factory T) : Prop :=
  match f with
  | SelfPricerFactory => True
  | MonteCarloPricerFactory c d =>
      (0 <= c <= 18446744073709551615)%Z /\ finite (df_path_substep d) = true /\
      (Z.of_nat (df_n_paths d) <= 18446744073709551615)%Z
  end.
