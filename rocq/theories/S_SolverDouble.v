(** The volatilities a search for an implied volatility tries. *)
From Coq Require Import ZArith List String.
From Verif Require Import Prelude Num M_Brent M_Dates M_Vol M_Instruments M_Deps M_Risk M_Reports M_Solver S_Math S_Reports S_Solver.
Import ListNotations.

Definition vols_tried {P} (nan : F64) (ops : pricer_ops F64 P) (s : implied_vol F64) (target lo hi : F64) (p : P) (id : string) : list F64 :=
  snd (zbrent _ (logged (excess ops id p target)) nan lo hi (iv_tolerance s) (iv_max_iter s) []).
