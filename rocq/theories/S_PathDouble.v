(** Specification vocabulary for Monte-Carlo paths on doubles. *)
From Coq Require Import ZArith List String Reals.
From Flocq Require Import Core.
From Verif Require Import Prelude Num M_Dates M_Calendar M_Forward M_Vol S_Double S_MonteCarlo S_SumDouble.
Import ListNotations.
Open Scope R_scope.

(** What the market says of each observation, on doubles: the forward, the variance there and the displacement. *)
Definition quoted (nan : F64) {TR : Trans F64} (curve : forward F64) (surface : vol_surface F64) (observations : list (ddf F64)) (quotes : list (F64 * F64 * F64)) : Prop :=
  Forall2 (fun o q => forward_at nan curve (ddf_date o) = Ok (fst (fst q)) /\ variance nan surface o (fst (fst q)) = Ok (snd (fst q)) /\
             displacement nan surface (ddf_date o) = Ok (snd q)) observations quotes.

(** The same numbers, exactly. *)
Definition exact_mark (q : F64 * F64 * F64) : mark := mkMark (real (fst (fst q))) (real (snd (fst q))) (real (snd q)).

(** How far the draws could have taken the paths, had they all been of one sign. *)
Definition sway (draws devs : list R) (n : nat) : R := grown (map Rabs draws) devs n.

(** Numbers with which nothing overflows, and variances that grow not at all or not minutely. *)
Definition ordinary_quotes (quotes : list (F64 * F64 * F64)) : Prop :=
  Forall (fun q => of_size 400 (fst (fst q)) /\ of_size 400 (snd (fst q)) /\ of_size 400 (snd q)) quotes /\
  Forall (fun g => g = 0 \/ bpow radix2 (-900) <= g) (gained 0 (map exact_mark quotes)).

(** What rounding may add to or take from a path by its [j]th observation. *)
Definition path_error (quotes : list (F64 * F64 * F64)) (steps : list nat) (draws : list F64) (j : nat) : R :=
  let marks := map exact_mark quotes in let m := nth j marks (mkMark 0 0 0) in let n := list_sum (firstn (S j) steps) in
  9 * (INR n + 2) * bpow radix2 (-52) * (Rabs (mk_forward m - mk_displacement m) * sway (map real draws) (deviations marks steps) n) +
  bpow radix2 (-53) * Rabs (mk_displacement m) + bpow radix2 (-1074).

(** A row of a path matrix, as walked on doubles from a row of draws, is finite and within that error of the exact path at
    every observation, if the draws are finite and could not have taken it out of range. *)
Definition rows_close (quotes : list (F64 * F64 * F64)) (steps : list nat) (draws row : list F64) : Prop :=
  let marks := map exact_mark quotes in
  Forall finite draws -> sway (map real draws) (deviations marks steps) (list_sum steps) <= bpow radix2 500 ->
  List.length row = List.length quotes /\ forall j, (j < List.length quotes)%nat -> exists x, nth_error row j = Some x /\ finite x /\
    Rabs (real x - nth j (path_of marks steps (map real draws)) 0) <= path_error quotes steps draws j.
