(** Specification vocabulary for comparing reports whose numbers are of any kind, in particular doubles. *)
From Coq Require Import ZArith List String Bool Reals.
From Flocq Require Import Core.
From Verif Require Import Prelude Num M_Reports S_Double.
Import ListNotations.
Open Scope list_scope.

Section Any.
  Context {T : Type} {N : Num T}.
  Variable near : T -> T -> T -> Prop.

  (** Two tables have the same ids, and entries near each other at the two tolerances. *)
  Definition tables_near (t1 t2 : T) (mine other : smap (T * T)) : Prop :=
    (forall id, In id (keys mine) <-> In id (keys other)) /\
    forall id x y, get id mine = Some x -> get id other = Some y -> near (fst x) (fst y) t1 /\ near (snd x) (snd y) t2.

  (** Two reports are of the same kind, with tables, prices and subreports near each other.  The tolerance of a first derivative is
      that of the price divided by the bump size of the first report, and of a second derivative that divided by it again. *)
  Inductive agree_by (tol : tolerances T) : report T -> report T -> Prop :=
  | by_delta h h' m o : tables_near (ndiv (tol_unit_risk tol) h) (ndiv (ndiv (tol_unit_risk tol) h) h) m o ->
      agree_by tol (DeltaGammaReport h m) (DeltaGammaReport h' o)
  | by_vega h h' m o : tables_near (ndiv (tol_currency_risk tol) h) (ndiv (ndiv (tol_currency_risk tol) h) h) m o ->
      agree_by tol (VegaVolgaReport h m) (VegaVolgaReport h' o)
  | by_time x t subs x' t' subs' : near x x' (tol_price tol) -> near t t' (tol_price tol) -> Forall2 (agree_by tol) subs subs' ->
      agree_by tol (TimeBumpedReport x t subs) (TimeBumpedReport x' t' subs').

  (** All the prices and derivatives in a report, and all its bump sizes, are of some kind. *)
  Inductive all_numbers (value size : T -> Prop) : report T -> Prop :=
  | all_delta h m : size h -> (forall id x, In (id, x) m -> value (fst x) /\ value (snd x)) -> all_numbers value size (DeltaGammaReport h m)
  | all_vega h m : size h -> (forall id x, In (id, x) m -> value (fst x) /\ value (snd x)) -> all_numbers value size (VegaVolgaReport h m)
  | all_time x t subs : value x -> value t -> Forall (all_numbers value size) subs -> all_numbers value size (TimeBumpedReport x t subs).

  (** All the tolerances that come into comparing a report are of some kind. *)
  Inductive all_tolerances (Q : T -> Prop) (tol : tolerances T) : report T -> Prop :=
  | tolerances_delta h m : Q (ndiv (tol_unit_risk tol) h) -> Q (ndiv (ndiv (tol_unit_risk tol) h) h) -> all_tolerances Q tol (DeltaGammaReport h m)
  | tolerances_vega h m : Q (ndiv (tol_currency_risk tol) h) -> Q (ndiv (ndiv (tol_currency_risk tol) h) h) -> all_tolerances Q tol (VegaVolgaReport h m)
  | tolerances_time x t subs : Q (tol_price tol) -> Forall (all_tolerances Q tol) subs -> all_tolerances Q tol (TimeBumpedReport x t subs).
End Any.

(** Two finite doubles whose difference, rounded, is less than a third. *)
Definition near_doubles (x y t : F64) : Prop :=
  finite x /\ finite y /\ number t /\ (Rabs (rnd (real x - real y)) < place t)%R.

(** Doubles throughout. *)
Definition double_tolerances (tol : tolerances F64) : Prop := double (tol_price tol) /\ double (tol_unit_risk tol) /\ double (tol_currency_risk tol).
Definition of_doubles (r : report F64) : Prop := all_numbers double double r.
