(** Specification vocabulary for interpolation: lines, cubics and splines through given points. *)
From Coq Require Import ZArith List Reals.
From Verif Require Import M_Interp.
Import ListNotations.
Open Scope R_scope.

(** [pos] places the abscissae on the real line, consistently with their differences and comparisons. *)
Record lawful {X} `{Interpolable X R} (pos : X -> R) : Prop := {
  law_diff : forall a b, interp_diff a b = pos b - pos a;
  law_lt : forall a b, interp_cmp a b = Lt <-> pos a < pos b;
  law_eq : forall a b, interp_cmp a b = Eq <-> pos a = pos b;
  law_gt : forall a b, interp_cmp a b = Gt <-> pos a > pos b;
  law_ord : forall a b, interp_ord a b = true
}.

(** p and q are neighbours in the list. *)
Definition neighbours {A} (pts : list A) (p q : A) : Prop :=
  exists i, nth_error pts i = Some p /\ nth_error pts (S i) = Some q.

Definition first_point {A} (pts : list A) (p : A) : Prop := nth_error pts 0 = Some p.
Definition last_point {A} (pts : list A) (p : A) : Prop := nth_error pts (length pts - 1) = Some p.
Definition first_two {A} (pts : list A) (p q : A) : Prop :=
  nth_error pts 0 = Some p /\ nth_error pts 1 = Some q.
Definition last_two {A} (pts : list A) (p q : A) : Prop :=
  (1 < length pts)%nat /\ nth_error pts (length pts - 2) = Some p /\ nth_error pts (length pts - 1) = Some q.

Section Spec.
  Context {X : Type} (pos : X -> R).
  Notation point := (X * R)%type.

  (** Every abscissa exceeds its predecessor by more than 1e-12. *)
  Definition separated (pts : list point) : Prop :=
    forall p q, neighbours pts p q -> pos (fst q) - pos (fst p) > 1 / 1000000000000.

  Definition within (pts : list point) (x : X) : Prop :=
    exists p q, first_point pts p /\ last_point pts q /\ pos (fst p) <= pos x <= pos (fst q).

  (** (x, y) is on the line through p and q. *)
  Definition on_line (p q : point) (x : X) (y : R) : Prop :=
    (y - snd p) * (pos (fst q) - pos (fst p)) = (snd q - snd p) * (pos x - pos (fst p)).

  (** The slope from each point to the next is between m and M. *)
  Definition slopes_between (m M : R) (pts : list point) : Prop :=
    forall p q, neighbours pts p q ->
      m * (pos (fst q) - pos (fst p)) <= snd q - snd p <= M * (pos (fst q) - pos (fst p)).

  (** A cubic polynomial of the position, its slope and its curvature. *)
  Record cubic := Cubic { k0 : R; k1 : R; k2 : R; k3 : R }.
  Definition value (c : cubic) (x : R) : R := k0 c + k1 c * x + k2 c * x ^ 2 + k3 c * x ^ 3.
  Definition slope (c : cubic) (x : R) : R := k1 c + 2 * k2 c * x + 3 * k3 c * x ^ 2.
  Definition curvature (c : cubic) (x : R) : R := 2 * k2 c + 6 * k3 c * x.

  (** [pieces] is one cubic for each pair of neighbouring points, passing through both. *)
  Definition through (pts : list point) (pieces : list cubic) : Prop :=
    length pts = S (length pieces) /\
    forall i p q c, nth_error pts i = Some p -> nth_error pts (S i) = Some q -> nth_error pieces i = Some c ->
      value c (pos (fst p)) = snd p /\ value c (pos (fst q)) = snd q.

  (** The pieces agree in slope (and in curvature) at the inner points with index at least k. *)
  Definition slopes_join (k : nat) (pts : list point) (pieces : list cubic) : Prop :=
    forall i p c d, (k <= S i)%nat ->
      nth_error pts (S i) = Some p -> nth_error pieces i = Some c -> nth_error pieces (S i) = Some d ->
      slope c (pos (fst p)) = slope d (pos (fst p)).
  Definition curvatures_join (pts : list point) (pieces : list cubic) : Prop :=
    forall i p c d,
      nth_error pts (S i) = Some p -> nth_error pieces i = Some c -> nth_error pieces (S i) = Some d ->
      curvature c (pos (fst p)) = curvature d (pos (fst p)).

  Definition at_first (pts : list point) (pieces : list cubic) (P : cubic -> R -> Prop) : Prop :=
    forall p c, first_point pts p -> nth_error pieces 0 = Some c -> P c (pos (fst p)).
  Definition at_last (pts : list point) (pieces : list cubic) (P : cubic -> R -> Prop) : Prop :=
    forall p c, last_point pts p -> nth_error pieces (length pieces - 1) = Some c -> P c (pos (fst p)).

  (** Twice continuously differentiable piecewise cubic through the points, straight at both ends. *)
  Definition natural_spline (pts : list point) (pieces : list cubic) : Prop :=
    through pts pieces /\ slopes_join 1 pts pieces /\ curvatures_join pts pieces /\
    at_first pts pieces (fun c x => curvature c x = 0) /\
    at_last pts pieces (fun c x => curvature c x = 0).

  (** x lies on piece i, including its two ends. *)
  Definition on_piece (pts : list point) (i : nat) (x : X) : Prop :=
    exists p q, nth_error pts i = Some p /\ nth_error pts (S i) = Some q /\ pos (fst p) <= pos x <= pos (fst q).
End Spec.

(** What an extrapolation policy other than Natural asks for, beyond a point of value y. *)
Definition obeys {T} {N : Num.Num T} (nan : T) (e : extrap) (y : T) (r : Prelude.res T) : Prop :=
  match e with
  | Flat => r = Prelude.Ok y
  | NotANumber => r = Prelude.Ok nan
  | Zero => r = Prelude.Ok Num.n0
  | Throw | Natural => exists m, r = Prelude.Err m
  end.
