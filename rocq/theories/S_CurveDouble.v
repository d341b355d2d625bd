(** Specification vocabulary for curves of doubles. *)
From Coq Require Import ZArith List Reals.
From Flocq Require Import Core.
From Verif Require Import Prelude Num M_Interp M_Curves S_Double.
Import ListNotations.
Open Scope R_scope.

(** The curve whose rates are the real numbers that the doubles stand for. *)
Definition exact_linear {X} (f : linear F64 X) : linear R X :=
  mkLinear (lin_left f) (lin_right f) (map (fun p => (fst p, real (snd p))) (lin_points f)).
Fixpoint exact_curve (c : curve F64) : curve R :=
  match c with
  | ZeroRateCurve base => ZeroRateCurve base
  | RateCurveAct365 base f => RateCurveAct365 base (exact_linear f)
  | AnnualisedFlatBump c b => AnnualisedFlatBump (exact_curve c) (real b)
  | ContinuouslyCompoundedFlatBump c b => ContinuouslyCompoundedFlatBump (exact_curve c) (real b)
  | RelativeBump c b => RelativeBump (exact_curve c) (real b)
  end.

(** Extrapolation that does not depend on arithmetic. *)
Definition constant (e : extrap) : Prop := e = Flat \/ e = Zero \/ e = Throw.

(** A curve of finite rates, accepted by its constructor and then bumped any number of times by adding to the rate, whose rates
    and bumps add up to no more than M. *)
Fixpoint rates_within (M : R) (c : curve F64) : Prop :=
  match c with
  | ZeroRateCurve _ => 0 <= M
  | RateCurveAct365 base f => i32 base /\ exists pts l r, linear_new pts l r = Ok f /\ constant l /\ constant r /\
      forall p, In p pts -> i32 (fst p) /\ finite (snd p) /\ Rabs (real (snd p)) <= M
  | ContinuouslyCompoundedFlatBump c b => finite b /\ rates_within (M - Rabs (real b)) c
  | AnnualisedFlatBump _ _ | RelativeBump _ _ => False
  end.
Fixpoint bumps (c : curve F64) : nat :=
  match c with
  | ZeroRateCurve _ | RateCurveAct365 _ _ => O
  | AnnualisedFlatBump c _ | ContinuouslyCompoundedFlatBump c _ | RelativeBump c _ => S (bumps c)
  end.

(** An exponential that is right up to the fraction eps, where it neither overflows nor underflows. *)
Definition accurate (eps : R) (TR : Trans F64) : Prop :=
  forall x, finite x -> Rabs (real x) <= 640 -> finite (nexp x) /\ Rabs (real (nexp x) - exp (real x)) <= eps * exp (real x).
