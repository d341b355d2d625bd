(** Model of src/data/curves.rs and src/data/bumpyield.rs. *)
From Coq Require Import ZArith List String Bool.
From Verif Require Import Prelude Num M_Dates M_Interp.
Import ListNotations.
Open Scope string_scope.

(** The implementations of [trait RateCurve]: curves.rs:90-117 [ZeroRateCurve], 131-170 [RateCurveAct365],
    173-213 [AnnualisedFlatBump], 216-250 [ContinuouslyCompoundedFlatBump], 254-290 [RelativeBump]. *)
Inductive curve (T : Type) :=
| ZeroRateCurve (base : date)
| RateCurveAct365 (base : date) (interp : @linear T date)
| AnnualisedFlatBump (c : curve T) (bump : T)
| ContinuouslyCompoundedFlatBump (c : curve T) (bump : T)
| RelativeBump (c : curve T) (one_plus_bump : T).
Arguments ZeroRateCurve {T} base.
Arguments RateCurveAct365 {T} base interp.
Arguments AnnualisedFlatBump {T} c bump.
Arguments ContinuouslyCompoundedFlatBump {T} c bump.
Arguments RelativeBump {T} c one_plus_bump.

(** bumpyield.rs:9-12 [enum BumpYield]. *)
Inductive bump_yield (T : Type) := FlatAnnualised (size : T) | FlatContinuouslyCompounded (size : T).
Arguments FlatAnnualised {T} size.
Arguments FlatContinuouslyCompounded {T} size.

Section Curves.
  Context {T : Type} `{Num T} `{Trans T}.
  Variable nan : T.
  Local Open Scope num_scope.

  (** curves.rs:163-169 [RateCurveAct365::new]. *)
  Definition act365_new (base : date) (points : list (date * T)) (left right : extrap) : res (curve T) :=
    let* interp := linear_new points left right in Ok (RateCurveAct365 base interp).

  (** curves.rs:282-284 [RelativeBump::new]: the bump is stored as if it were one plus the bump; kept. *)
  Definition relative_bump_new (c : curve T) (bump : T) : curve T := RelativeBump c bump.

  (** curves.rs:28, 104, 154, 203, 238, 277 [base_date]. *)
  Fixpoint base_date (c : curve T) : date :=
    match c with
    | ZeroRateCurve b => b
    | RateCurveAct365 b _ => b
    | AnnualisedFlatBump c _ | ContinuouslyCompoundedFlatBump c _ | RelativeBump c _ => base_date c
    end.

  (** curves.rs:31 and 105 [is_zero]. *)
  Definition is_zero (c : curve T) : bool := match c with ZeroRateCurve _ => true | _ => false end.

  (** curves.rs:101-103, 140-152, 185-201, 231-234, 266-269 [r_and_t]. *)
  Fixpoint r_and_t (c : curve T) (d : date) : res (T * T) :=
    match c with
    | ZeroRateCurve _ => Ok (n0, n0)
    | RateCurveAct365 base interp =>
        let act := (d - base)%Z in
        if (act =? 0)%Z then Ok (n0, n0)
        else
          let t := nofZ act / nofZ 365 in
          let* r := linear_at nan interp d in
          Ok (r, t)
    | AnnualisedFlatBump c bump =>
        let* (r, t) := r_and_t c d in Ok (nln (nexp r + bump), t)
    | ContinuouslyCompoundedFlatBump c bump =>
        let* (r, t) := r_and_t c d in Ok (r + bump, t)
    | RelativeBump c one_plus_bump =>
        let* (r, t) := r_and_t c d in Ok (r * one_plus_bump, t)
    end.

  (** curves.rs:41-44 [rt]. *)
  Definition rt (c : curve T) (d : date) : res T :=
    let* (r, t) := r_and_t c d in Ok (r * t).

  (** curves.rs:49-57 [df]. *)
  Definition df (c : curve T) (from to : date) : res T :=
    if (from =? to)%Z then Ok n1
    else
      let* from_rt := rt c from in
      let* to_rt := rt c to in
      Ok (nexp (to_rt - from_rt)).

  (** bumpyield.rs:26-40 [BumpYield::apply]. *)
  Definition apply_yield (b : bump_yield T) (c : curve T) : curve T :=
    match b with
    | FlatAnnualised size => AnnualisedFlatBump c size
    | FlatContinuouslyCompounded size => ContinuouslyCompoundedFlatBump c size
    end.
End Curves.
