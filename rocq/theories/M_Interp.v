(** Model of src/math/interpolation.rs. *)
From Coq Require Import ZArith List String Bool.
From Verif Require Import Prelude Num M_Search.
Import ListNotations.
Open Scope string_scope.

(** interpolation.rs:13-22 [trait Interpolable]. *)
Class Interpolable (X T : Type) := {
  interp_diff : X -> X -> T;            (* self.interp_diff(other) *)
  interp_cmp : X -> X -> comparison;    (* self.interp_cmp(other) *)
  interp_ord : X -> X -> bool           (* self.interp_cmp(other) does not panic *)
}.

(** interpolation.rs:24-43 for f64.  It panics (line 40) when the two are neither less, greater nor equal. *)
#[global] Instance interpolable_num {T} `{Num T} : Interpolable T T := {
  interp_diff a b := nsub b a;
  interp_cmp a b := if nltb a b then Lt else if nltb b a then Gt else Eq;
  interp_ord a b := nltb a b || nltb b a || neqb a b
}.

(** dates/mod.rs:129-137 (Date) and interpolation.rs:45-53 (i32). *)
#[global] Instance interpolable_Z {T} `{Num T} : Interpolable Z T := {
  interp_diff a b := nofZ (b - a)%Z;
  interp_cmp := Z.compare;
  interp_ord _ _ := true
}.

(** interpolation.rs:71-78 [enum Extrap]. *)
Inductive extrap := Flat | Natural | NotANumber | Zero | Throw.

Definition is_natural (e : extrap) : bool := match e with Natural => true | _ => false end.

Section Interp.
  Context {T : Type} `{Num T}.
  (** The value NaN, which [Extrap::NotANumber] returns; the reals have none, so it is a parameter. *)
  Variable nan : T.
  Context {X : Type} `{Interpolable X T}.
  Local Open Scope num_scope.

  (** interpolation.rs:80-94 [Extrap::extrapolate]. *)
  Definition extrapolate (e : extrap) (value : T) : res T :=
    match e with
    | Flat => Ok value
    | Natural => Err "Natural extrapolation not supported for this interpolation"
    | NotANumber => Ok nan
    | Zero => Ok n0
    | Throw => Err "Extrapolation not permitted"
    end.

  (** interpolation.rs:103-105 [lerp]. *)
  Definition lerp (y0 y1 t : T) : T := y0 * (n1 - t) + y1 * t.

  (** The tolerance literal 1e-12. *)
  Definition eps12 : T := nlit 1 1000000000000.

  (** interpolation.rs:110-123 [linear_interpolate]. *)
  Definition linear_interpolate (p0 p1 : X * T) (x : X) : res T :=
    let dx := interp_diff (fst p0) (fst p1) in
    if nabs dx <? eps12 then Err "Points too close to allow interpolation"
    else
      let dx0 := interp_diff (fst p0) x in
      let t := dx0 / dx in
      Ok (lerp (snd p0) (snd p1) t).

  (** Slice indexing [v[i]]. *)
  Definition at_ {A} (l : list A) (i : nat) : res A :=
    match nth_error l i with Some a => Ok a | None => Panic "index out of bounds" end.

  (** [points.binary_search_by(|p| p.0.interp_cmp(x))] (interpolation.rs:137 and 287): a comparison that panics ends it. *)
  Definition find (points : list (X * T)) (x : X) : res search :=
    let f p := interp_cmp (fst p) x in
    if forallb (fun p => interp_ord (fst p) x) (probes points f) then Ok (binary_search_by points f)
    else Panic "NaN values encountered in interpolator".

  (** interpolation.rs:126-159 [linear_interpolate_extrapolate].  Line 148 tests [left] where [right] is meant; kept. *)
  Definition linear_interpolate_extrapolate (x : X) (points : list (X * T)) (left right : extrap) : res T :=
    let n := List.length points in
    if Nat.eqb n 0 then Err "Cannot interpolate. No points"
    else
      let* found := find points x in
      match found with
      | Found i => let* p := at_ points i in Ok (snd p)
      | Missing i =>
          if Nat.eqb i 0 then
            let* p0 := at_ points 0 in
            if is_natural left && Nat.ltb 1 n then
              let* p1 := at_ points 1 in linear_interpolate p0 p1 x
            else extrapolate left (snd p0)
          else if Nat.leb n i then
            let* pn := at_ points (n - 1) in
            if is_natural left && Nat.ltb 1 n then
              let* pm := at_ points (n - 2) in linear_interpolate pm pn x
            else extrapolate right (snd pn)
          else
            let* p0 := at_ points (i - 1) in
            let* p1 := at_ points i in
            linear_interpolate p0 p1 x
      end.

  (** interpolation.rs:176-188: the loop of [validate_abscissae]. *)
  Fixpoint validate_from (p : X) (points : list (X * T)) : res unit :=
    match points with
    | [] => Ok tt
    | q :: rest =>
        if negb (eps12 <? interp_diff p (fst q)) then Err "Points must be strictly monotonic increasing and not NaN"
        else validate_from (fst q) rest
    end.

  (** interpolation.rs:166-191 [validate_abscissae]. *)
  Definition validate_abscissae (points : list (X * T)) : res unit :=
    match points with
    | [] => Err "At least one point must be supplied"
    | p :: rest => validate_from (fst p) rest
    end.

  (** interpolation.rs:222-228 [struct Linear]; 240-246 [Linear::new]; 230-235 [interpolate]. *)
  Record linear := mkLinear { lin_left : extrap; lin_right : extrap; lin_points : list (X * T) }.
  Definition linear_new (points : list (X * T)) (left right : extrap) : res linear :=
    let* _ := validate_abscissae points in Ok (mkLinear left right points).
  Definition linear_at (l : linear) (x : X) : res T :=
    linear_interpolate_extrapolate x (lin_points l) (lin_left l) (lin_right l).

  (** interpolation.rs:387-396: the decomposition loop of [nr_spline], as a recursion along the points.  [p] is
      xy[i-1], the list starts with xy[i], and y2, u are y2[i-1], u[i-1].  Returns (y2[i], u[i]) for 1 <= i < n-1. *)
  Fixpoint spline_decompose (p : X * T) (points : list (X * T)) (y2 u : T) : list (T * T) :=
    match points with
    | q :: ((r :: _) as rest) =>
        let sig := interp_diff (fst p) (fst q) / interp_diff (fst p) (fst r) in
        let pp := sig * y2 + nofZ 2 in
        let y2' := (sig - n1) / pp in
        let tmp := (snd r - snd q) / interp_diff (fst q) (fst r) - (snd q - snd p) / interp_diff (fst p) (fst q) in
        let u' := (nofZ 6 * tmp / interp_diff (fst p) (fst r) - sig * u) / pp in
        (y2', u') :: spline_decompose q rest y2' u'
    | _ => []
    end.

  (** interpolation.rs:408-410: the back substitution, for the indices of the list given; the last element is y2[n-1]. *)
  Fixpoint spline_backsub (l : list (T * T)) (last : T) : T * list T :=
    match l with
    | [] => (last, [last])
    | (a, u) :: l' => let '(next, rest) := spline_backsub l' last in
                      let m := a * next + u in (m, m :: rest)
    end.

  (** interpolation.rs:366-411 [nr_spline]; a derivative of None stands for INFINITY (natural). *)
  Definition nr_spline (xy : list (X * T)) (yp0 ypn : option T) : res (list T) :=
    match xy with
    | p0 :: ((p1 :: _) as rest) =>
        let '(y20, u0) := match yp0 with
          | None => (n0, n0)
          | Some d => let diff := interp_diff (fst p0) (fst p1) in
                      (- nlit 1 2, (nofZ 3 / diff) * ((snd p1 - snd p0) / diff - d))
          end in
        let inner := spline_decompose p0 rest y20 u0 in
        let '(y2m, um) := last inner (y20, u0) in
        let pm := last (removelast xy) p0 in
        let pn := last xy p0 in
        let '(qn, un) := match ypn with
          | None => (n0, n0)
          | Some d => let diff := interp_diff (fst pm) (fst pn) in
                      (nlit 1 2, (nofZ 3 / diff) * (d - (snd pn - snd pm) / diff))
          end in
        let y2n := (un - qn * um) / (qn * y2m + n1) in
        Ok (y20 :: snd (spline_backsub inner y2n))
    | _ => Panic "assertion failed: n > 1"
    end.

  (** interpolation.rs:418-431 [nr_splint]. *)
  Definition nr_splint (lo hi : X * T) (y2_lo y2_hi : T) (x : X) : res T :=
    let h := interp_diff (fst lo) (fst hi) in
    if h =? n0 then Err "Bad input to cubic spline interpolator"
    else
      let a := interp_diff x (fst hi) / h in
      let b := interp_diff (fst lo) x / h in
      Ok (a * snd lo + b * snd hi
          + ((a * a * a - a) * y2_lo + (b * b * b - b) * y2_hi) * (h * h) / nofZ 6).

  (** interpolation.rs:256-274 [struct CubicSpline]. *)
  Record spline := mkSpline
    { sp_left : extrap; sp_right : extrap; sp_points : list (X * T); sp_second : list T }.

  (** interpolation.rs:344-358: deserialization from the inputs, which validates nothing. *)
  Definition spline_load (points : list (X * T)) (left right : extrap) : res spline :=
    let* second := nr_spline points (if is_natural left then None else Some n0)
                                    (if is_natural right then None else Some n0) in
    Ok (mkSpline left right points second).

  (** interpolation.rs:319-337 [CubicSpline::new]. *)
  Definition spline_new (points : list (X * T)) (left right : extrap) : res spline :=
    let* _ := validate_abscissae points in
    let* second := nr_spline points (if is_natural left then None else Some n0)
                                    (if is_natural right then None else Some n0) in
    Ok (mkSpline left right points second).

  (** interpolation.rs:276-313 [CubicSpline::interpolate].  Line 299 tests [left] where [right] is meant; kept. *)
  Definition spline_at (s : spline) (x : X) : res T :=
    let points := sp_points s in
    let n := List.length points in
    if Nat.eqb n 0 then Err "Cubic spline interpolator requires at least 2 points"
    else
      let piece i :=
        let* p0 := at_ points i in
        let* p1 := at_ points (i + 1) in
        let* m0 := at_ (sp_second s) i in
        let* m1 := at_ (sp_second s) (i + 1) in
        nr_splint p0 p1 m0 m1 x in
      let* found := find points x in
      match found with
      | Found i => let* p := at_ points i in Ok (snd p)
      | Missing i =>
          if Nat.eqb i 0 then
            if is_natural (sp_left s) && Nat.ltb 1 n then piece 0%nat
            else let* p0 := at_ points 0 in extrapolate (sp_left s) (snd p0)
          else if Nat.leb n i then
            if is_natural (sp_left s) && Nat.ltb 1 n then piece (n - 2)%nat
            else let* pn := at_ points (n - 1) in extrapolate (sp_right s) (snd pn)
          else piece (i - 1)%nat
      end.
End Interp.
Arguments linear T X : clear implicits.
Arguments spline T X : clear implicits.
