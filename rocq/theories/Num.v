(** The number interface over which the f64 expressions of the code are written, with two instances:
    exact reals and bit-exact IEEE-754 doubles. *)
From Coq Require Import ZArith Reals Bool.
From Coq.Floats Require Import SpecFloat.

(** The f64 operations used by the modelled code. *)
Class Num (T : Type) := {
  nadd : T -> T -> T;
  nsub : T -> T -> T;
  nmul : T -> T -> T;
  ndiv : T -> T -> T;
  nopp : T -> T;
  nabs : T -> T;      (* f64::abs *)
  nsqrt : T -> T;     (* f64::sqrt *)
  nltb : T -> T -> bool;
  nleb : T -> T -> bool;
  neqb : T -> T -> bool;
  nofZ : Z -> T;      (* integer literal, or [as f64] from an i32 *)
  ntrunc : T -> Z;    (* [as i32], without the saturation at the ends of the i32 range *)
  nround : T -> Z     (* f64::round (half away from zero), then [as i32] *)
}.

(** Functions whose rounding is not specified by IEEE-754. *)
Class Trans (T : Type) := {
  nexp : T -> T;
  nln : T -> T
}.

Declare Scope num_scope.
Delimit Scope num_scope with num.
Bind Scope num_scope with Num.
Infix "+" := nadd : num_scope.
Infix "-" := nsub : num_scope.
Infix "*" := nmul : num_scope.
Infix "/" := ndiv : num_scope.
Notation "- x" := (nopp x) : num_scope.
Infix "<?" := nltb : num_scope.
Infix "<=?" := nleb : num_scope.
Infix "=?" := neqb : num_scope.
Notation "x >? y" := (nltb y x) (only parsing) : num_scope.
Notation "x >=? y" := (nleb y x) (only parsing) : num_scope.

Section Derived.
  Context {T : Type} `{Num T}.
  Definition n0 : T := nofZ 0.
  Definition n1 : T := nofZ 1.
  (** A decimal literal p/q: on doubles the division of two exactly represented integers is correctly rounded,
      as is the Rust literal. *)
  Definition nlit (p : Z) (q : Z) : T := ndiv (nofZ p) (nofZ q).
  (** f64::max: of a number and NaN, the number. *)
  Definition nmax (x y : T) : T := if nltb x y then y else if neqb x x then x else y.
  (** math/numerics.rs:16-18 [approx_eq]: |a - b| < tolerance. *)
  Definition approx_eq (a b tol : T) : bool := nltb (nabs (nsub a b)) tol.
End Derived.

(** ** Exact reals *)

Definition Rltb (x y : R) : bool := if Rlt_dec x y then true else false.
Definition Rleb (x y : R) : bool := if Rle_dec x y then true else false.
Definition Reqb (x y : R) : bool := if Req_EM_T x y then true else false.

Definition Rtrunc (x : R) : Z :=
  if Rle_dec 0 x then Int_part x else (- Int_part (- x))%Z.
Definition Rround (x : R) : Z :=
  if Rle_dec 0 x then Int_part (x + / 2)%R else (- Int_part (- x + / 2)%R)%Z.

#[global] Instance RNum : Num R := {
  nadd := Rplus; nsub := Rminus; nmul := Rmult; ndiv := Rdiv; nopp := Ropp;
  nabs := Rabs; nsqrt := sqrt; nltb := Rltb; nleb := Rleb; neqb := Reqb;
  nofZ := IZR; ntrunc := Rtrunc; nround := Rround
}.

#[global] Instance RTrans : Trans R := { nexp := exp; nln := ln }.

(** ** IEEE-754 double precision *)

Definition F64 : Type := spec_float.

Definition F_ofZ (z : Z) : F64 := binary_normalize 53 1024 z 0 false.

Definition F_trunc (x : F64) : Z :=
  match x with
  | S754_finite s m e =>
      let a := if (0 <=? e)%Z then (Zpos m * 2 ^ e)%Z else (Zpos m / 2 ^ (- e))%Z in
      if s then (- a)%Z else a
  | S754_infinity s => if s then (- 2147483648)%Z else 2147483647%Z
  | _ => 0%Z
  end.

Definition F_round (x : F64) : Z :=
  match x with
  | S754_finite s m e =>
      let a := if (0 <=? e)%Z then (Zpos m * 2 ^ e)%Z
               else ((2 * Zpos m + 2 ^ (- e)) / 2 ^ (- e + 1))%Z in
      if s then (- a)%Z else a
  | S754_infinity s => if s then (- 2147483648)%Z else 2147483647%Z
  | _ => 0%Z
  end.

Definition F_nan : F64 := S754_nan.

#[global] Instance FNum : Num F64 := {
  nadd := SFadd 53 1024; nsub := SFsub 53 1024; nmul := SFmul 53 1024; ndiv := SFdiv 53 1024;
  nopp := SFopp; nabs := SFabs; nsqrt := SFsqrt 53 1024;
  nltb := SFltb; nleb := SFleb; neqb := SFeqb;
  nofZ := F_ofZ; ntrunc := F_trunc; nround := F_round
}.
