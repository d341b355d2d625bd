(** Model of src/math/brent.rs. *)
From Coq Require Import ZArith List String Bool.
From Verif Require Import Prelude Num.
Import ListNotations.
Open Scope string_scope.

Section Brent.
  Context {T : Type} `{Num T}.
  Local Open Scope num_scope.

  (** f64::EPSILON, 2^-52. *)
  Definition epsilon : T := nlit 1 4503599627370496.

  (** The test of lines 22 and 34: both strictly positive or both strictly negative. *)
  Definition same_sign (x y : T) : bool := ((n0 <? x) && (n0 <? y)) || ((x <? n0) && (y <? n0)).

  (** f64::min, which ignores a NaN, and f64::signum, which gives a NaN for a NaN.  The sign of a zero is not looked at: with xm a
      zero line 96 is reached only if tol1 is a NaN, and then so is the trial. *)
  Definition nmin (x y : T) : T := if x =? x then if y <? x then y else x else y.
  Definition signum (x : T) : T := if x =? x then if x <? n0 then - n1 else n1 else x.

  (** brent.rs:14-16, 28-29 and 33: the mutable locals. *)
  Record brent := mkBrent { ba : T; bb : T; bc : T; bd : T; be : T; bfa : T; bfb : T; bfc : T }.

  (** brent.rs:34-40: bring the root between b and c. *)
  Definition rebracket (s : brent) : brent :=
    if same_sign (bfb s) (bfc s) then
      let d := bb s - ba s in mkBrent (ba s) (bb s) (ba s) d d (bfa s) (bfb s) (bfa s)
    else s.

  (** brent.rs:41-48: make b the better of b and c. *)
  Definition rotate (s : brent) : brent :=
    if nabs (bfc s) <? nabs (bfb s) then
      mkBrent (bb s) (bc s) (bb s) (bd s) (be s) (bfb s) (bfc s) (bfb s)
    else s.

  (** brent.rs:50-51. *)
  Definition brent_tol (tol : T) (s : brent) : T := nofZ 2 * epsilon * nabs (bb s) + nlit 1 2 * tol.
  Definition brent_xm (s : brent) : T := nlit 1 2 * (bc s - bb s).

  (** brent.rs:57-69: numerator and denominator of the interpolation step, before the signs are fixed. *)
  Definition brent_pq0 (s : brent) : T * T :=
    let xm := brent_xm s in
    let r0 := bfb s / bfa s in
    if ba s =? bc s then (nofZ 2 * xm * r0, n1 - r0)
    else
      let q := bfa s / bfc s in
      let r := bfb s / bfc s in
      (r0 * (nofZ 2 * xm * q * (q - r) - (bb s - ba s) * (r - n1)), (q - n1) * (r - n1) * (r0 - n1)).

  (** brent.rs:70-73. *)
  Definition brent_pq (s : brent) : T * T :=
    let '(p, q) := brent_pq0 s in
    (nabs p, if n0 <? p then - q else q).

  (** brent.rs:54-89: the new d and e. *)
  Definition brent_de (tol1 : T) (s : brent) : T * T :=
    let xm := brent_xm s in
    if (tol1 <=? nabs (be s)) && (nabs (bfb s) <? nabs (bfa s)) then
      let '(p, q) := brent_pq s in
      let min1 := nofZ 3 * xm * q * nabs (tol1 - q) in
      let min2 := nabs (be s * q) in
      if nofZ 2 * p <? nmin min1 min2 then (p / q, bd s) else (xm, xm)
    else (xm, xm).

  (** brent.rs:92-99: the next trial. *)
  Definition brent_trial (tol1 d : T) (s : brent) : T :=
    if tol1 <? nabs d then bb s + d else bb s + nabs tol1 * signum (brent_xm s).

  (** brent.rs:34-48. *)
  Definition brent_prepare (s : brent) : brent := rotate (rebracket s).

  (** [func] is an [FnMut]: it also changes a state, which is the part of the world it captures. *)
  Variable S : Type.
  Variable func : T -> S -> res T * S.

  (** brent.rs:33-101: the loop. *)
  Fixpoint brent_loop (tol : T) (max_iter : nat) (s0 : brent) (w : S) : res T * S :=
    match max_iter with
    | O => (Err "Maximum number of iterations exceeded in zbrent", w)
    | Datatypes.S k =>
        let s := brent_prepare s0 in
        let tol1 := brent_tol tol s in
        if (nabs (brent_xm s) <=? tol1) || (bfb s =? n0) then (Ok (bb s), w)
        else
          let '(d, e) := brent_de tol1 s in
          let b := brent_trial tol1 d s in
          match func b w with
          | (Ok fb, w') => brent_loop tol k (mkBrent (bb s) b (bc s) d e (bfb s) fb (bfc s)) w'
          | other => other
          end
    end.

  (** brent.rs:12-102 [zbrent]; [nan] is the initial value of d and e. *)
  Definition zbrent (nan : T) (x1 x2 tol : T) (max_iter : nat) (w : S) : res T * S :=
    match func x1 w with
    | (Ok fa, w1) =>
        match func x2 w1 with
        | (Ok fb, w2) =>
            if same_sign fa fb then (Err "Root must be bracketed in zbrent", w2)
            else brent_loop tol max_iter (mkBrent x1 x2 x2 nan nan fa fb fb) w2
        | other => other
        end
    | other => other
    end.
End Brent.
Arguments brent T : clear implicits.
