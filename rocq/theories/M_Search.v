(** Model of [slice::binary_search_by] from the Rust standard library, as used by dates/calendar.rs:317,
    math/interpolation.rs:137 and 287, data/divstream.rs:318 and data/volsurface.rs:549. *)
From Coq Require Import List Arith.
Import ListNotations.

Inductive search := Found (i : nat) | Missing (i : nat).   (* Result::Ok / Result::Err *)

(** The bisection loop of the standard library: halve [size], move [base] up unless the probe is Greater. *)
Fixpoint bs_loop {A} (l : list A) (f : A -> comparison) (fuel size base : nat) : nat :=
  match fuel with
  | O => base
  | S k =>
      if (size <=? 1)%nat then base
      else let half := Nat.div2 size in
           let mid := (base + half)%nat in
           let base' := match nth_error l mid with
                        | Some a => match f a with Gt => base | _ => mid end
                        | None => base
                        end in
           bs_loop l f k (size - half)%nat base'
  end.

(** [l.binary_search_by(f)]: [f a] compares the element with what is sought. *)
Definition binary_search_by {A} (l : list A) (f : A -> comparison) : search :=
  let base := bs_loop l f (length l) (length l) 0 in
  match nth_error l base with
  | None => Missing 0
  | Some a => match f a with
              | Eq => Found base
              | Lt => Missing (S base)
              | Gt => Missing base
              end
  end.

(** The elements that loop compares with what is sought, in order. *)
Fixpoint bs_probes {A} (l : list A) (f : A -> comparison) (fuel size base : nat) : list A :=
  match fuel with
  | O => []
  | S k =>
      if (size <=? 1)%nat then []
      else let half := Nat.div2 size in
           let mid := (base + half)%nat in
           match nth_error l mid with
           | Some a => a :: bs_probes l f k (size - half)%nat (match f a with Gt => base | _ => mid end)
           | None => bs_probes l f k (size - half)%nat base
           end
  end.

(** All the elements [l.binary_search_by(f)] calls [f] on: those of the loop, then the one it ends at. *)
Definition probes {A} (l : list A) (f : A -> comparison) : list A :=
  bs_probes l f (length l) (length l) 0 ++
  match nth_error l (bs_loop l f (length l) (length l) 0) with Some a => [a] | None => [] end.
