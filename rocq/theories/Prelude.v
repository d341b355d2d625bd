(** Shared vocabulary of the model: results with errors and panics, and string-keyed maps. *)
From Coq Require Import String List Bool Ascii.
Import ListNotations.
Open Scope string_scope.

(** Outcome of a Rust call.  [Err] is [Result::Err] (core/qm.rs:13-27, [qm::Error] holds a message);
    [Panic] is an unwinding panic ([assert!], [panic!], [expect], index out of bounds). *)
Inductive res (A : Type) : Type :=
| Ok (a : A)
| Err (msg : string)
| Panic (msg : string).
Arguments Ok {A} a.
Arguments Err {A} msg.
Arguments Panic {A} msg.

Definition bind {A B} (r : res A) (f : A -> res B) : res B :=
  match r with
  | Ok a => f a
  | Err m => Err m
  | Panic m => Panic m
  end.

Definition rmap {A B} (f : A -> B) (r : res A) : res B := bind r (fun a => Ok (f a)).

Declare Scope res_scope.
Delimit Scope res_scope with res.
Notation "'let*' x ':=' e 'in' f" := (bind e (fun x => f))
  (at level 200, x pattern, e at level 200, f at level 200, right associativity) : res_scope.
Open Scope res_scope.

(** [assert!(c)] followed by the rest. *)
Definition assert_ (c : bool) (m : string) : res unit := if c then Ok tt else Panic m.
(** [if !c { return Err(..) }]. *)
Definition guard (c : bool) (m : string) : res unit := if c then Ok tt else Err m.

Definition is_ok {A} (r : res A) : bool := match r with Ok _ => true | _ => false end.

(** [iter().map(f).collect::<Result<Vec<_>,_>>()], left to right, stopping at the first failure. *)
Fixpoint mapM {A B} (f : A -> res B) (l : list A) : res (list B) :=
  match l with
  | [] => Ok []
  | a :: l' => let* b := f a in let* bs := mapM f l' in Ok (b :: bs)
  end.

Fixpoint foldM {A S} (f : S -> A -> res S) (s : S) (l : list A) : res S :=
  match l with
  | [] => Ok s
  | a :: l' => let* s' := f s a in foldM f s' l'
  end.

(** ** HashMap<String, A> *)

Definition smap (A : Type) := list (string * A).

Fixpoint get {A} (k : string) (m : smap A) : option A :=
  match m with
  | [] => None
  | (k', v) :: m' => if String.eqb k k' then Some v else get k m'
  end.

(** [insert]: overwrite in place, or append. *)
Fixpoint put {A} (k : string) (v : A) (m : smap A) : smap A :=
  match m with
  | [] => [(k, v)]
  | (k', v') :: m' => if String.eqb k k' then (k', v) :: m' else (k', v') :: put k v m'
  end.

(** [remove]. *)
Fixpoint del {A} (k : string) (m : smap A) : smap A :=
  match m with
  | [] => []
  | (k', v') :: m' => if String.eqb k k' then del k m' else (k', v') :: del k m'
  end.

Definition contains {A} (k : string) (m : smap A) : bool :=
  match get k m with Some _ => true | None => false end.

Definition keys {A} (m : smap A) : list string := map fst m.
