(** Model of src/data/fixings.rs. *)
From Coq Require Import ZArith List String Bool.
From Verif Require Import Prelude M_Dates.
Import ListNotations.
Open Scope string_scope.

Section Fixings.
  Context {T : Type}.

  (** fixings.rs:158-161 [struct Fixings]: a HashMap<DateTime, f64>; an association list with unique keys. *)
  Definition fixings := list (datetime * T).

  Fixpoint dt_get (k : datetime) (m : fixings) : option T :=
    match m with
    | [] => None
    | (k', v) :: m' => if dt_eqb k k' then Some v else dt_get k m'
    end.

  Fixpoint dt_put (k : datetime) (v : T) (m : fixings) : fixings :=
    match m with
    | [] => [(k, v)]
    | (k', v') :: m' => if dt_eqb k k' then (k', v) :: m' else (k', v') :: dt_put k v m'
    end.

  (** fixings.rs:221-225: the loop body of [Fixings::new]. *)
  Definition fixings_add (m : fixings) (f : datetime * T) : res fixings :=
    match dt_get (fst f) m with
    | Some _ => Err "Duplicate fixing"
    | None => Ok (dt_put (fst f) (snd f) m)
    end.

  (** fixings.rs:217-227 [Fixings::new]; the id is for messages only. *)
  Definition fixings_new (l : list (datetime * T)) : res fixings := foldM fixings_add [] l.

  (** fixings.rs:184-208 [map_as_pairs::deserialize]: a later duplicate silently wins. *)
  Definition fixings_load (l : list (datetime * T)) : fixings :=
    fold_left (fun m f => dt_put (fst f) (snd f) m) l [].

  (** fixings.rs:11-14 [struct FixingTable]. *)
  Record fixing_table := mkTable { known_until : date; by_id : smap fixings }.

  (** fixings.rs:49-52 [FixingTable::new]. *)
  Definition table_new (until : date) : fixing_table := mkTable until [].

  (** fixings.rs:55-61 [insert]: the value is overwritten before the duplicate is reported. *)
  Definition table_insert (t : fixing_table) (id : string) (f : fixings) : res unit * fixing_table :=
    let t' := mkTable (known_until t) (put id f (by_id t)) in
    match get id (by_id t) with
    | Some _ => (Err "Duplicate fixing curve supplied", t')
    | None => (Ok tt, t')
    end.

  (** fixings.rs:26-30 and 44-47: the loop of the two constructors. *)
  Definition table_add (t : fixing_table) (f : string * list (datetime * T)) : res fixing_table :=
    let* curve := fixings_new (snd f) in
    match table_insert t (fst f) curve with
    | (Ok _, t') => Ok t'
    | (Err m, _) => Err m
    | (Panic m, _) => Panic m
    end.

  (** fixings.rs:20-31 [from_fixings] and 35-49 [from_iter_known_until], which do the same. *)
  Definition from_fixings (until : date) (l : list (string * list (datetime * T))) : res fixing_table :=
    foldM table_add (table_new until) l.

  (** fixings.rs:80-85 [get_optional]. *)
  Definition get_optional (t : fixing_table) (id : string) (dt : datetime) : option T :=
    match get id (by_id t) with
    | Some f => dt_get dt f
    | None => None
    end.

  (** fixings.rs:65-76 [get]. *)
  Definition get_fixing (t : fixing_table) (id : string) (dt : datetime) : res (option T) :=
    match get_optional t id dt with
    | Some x => Ok (Some x)
    | None => if (dt_date dt <? known_until t)%Z then Err "Missing fixing" else Ok None
    end.
End Fixings.
Arguments fixings T : clear implicits.
Arguments fixing_table T : clear implicits.
