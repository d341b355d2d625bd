(** Model of writing and reading: serde's derived code over the types of [M_Schema], the tags of core/factories.rs and the
    deduplication of core/dedup.rs.  JSON is its syntax tree: text, escapes and the digits of numbers are not modelled. *)
From Coq Require Import ZArith List String Bool.
From Verif Require Import Prelude Num M_Dates M_Schema.
Import ListNotations.
Open Scope string_scope.

Inductive json (T : Type) :=
| JNull
| JBool (b : bool)
| JInt (z : Z)
| JNum (x : T)
| JStr (s : string)
| JArr (l : list (json T))
| JObj (l : list (string * json T)).
Arguments JNull {T}.
Arguments JBool {T} b.
Arguments JInt {T} z.
Arguments JNum {T} x.
Arguments JStr {T} s.
Arguments JArr {T} l.
Arguments JObj {T} l.

(** Objects as serialisation sees them.  [VTagged]: a trait object and its [get_type_id] ([None]: calling it panics).
    [VShared]: a [Drc].  Two objects are the same when they have the same fields; pointers are not represented. *)
Inductive val (T : Type) :=
| VStr (s : string)
| VNum (x : T)
| VInt (z : Z)
| VBool (b : bool)
| VDate (d : date)
| VUnit (name : string)
| VVariant (name : string) (v : val T)
| VStruct (fields : list (string * val T))
| VTuple (l : list (val T))
| VVec (l : list (val T))
| VMap (m : list (string * val T))
| VTagged (tr : trait) (type_id : option string) (v : val T)
| VShared (k : shared) (v : val T).
Arguments VStr {T} s.
Arguments VNum {T} x.
Arguments VInt {T} z.
Arguments VBool {T} b.
Arguments VDate {T} d.
Arguments VUnit {T} name.
Arguments VVariant {T} name v.
Arguments VStruct {T} fields.
Arguments VTuple {T} l.
Arguments VVec {T} l.
Arguments VMap {T} m.
Arguments VTagged {T} tr type_id v.
Arguments VShared {T} k v.

(** core/dedup.rs:84-93 [DedupControl], 18-27 [Dedup]. *)
Inductive dedup_control := ErrorIfMissing | Inline | WriteOnce.
Record dedup (T : Type) := mkDedup { dd_control : dedup_control; dd_map : smap (val T) }.
Arguments mkDedup {T}.
Arguments dd_control {T} d.
Arguments dd_map {T} d.

(** The thread-local variables [DEDUP_CURRENCY] (assets.rs:148-151) and [DEDUP_INSTRUMENT] (instruments/mod.rs:242-245) of
    one thread. *)
Record tls (T : Type) := mkTls { tls_currency : dedup T; tls_instrument : dedup T }.
Arguments mkTls {T}.
Arguments tls_currency {T} t.
Arguments tls_instrument {T} t.

(** Their initial values. *)
Definition tls_initial {T} : tls T := mkTls (mkDedup Inline []) (mkDedup Inline []).

Definition slot {T} (k : shared) (s : tls T) : dedup T :=
  match k with ShCurrency => tls_currency s | ShInstrument => tls_instrument s end.

Definition set_slot {T} (k : shared) (d : dedup T) (s : tls T) : tls T :=
  match k with
  | ShCurrency => mkTls d (tls_instrument s)
  | ShInstrument => mkTls (tls_currency s) d
  end.

(** A computation that uses the thread-local state; what it did to the state stays done when it fails. *)
Definition act (T A : Type) := tls T -> res A * tls T.

Definition ret {T A} (a : A) : act T A := fun s => (Ok a, s).
Definition lift {T A} (r : res A) : act T A := fun s => (r, s).
Definition bind_act {T A B} (m : act T A) (f : A -> act T B) : act T B := fun s =>
  match m s with
  | (Ok a, s') => f a s'
  | (Err e, s') => (Err e, s')
  | (Panic e, s') => (Panic e, s')
  end.

Declare Scope act_scope.
Delimit Scope act_scope with act.
Notation "'let!' x ':=' e 'in' f" := (bind_act e (fun x => f))
  (at level 200, x pattern, e at level 200, f at level 200, right associativity) : act_scope.
Open Scope act_scope.

Section Each.
  Context {T A B : Type}.
  Variable f : A -> act T B.

  (** One after the other, stopping at the first failure. *)
  Fixpoint each (l : list A) : act T (list B) :=
    match l with
    | [] => ret []
    | a :: l' => let! b := f a in let! bs := each l' in ret (b :: bs)
    end.
End Each.

Section Loops.
  Context {T : Type}.
  (** Reading a nested value. *)
  Variable read_one : json T -> ty -> act T (val T).

  (** serde_derive's [visit_map] for a struct: unknown keys are skipped, a key seen twice is an error. *)
  Fixpoint read_fields (fields : list (string * ty)) (es : list (string * json T)) (seen : smap (val T))
      : act T (smap (val T)) :=
    match es with
    | [] => ret seen
    | (n, j) :: es' =>
        match get n fields with
        | None => read_fields fields es' seen
        | Some t =>
            if contains n seen then lift (Err "duplicate field")
            else let! v := read_one j t in read_fields fields es' (put n v seen)
        end
    end.

  (** serde_derive's [visit_seq] for a struct, with serde_json's check that the array is used up. *)
  Fixpoint read_positions (fields : list (string * ty)) (js : list (json T)) {struct js} : act T (list (string * val T)) :=
    match js, fields with
    | [], [] => ret []
    | j :: js', (n, t) :: fields' =>
        let! v := read_one j t in let! vs := read_positions fields' js' in ret ((n, v) :: vs)
    | _, _ => lift (Err "invalid length")
    end.

  (** A tuple. *)
  Fixpoint read_tuple (ts : list ty) (js : list (json T)) {struct js} : act T (list (val T)) :=
    match js, ts with
    | [], [] => ret []
    | j :: js', t :: ts' => let! v := read_one j t in let! vs := read_tuple ts' js' in ret (v :: vs)
    | _, _ => lift (Err "invalid length")
    end.

  (** A [Vec]. *)
  Fixpoint read_vec (t : ty) (js : list (json T)) : act T (list (val T)) :=
    match js with
    | [] => ret []
    | j :: js' => let! v := read_one j t in let! vs := read_vec t js' in ret (v :: vs)
    end.

  (** A [HashMap<String, _>]: entries are inserted as they come. *)
  Fixpoint read_map (t : ty) (es : list (string * json T)) (m : smap (val T)) : act T (smap (val T)) :=
    match es with
    | [] => ret m
    | (n, j) :: es' => let! v := read_one j t in read_map t es' (put n v m)
    end.
End Loops.

Section Serde.
  Context {T : Type} {N : Num T}.
  (** [f64::is_finite]. *)
  Variable finite : T -> bool.

  (** [InstanceId::id] (core/dedup.rs:96-98) of what a [Drc] holds: the field [id], of the struct or of the object behind
      the tag. *)
  Definition id_of (v : val T) : string :=
    match v with
    | VStruct fs | VTagged _ _ (VStruct fs) => match get "id" fs with Some (VStr id) => id | _ => "" end
    | _ => ""
    end.

  (** core/dedup.rs:65-67 [Dedup::insert] on the thread-local state. *)
  Definition insert_shared (k : shared) (v : val T) (s : tls T) : tls T :=
    let d := slot k s in set_slot k (mkDedup (dd_control d) (put (id_of v) v (dd_map d))) s.

  (** core/dedup.rs:132-167 [serialize_with_dedup]. *)
  Definition serialize_with_dedup (k : shared) (v : val T) (serialize : act T (json T)) : act T (json T) := fun s =>
    let d := slot k s in
    match dd_control d with
    | Inline => serialize s
    | ErrorIfMissing =>
        if contains (id_of v) (dd_map d) then (Ok (JStr (id_of v)), s) else (Err "Unknown id", s)
    | WriteOnce =>
        let s' := insert_shared k v s in
        if contains (id_of v) (dd_map d) then (Ok (JStr (id_of v)), s') else serialize s'
    end.

  (** What serde's derive, [serialize_seq] and [serialize_map] do, in order; dates/mod.rs:129-138; core/factories.rs:104-119
      and 154-162; assets.rs:159-165 and instruments/mod.rs:253-261.  A non-finite number is written as [null] (serde_json).
      The order of a [HashMap] is the order of the list. *)
  Fixpoint write (v : val T) : act T (json T) :=
    match v with
    | VStr s => ret (JStr s)
    | VNum x => ret (if finite x then JNum x else JNull)
    | VInt z => ret (JInt z)
    | VBool b => ret (JBool b)
    | VDate d => ret (JStr (to_string d))
    | VUnit name => ret (JStr name)
    | VVariant name u => let! j := write u in ret (JObj [(name, j)])
    | VStruct fs | VMap fs =>
        let! es := each (fun e => match e with (n, u) => let! j := write u in ret (n, j) end) fs in ret (JObj es)
    | VTuple l | VVec l => let! js := each write l in ret (JArr js)
    | VTagged _ (Some tag) u => let! j := write u in ret (JObj [(tag, j)])
    | VTagged _ None u => lift (Panic "TypeId should never be invoked for VolByProbability<T>")
    | VShared k u => serialize_with_dedup k u (write u)
    end.

  (** core/dedup.rs:169-202 [deserialize_with_dedup]. *)
  Definition deserialize_with_dedup (k : shared) (deserialize : act T (val T)) : act T (val T) := fun s =>
    match dd_control (slot k s) with
    | Inline => let! v := deserialize in ret (VShared k v)
    | ErrorIfMissing => let! v := deserialize in ret (VShared k v)
    | WriteOnce => let! v := deserialize in fun s' => (Ok (VShared k v), insert_shared k v s')
    end s.

  (** [from_id] (assets.rs:153-157, instruments/mod.rs:247-251) inside [visit_str] (core/dedup.rs:270-279,
      instruments/mod.rs:286-295). *)
  Definition from_id (k : shared) (id : string) : act T (val T) := fun s =>
    match get id (dd_map (slot k s)) with
    | Some v => (Ok v, s)
    | None => (Err "invalid value: string", s)
    end.

  (** The end of a derived [visit_map]: every field must have been seen. *)
  Fixpoint assemble (fields : list (string * ty)) (seen : smap (val T)) : res (list (string * val T)) :=
    match fields with
    | [] => Ok []
    | (n, _) :: fields' =>
        match get n seen with
        | None => Err "missing field"
        | Some v => let* vs := assemble fields' seen in Ok ((n, v) :: vs)
        end
    end.

  (** i32 and usize from a JSON integer. *)
  Definition read_int (lo hi : Z) (j : json T) : res (val T) :=
    match j with
    | JInt z => if (lo <=? z)%Z && (z <=? hi)%Z then Ok (VInt z) else Err "invalid value: integer"
    | _ => Err "invalid type"
    end.

  (** What serde's derived code, [Vec], tuples and [HashMap] do with a JSON value, visiting it in order; dates/mod.rs:140-153;
      core/factories.rs:23-57 [Registry] with serde_tagged's external tagging; core/dedup.rs:242-293 [string_or_struct] and
      instruments/mod.rs:267-317. *)
  Fixpoint read (j : json T) {struct j} : ty -> act T (val T) :=
    let core := fun t =>
      match t with
      | TStr => lift (match j with JStr s => Ok (VStr s) | _ => Err "invalid type" end)
      | TF64 => lift (match j with JNum x => Ok (VNum x) | JInt z => Ok (VNum (nofZ z)) | _ => Err "invalid type" end)
      | TI32 => lift (read_int (-2147483648) 2147483647 j)
      | TUsize => lift (read_int 0 18446744073709551615 j)
      | TBool => lift (match j with JBool b => Ok (VBool b) | _ => Err "invalid type" end)
      | TDate => lift (match j with JStr s => let* d := from_str s in Ok (VDate d) | _ => Err "invalid type" end)
      | TEnum variants =>
          match j with
          | JStr name =>
              match get name variants with
              | Some None => ret (VUnit name)
              | Some (Some _) => lift (Err "invalid type: unit variant")
              | None => lift (Err "unknown variant")
              end
          | JObj [(name, j')] =>
              match get name variants with
              | Some (Some t') => let! v := read j' t' in ret (VVariant name v)
              | Some None => match j' with JNull => ret (VUnit name) | _ => lift (Err "invalid type") end
              | None => lift (Err "unknown variant")
              end
          | _ => lift (Err "invalid type")
          end
      | TStruct flat fields =>
          match j with
          | JObj es =>
              let! seen := read_fields read fields es [] in
              let! fs := lift (assemble fields seen) in
              ret (VStruct fs)
          | JArr js =>
              if flat then lift (Err "invalid type")
              else let! fs := read_positions read fields js in ret (VStruct fs)
          | _ => lift (Err "invalid type")
          end
      | TTuple ts =>
          match j with
          | JArr js => let! vs := read_tuple read ts js in ret (VTuple vs)
          | _ => lift (Err "invalid type")
          end
      | TVec t' =>
          match j with
          | JArr js => let! vs := read_vec read t' js in ret (VVec vs)
          | _ => lift (Err "invalid type")
          end
      | TMap t' =>
          match j with
          | JObj es => let! m := read_map read t' es [] in ret (VMap m)
          | _ => lift (Err "invalid type")
          end
      | TTagged tr =>
          match j with
          | JObj [(tag, j')] =>
              match get tag (registry tr) with
              | Some t' => let! v := read j' t' in ret (VTagged tr (read_type_id tr tag) v)
              | None => lift (Err "Unknown tag")
              end
          | _ => lift (Err "invalid length")
          end
      | TShared k => lift (Err "unreachable")
      end in
    fun t =>
      match t with
      | TShared k =>
          deserialize_with_dedup k
            (match j with
             | JStr id => from_id k id
             | JObj _ => core (content k)
             | _ => lift (Err "invalid type")
             end)
      | _ => core t
      end.

  (** core/dedup.rs:39-58 [Dedup::with]: the state is swapped into the thread-local variable, the closure is run, and the
      two are swapped again.  When the closure panics the second swap does not happen: [catch_unwind] further out sees the
      thread-local variable as the closure left it. *)
  Definition with_dedup {A} (k : shared) (d : dedup T) (f : act T A) : act T A := fun s =>
    match f (set_slot k d s) with
    | (Panic m, s') => (Panic m, s')
    | (r, s') => (r, set_slot k (slot k s) s')
    end.
End Serde.
