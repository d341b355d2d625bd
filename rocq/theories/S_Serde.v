(** What the properties of serialisation speak about: objects of a type, the shared objects inside an object, and when ids
    identify objects. *)
From Coq Require Import ZArith List String Bool.
From Verif Require Import Prelude Num M_Dates M_Schema M_Serde.
Import ListNotations.
Open Scope string_scope.
Open Scope list_scope.

Section Conforms.
  Context {T : Type}.
  Variable P : val T -> ty -> Prop.

  Fixpoint fields_conform (fs : list (string * val T)) (ts : list (string * ty)) {struct fs} : Prop :=
    match fs, ts with
    | [], [] => True
    | (n, v) :: fs', (m, t) :: ts' => n = m /\ P v t /\ fields_conform fs' ts'
    | _, _ => False
    end.

  Fixpoint tuple_conforms (l : list (val T)) (ts : list ty) {struct l} : Prop :=
    match l, ts with
    | [], [] => True
    | v :: l', t :: ts' => P v t /\ tuple_conforms l' ts'
    | _, _ => False
    end.
End Conforms.

Section Every.
  Context {A : Type}.
  Variable P : A -> Prop.
  Fixpoint every (l : list A) : Prop := match l with [] => True | a :: l' => P a /\ every l' end.
End Every.

Section Serde.
  Context {T : Type}.
  Variable finite : T -> bool.

  (** [v] is an object of the Rust type [t] that JSON can hold: numbers are finite, dates are valid, integers are in range,
      struct fields and map keys are distinct, trait objects are of types that the registry of the trait knows. *)
  Fixpoint conforms (v : val T) (t : ty) {struct v} : Prop :=
    match v, t with
    | VStr _, TStr => True
    | VNum x, TF64 => finite x = true
    | VInt z, TI32 => (-2147483648 <= z <= 2147483647)%Z
    | VInt z, TUsize => (0 <= z <= 18446744073709551615)%Z
    | VBool _, TBool => True
    | VDate d, TDate => (0 < d < 73000)%Z
    | VUnit n, TEnum variants => get n variants = Some None
    | VVariant n u, TEnum variants => exists t', get n variants = Some (Some t') /\ conforms u t'
    | VStruct fs, TStruct _ ts => NoDup (keys fs) /\ fields_conform conforms fs ts
    | VTuple l, TTuple ts => tuple_conforms conforms l ts
    | VVec l, TVec t' => every (fun u => conforms u t') l
    | VMap m, TMap t' => NoDup (keys m) /\ every (fun e => match e with (_, u) => conforms u t' end) m
    | VTagged tr type_id u, TTagged tr' =>
        tr = tr' /\ exists tag t', (type_id = Some tag \/ type_id = read_type_id tr tag) /\
                     get tag (registry tr) = Some t' /\ conforms u t'
    | VShared k u, TShared k' => k = k' /\ conforms u (content k)
    | _, _ => False
    end.

  (** The object that reading makes of what [v] was written as: the same, except that a trait object may have lost the
      ability to name its type. *)
  Fixpoint loaded (v : val T) : val T :=
    match v with
    | VVariant n u => VVariant n (loaded u)
    | VStruct fs => VStruct (map (fun e => match e with (n, u) => (n, loaded u) end) fs)
    | VTuple l => VTuple (map loaded l)
    | VVec l => VVec (map loaded l)
    | VMap m => VMap (map (fun e => match e with (n, u) => (n, loaded u) end) m)
    | VTagged tr (Some tag) u => VTagged tr (read_type_id tr tag) (loaded u)
    | VTagged tr None u => VTagged tr None (loaded u)
    | VShared k u => VShared k (loaded u)
    | _ => v
    end.

  (** The shared objects inside an object, itself included, in the order in which they are met. *)
  Fixpoint sharing (v : val T) : list (shared * val T) :=
    match v with
    | VShared k u => (k, u) :: sharing u
    | VVariant _ u | VTagged _ _ u => sharing u
    | VStruct fs | VMap fs => flat_map (fun e => match e with (_, u) => sharing u end) fs
    | VTuple l | VVec l => flat_map sharing l
    | _ => []
    end.

  (** Ids identify the shared objects of [v], and those of the tables in [s], wherever ids are used in place of objects. *)
  Definition ids_identify (s : tls T) (v : val T) : Prop :=
    forall k u u', dd_control (slot k s) <> Inline -> In (k, u) (sharing v) ->
      (In (k, u') (sharing v) -> id_of u = id_of u' -> u = u') /\
      (get (id_of u) (dd_map (slot k s)) = Some u' -> u' = u).

  (** Two states with the same controls and the same objects under the same ids. *)
  Definition same_state (s r : tls T) : Prop :=
    forall k, dd_control (slot k s) = dd_control (slot k r) /\
      forall id, get id (dd_map (slot k s)) = get id (dd_map (slot k r)).
End Serde.

(** Nested calls of [Dedup::with], outermost first. *)
Fixpoint nested {T A} (ds : list (shared * dedup T)) (f : act T A) : act T A :=
  match ds with [] => f | (k, d) :: ds' => with_dedup k d (nested ds' f) end.

(** ** What a JSON value mentions *)

(** A shared object is mentioned in full or by its id. *)
Record mention := mkMention { mt_kind : shared; mt_id : string; mt_full : bool }.

Section Mentions.
  Context {T : Type}.

  (** The id inside an object written in full: of a currency, or of an instrument behind its tag. *)
  Definition full_id (k : shared) (es : list (string * json T)) : string :=
    let id fs := match get "id" fs with Some (JStr id) => id | _ => "" end in
    match k, es with
    | ShInstrument, [(_, JObj fs)] => id fs
    | _, _ => id es
    end.

  Section Tuple.
    Variable mentions_one : json T -> ty -> list mention.
    Fixpoint tuple_mentions (js : list (json T)) (ts : list ty) {struct js} : list mention :=
      match js, ts with
      | j :: js', t :: ts' => mentions_one j t ++ tuple_mentions js' ts'
      | _, _ => []
      end.
  End Tuple.

  (** The shared objects mentioned by a JSON value of the given type, in order. *)
  Fixpoint mentions (j : json T) (t : ty) {struct j} : list mention :=
    let inside := fun t =>
      match t, j with
      | TEnum variants, JObj [(n, j')] => match get n variants with Some (Some t') => mentions j' t' | _ => [] end
      | TStruct _ fields, JObj es =>
          flat_map (fun e => match e with (n, j') => match get n fields with Some t' => mentions j' t' | None => [] end end) es
      | TTuple ts, JArr js => tuple_mentions mentions js ts
      | TVec t', JArr js => flat_map (fun j' => mentions j' t') js
      | TMap t', JObj es => flat_map (fun e => match e with (_, j') => mentions j' t' end) es
      | TTagged tr, JObj [(tag, j')] => match get tag (registry tr) with Some t' => mentions j' t' | None => [] end
      | _, _ => []
      end in
    match t with
    | TShared k =>
        match j with
        | JStr id => [mkMention k id false]
        | JObj es => mkMention k (full_id k es) true :: inside (content k)
        | _ => []
        end
    | _ => inside t
    end.

  (** Each object of kind [k] is mentioned in full the first time, unless it was known before, and by its id from then on. *)
  Definition full_once (k : shared) (known : string -> Prop) (ms : list mention) : Prop :=
    forall before m after, ms = before ++ m :: after -> mt_kind m = k ->
      (mt_full m = true <->
         ~ known (mt_id m) /\ ~ exists m', In m' before /\ mt_kind m' = k /\ mt_id m' = mt_id m).
End Mentions.
