(** Small finite sweeps used by L_Dates. *)
From Coq Require Import ZArith List String Ascii Bool Lia ZifyBool.
From Verif Require Import Prelude M_Dates S_Dates.
Import ListNotations.
Open Scope Z_scope.

(** Exhaustive check of [n] consecutive integers from [lo]. *)
Fixpoint forallZ (lo : Z) (n : nat) (p : Z -> bool) : bool :=
  match n with O => true | S k => if p lo then forallZ (lo + 1) k p else false end.

Lemma forallZ_spec : forall n lo p, forallZ lo n p = true ->
  forall z, lo <= z < lo + Z.of_nat n -> p z = true.
Proof.
  induction n as [|n IH]; intros lo p H z Hz; [lia|].
  cbn [forallZ] in H. destruct (p lo) eqn:E; [|discriminate].
  destruct (Z.eq_dec z lo) as [->|]; [exact E|].
  apply (IH (lo + 1) p H). lia.
Qed.

Lemma forallZ_range lo len p : forallZ lo (Z.to_nat len) p = true ->
  forall z, lo <= z < lo + len -> p z = true.
Proof.
  intros H z Hz. apply (forallZ_spec _ _ _ H). lia.
Qed.

Fixpoint dash_freeb (s : string) : bool :=
  match s with
  | EmptyString => true
  | String c s' => negb (Ascii.eqb c "-") && dash_freeb s'
  end.
Lemma dash_freeb_ok s : dash_freeb s = true -> dash_free s.
Proof.
  induction s as [|c s IH]; cbn [dash_freeb dash_free]; intros H; [exact I|].
  apply andb_prop in H as [H1 H2]. split; [|auto].
  intros ->. discriminate H1.
Qed.

Definition field_ok (w : nat) (z : Z) : bool :=
  dash_freeb (fmt_pad w z) && match parse_i32 (fmt_pad w z) with Some z' => z' =? z | None => false end.

Lemma years_ok : forallZ 1968 (Z.to_nat 201) (field_ok 4) = true.
Proof. vm_cast_no_check (eq_refl true). Qed.

Lemma days_ok : forallZ 1 (Z.to_nat 31) (field_ok 2) = true.
Proof. vm_cast_no_check (eq_refl true). Qed.
