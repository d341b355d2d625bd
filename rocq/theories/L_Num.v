(** Reasoning about the real instance of the number interface. *)
From Coq Require Import ZArith Reals Bool Lra Lia.
From Verif Require Import Prelude Num.
Open Scope R_scope.

Lemma Rltb_iff x y : Rltb x y = true <-> x < y.
Proof. unfold Rltb. destruct (Rlt_dec x y); split; intros; try easy; contradiction. Qed.
Lemma Rltb_false x y : Rltb x y = false <-> y <= x.
Proof. unfold Rltb. destruct (Rlt_dec x y); split; intros; try easy; lra. Qed.
Lemma Rleb_iff x y : Rleb x y = true <-> x <= y.
Proof. unfold Rleb. destruct (Rle_dec x y); split; intros; try easy; contradiction. Qed.
Lemma Rleb_false x y : Rleb x y = false <-> y < x.
Proof. unfold Rleb. destruct (Rle_dec x y); split; intros; try easy; lra. Qed.
Lemma Reqb_iff x y : Reqb x y = true <-> x = y.
Proof. unfold Reqb. destruct (Req_EM_T x y); split; intros; try easy; contradiction. Qed.
Lemma Reqb_false x y : Reqb x y = false <-> x <> y.
Proof. unfold Reqb. destruct (Req_EM_T x y); split; intros; try easy; contradiction. Qed.

Lemma Rltb_spec x y : BoolSpec (x < y) (y <= x) (Rltb x y).
Proof. destruct (Rltb x y) eqn:E; constructor; [now apply Rltb_iff|now apply Rltb_false]. Qed.
Lemma Rleb_spec x y : BoolSpec (x <= y) (y < x) (Rleb x y).
Proof. destruct (Rleb x y) eqn:E; constructor; [now apply Rleb_iff|now apply Rleb_false]. Qed.
Lemma Reqb_spec x y : BoolSpec (x = y) (x <> y) (Reqb x y).
Proof. destruct (Reqb x y) eqn:E; constructor; [now apply Reqb_iff|now apply Reqb_false]. Qed.

Lemma Reqb_refl x : Reqb x x = true.
Proof. now apply Reqb_iff. Qed.
Lemma Rleb_refl x : Rleb x x = true.
Proof. apply Rleb_iff. lra. Qed.
Lemma Rltb_irrefl x : Rltb x x = false.
Proof. apply Rltb_false. lra. Qed.

(** Show the operations of the real instance. *)
Ltac rnum := unfold n0, n1, nlit, nmax in *; cbn [nadd nsub nmul ndiv nopp nabs nsqrt nltb nleb neqb nofZ ntrunc nround RNum nexp nln RTrans] in *.

Ltac rcase :=
  match goal with
  | |- context [Rltb ?a ?b] => destruct (Rltb_spec a b)
  | |- context [Rleb ?a ?b] => destruct (Rleb_spec a b)
  | |- context [Reqb ?a ?b] => destruct (Reqb_spec a b)
  end.

Lemma Rtrunc_nonneg x : 0 <= x -> IZR (Rtrunc x) <= x < IZR (Rtrunc x) + 1.
Proof.
  intros H. unfold Rtrunc. destruct (Rle_dec 0 x); [|contradiction].
  destruct (base_Int_part x). lra.
Qed.

Lemma bind_ok {A B} (r : res A) (f : A -> res B) b : bind r f = Ok b -> exists a, r = Ok a /\ f a = Ok b.
Proof. destruct r as [a| |]; cbn; intros H; try discriminate. eauto. Qed.

(** Take an [Ok] hypothesis apart, one bind at a time. *)
Ltac inv_bind H :=
  match type of H with
  | bind ?r ?f = Ok ?b =>
      let a := fresh "a" in let E := fresh "E" in
      apply bind_ok in H; destruct H as (a & E & H)
  end.

Lemma assert_ok c m u : assert_ c m = Ok u -> c = true.
Proof. destruct c; [reflexivity|discriminate]. Qed.
Lemma guard_ok c m u : guard c m = Ok u -> c = true.
Proof. destruct c; [reflexivity|discriminate]. Qed.
