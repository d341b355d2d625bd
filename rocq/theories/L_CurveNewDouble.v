(** Rate curves made from quoted rates, on doubles. *)
From Coq Require Import ZArith List String Bool Lia Reals Lra.
From Coq.Floats Require Import SpecFloat.
From Flocq Require Import Core.
From Verif Require Import Prelude Num L_Num M_Dates M_Interp S_Interp S_Double L_Double L_InterpDouble M_Curves.
Import ListNotations.
Open Scope list_scope.

Notation quotes := (list (Z * F64)).

Section Doubles.
  Variable pts : quotes.
  Hypothesis D : forall p, In p pts -> i32 (fst p).

  Lemma made_double base l r c : act365_new (T := F64) base pts l r = Ok c <->
    pts <> [] /\ (forall p q, neighbours pts p q -> (fst p < fst q)%Z) /\ c = RateCurveAct365 base (mkLinear l r pts).
  Proof.
    unfold act365_new, date. split.
    - intros E. inv_bind E. injection E as <-.
      match goal with H : linear_new _ _ _ = Ok _ |- _ => apply (dates_new pts D) in H; destruct H as (A & B & ->) end. auto.
    - intros (A & B & ->). rewrite (proj2 (dates_new pts D l r (mkLinear l r pts))); auto.
  Qed.

  Lemma made_double_quoted (TR : Trans F64) nan base l r c d y : act365_new (T := F64) base pts l r = Ok c -> In (d, y) pts -> d <> base ->
    r_and_t nan c d = Ok (y, ndiv (nofZ (d - base)) (nofZ 365)).
  Proof.
    intros E I Nb. apply made_double in E. destruct E as (A & B & ->). cbn [r_and_t]. destruct (Z.eqb_spec (d - base) 0); [lia|].
    pose proof (dates_at pts D nan l r _ (proj2 (dates_new pts D l r _) (conj A (conj B eq_refl))) d y I) as H.
    assert (X : forall (x : res F64) (t : F64), x = Ok y -> (let* r := x in Ok (r, t)) = Ok (y, t)) by (intros x t ->; reflexivity).
    apply X. exact H.
  Qed.
End Doubles.

Lemma made_double_when (pts : quotes) base l r : (forall p, In p pts -> i32 (fst p)) ->
  (exists c, act365_new (T := F64) base pts l r = Ok c) <-> pts <> [] /\ forall p q, neighbours pts p q -> (fst p < fst q)%Z.
Proof.
  intros D. split.
  - intros [c E]. apply (made_double pts D) in E. tauto.
  - intros [A B]. eexists. apply (made_double pts D). auto.
Qed.
