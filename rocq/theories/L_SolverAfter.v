(** What a search for an implied volatility leaves behind, however it ends. *)
From Coq Require Import ZArith List String Bool.
From Verif Require Import Prelude Num M_Brent M_Dates M_Vol M_Instruments M_Deps M_Risk M_Reports M_Solver S_Risk S_Reports S_Solver L_Solver.
Import ListNotations.
Open Scope list_scope.

Section Keeps.
  Context {T : Type} {N : Num T} {W : Type}.
  Variable step : T -> W -> res T * W.
  Variable inv : W -> Prop.
  Hypothesis Keep : forall x w y w', inv w -> step x w = (Ok y, w') -> inv w'.

  (** The state at the end is one that the function left on success, or the search ended with its failure. *)
  Let ends (r : res T) (w' : W) : Prop := inv w' \/ exists x q, inv q /\ step x q = (r, w') /\ is_ok r = false.

  Lemma loop_keeps tol n : forall s w r w', inv w -> brent_loop W step tol n s w = (r, w') -> ends r w'.
  Proof.
    induction n as [|n IH]; intros s w r w' I; cbn [brent_loop]; [intros E; injection E as _ <-; now left|].
    destruct (_ || _); [intros E; injection E as _ <-; now left|]. destruct (brent_de _ _) as [d e].
    destruct (step (brent_trial (brent_tol tol (brent_prepare s)) d (brent_prepare s)) w) as [[y|m|m] w1] eqn:Q.
    - apply IH. exact (Keep _ _ _ _ I Q).
    - intros E. injection E as <- <-. right. eauto.
    - intros E. injection E as <- <-. right. eauto.
  Qed.

  Lemma zbrent_keeps nan x1 x2 tol n w r w' : inv w -> zbrent W step nan x1 x2 tol n w = (r, w') -> ends r w'.
  Proof.
    unfold zbrent. intros I. destruct (step x1 w) as [[y|m|m] w1] eqn:Q1; [|intros E; injection E as <- <-; right; eauto..]. pose proof (Keep _ _ _ _ I Q1) as I1.
    destruct (step x2 w1) as [[z|m|m] w2] eqn:Q2; [|intros E; injection E as <- <-; right; eauto..]. pose proof (Keep _ _ _ _ I1 Q2) as I2.
    destruct (same_sign y z); [intros E; injection E as _ <-; now left|]. now apply loop_keeps.
  Qed.
End Keeps.

Lemma solve_leaves {T} {N : Num T} {TR : Trans T} {P} (nan : T) (ops : pricer_ops T P) : replaceable ops -> forall s target lo hi p r p',
  solve nan ops s target lo hi p = (r, p') ->
  p' = p \/ exists id vol, depends_on_vols ops p [id] /\
    (with_vol ops id vol p p' \/
     exists q f c, (q = p \/ exists w, with_vol ops id w p q) /\ op_bump ops (BVol id (ReplaceVol vol)) q None = (f, p', c) /\
       (exists m, f = Err m /\ r = Err m \/ f = Panic m /\ r = Panic m)).
Proof.
  intros RP s target lo hi p r p' E. unfold solve in E. destruct (single_vol_id ops p) as [id|m|m] eqn:I; [|injection E as _ <-; now left..].
  apply single_spec in I. set (inv := fun q => q = p \/ exists w, with_vol ops id w p q).
  assert (Step : forall x q, inv q -> forall f q' c, op_bump ops (BVol id (ReplaceVol x)) q None = (Ok f, q', c) -> with_vol ops id x p q').
  { intros x q [->|(w & r0 & s0 & B)] f q' c E1; [red; eauto|]. destruct (RP id w x p q r0 s0 B) as (Q1 & Q2). rewrite E1 in Q1, Q2. cbn [fst] in Q1.
    specialize (Q2 ltac:(rewrite <- Q1; reflexivity)). exists f, c. now rewrite <- Q2. }
  apply (zbrent_keeps _ inv) in E.
  - destruct E as [[->|(w & H)]|(x & q & Iq & E & F)]; [now left|right; eauto 10|]. right. exists id, x. split; [exact I|]. revert E. unfold price_given_vol.
    destruct (op_bump ops (BVol id (ReplaceVol x)) q None) as [[f q'] c] eqn:B. destruct f as [f|m|m]; intros E.
    + injection E as <- <-. left. exact (Step x q Iq f q' c B).
    + cbn in E. injection E as <- <-. right. exists q, (Err m), c. split; [exact Iq|]. split; [exact B|]. eauto.
    + cbn in E. injection E as <- <-. right. exists q, (Panic m), c. split; [exact Iq|]. split; [exact B|]. eauto.
  - intros x w y w' Iw. unfold price_given_vol. destruct (op_bump ops (BVol id (ReplaceVol x)) w None) as [[f q'] c] eqn:B. destruct f as [f|m|m]; [|discriminate..].
    intros E1. injection E1 as _ <-. right. exists x. exact (Step x w Iw f q' c B).
  - now left.
Qed.
