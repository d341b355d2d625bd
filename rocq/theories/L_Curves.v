From Coq Require Import ZArith List String Bool Lia Reals Lra.
From Verif Require Import Prelude Num L_Num M_Dates M_Interp M_Curves S_Data.
Import ListNotations.
Open Scope list_scope.
Open Scope R_scope.

Section Curves.
  Variable nan : R.

  Lemma df_ok c a b x : df nan c a b = Ok x -> a <> b ->
    exists u v, rt nan c a = Ok u /\ rt nan c b = Ok v /\ x = exp (v - u).
  Proof.
    unfold df. intros E N. destruct (Z.eqb_spec a b); [contradiction|].
    inv_bind E. inv_bind E. inversion E. eauto.
  Qed.

  Lemma df_of_rt c a b u v : rt nan c a = Ok u -> rt nan c b = Ok v -> df nan c a b = Ok (exp (v - u)).
  Proof.
    intros A B. unfold df. destruct (Z.eqb_spec a b) as [->|N].
    - rewrite A in B. inversion B. subst. rewrite Rminus_diag_eq by reflexivity. now rewrite exp_0.
    - rewrite A, B. reflexivity.
  Qed.

  Lemma df_same c a : df nan c a a = Ok 1.
  Proof. unfold df. now rewrite Z.eqb_refl. Qed.

  Lemma df_positive c a b x : df nan c a b = Ok x -> 0 < x.
  Proof.
    intros E. destruct (Z.eq_dec a b) as [->|N].
    - rewrite df_same in E. inversion E. lra.
    - destruct (df_ok c a b x E N) as (u & v & _ & _ & ->). apply exp_pos.
  Qed.

  Lemma df_compose c d1 d2 d3 x y : df nan c d1 d2 = Ok x -> df nan c d2 d3 = Ok y -> df nan c d1 d3 = Ok (x * y).
  Proof.
    intros X Y. destruct (Z.eq_dec d1 d2) as [->|N1].
    - rewrite df_same in X. inversion X. rewrite Y. f_equal. ring.
    - destruct (Z.eq_dec d2 d3) as [->|N2].
      + rewrite df_same in Y. inversion Y. rewrite X. f_equal. ring.
      + destruct (df_ok _ _ _ _ X N1) as (u & v & U & V & ->).
        destruct (df_ok _ _ _ _ Y N2) as (v' & w & V' & W & ->).
        rewrite V in V'. inversion V'. subst v'.
        rewrite (df_of_rt c d1 d3 u w U W), <- exp_plus. do 2 f_equal. ring.
  Qed.

  Lemma df_inverse c d1 d2 x : df nan c d1 d2 = Ok x -> df nan c d2 d1 = Ok (/ x).
  Proof.
    intros X. destruct (Z.eq_dec d1 d2) as [->|N].
    - rewrite df_same in *. inversion X. f_equal. field.
    - destruct (df_ok _ _ _ _ X N) as (u & v & U & V & ->).
      rewrite (df_of_rt c d2 d1 v u V U). f_equal. rewrite <- exp_Ropp. f_equal. ring.
  Qed.

  Lemma df_reciprocal c a b u v : rt nan c a = Ok u -> rt nan c b = Ok v ->
    exists x, df nan c a b = Ok x /\ x * documented_df u v = 1.
  Proof.
    intros U V. exists (exp (v - u)). split; [now apply df_of_rt|]. unfold documented_df.
    rewrite !exp_Ropp. unfold Rminus. rewrite exp_plus, exp_Ropp.
    pose proof (exp_pos u). pose proof (exp_pos v). field. lra.
  Qed.

  Lemma rt_base_act365 b l : rt nan (RateCurveAct365 b l) b = Ok 0.
  Proof. unfold rt. cbn [r_and_t]. rewrite Z.sub_diag. cbn [Z.eqb bind]. f_equal. rnum. lra. Qed.

  Lemma df_above_one b l d x : (b < d)%Z -> rt nan (RateCurveAct365 b l) d = Ok x -> 0 < x ->
    exists y, df nan (RateCurveAct365 b l) b d = Ok y /\ 1 < y.
  Proof.
    intros H E P. exists (exp (x - 0)). split; [apply df_of_rt; [apply rt_base_act365|exact E]|].
    rewrite Rminus_0_r, <- exp_0. now apply exp_increasing.
  Qed.

  (** ** Times and bumps *)
  Lemma time_act365 base c d r t : interpolated_from base c -> r_and_t nan c d = Ok (r, t) -> t = years base d.
  Proof.
    unfold years. revert r t. induction c as [b|b l|c IH z|c IH z|c IH z]; intros r t I E; cbn in I, E; try contradiction.
    - subst b. destruct (Z.eqb_spec (d - base) 0) as [Z|Z].
      + inversion E. rewrite Z. rnum. lra.
      + inv_bind E. now inversion E.
    - inv_bind E. destruct a as (r0, t0). inversion E; subst. eauto.
    - inv_bind E. destruct a as (r0, t0). inversion E; subst. eauto.
    - inv_bind E. destruct a as (r0, t0). inversion E; subst. eauto.
  Qed.

  Lemma rt_split c d x : rt nan c d = Ok x -> exists r t, r_and_t nan c d = Ok (r, t) /\ x = r * t.
  Proof. unfold rt. intros E. inv_bind E. destruct a as (r, t). inversion E. eauto. Qed.
  Lemma rt_join c d r t : r_and_t nan c d = Ok (r, t) -> rt nan c d = Ok (r * t).
  Proof. unfold rt. now intros ->. Qed.

  Lemma cc_bump base c d b x : interpolated_from base c -> rt nan c d = Ok x ->
    rt nan (apply_yield (FlatContinuouslyCompounded b) c) d = Ok (x + b * years base d).
  Proof.
    intros I E. destruct (rt_split c d x E) as (r & t & Ert & ->).
    rewrite <- (time_act365 base c d r t I Ert). cbn [apply_yield]. unfold rt. cbn [r_and_t]. rewrite Ert. cbn [bind].
    f_equal. rnum. ring.
  Qed.

  Lemma cc_bump_zero c a b : df nan (apply_yield (FlatContinuouslyCompounded 0) c) a b = df nan c a b.
  Proof.
    assert (K : forall d, rt nan (apply_yield (FlatContinuouslyCompounded 0) c) d = rt nan c d).
    { intros d. unfold rt. cbn [apply_yield r_and_t]. destruct (r_and_t nan c d) as [(r, t)| |]; [|reflexivity|reflexivity].
      cbn [bind]. f_equal. rnum. ring. }
    unfold df. now rewrite !K.
  Qed.

  Lemma cc_bumps_add c b1 b2 d : rt nan (apply_yield (FlatContinuouslyCompounded b2) (apply_yield (FlatContinuouslyCompounded b1) c)) d
    = rt nan (apply_yield (FlatContinuouslyCompounded (b1 + b2)) c) d.
  Proof.
    unfold rt. cbn [apply_yield r_and_t]. destruct (r_and_t nan c d) as [(r, t)| |]; [|reflexivity|reflexivity].
    cbn [bind]. f_equal. rnum. ring.
  Qed.

  (** exp(x/t) is the growth over one year. *)
  Lemma annualised_bump base c d b x : interpolated_from base c -> rt nan c d = Ok x -> d <> base ->
    0 < exp (x / years base d) + b ->
    exists y, rt nan (apply_yield (FlatAnnualised b) c) d = Ok y /\
      exp (y / years base d) = exp (x / years base d) + b.
  Proof.
    intros I E N P. destruct (rt_split c d x E) as (r & t & Ert & ->).
    pose proof (time_act365 base c d r t I Ert) as Ht. rewrite <- Ht in P |- *.
    assert (T0 : t <> 0).
    { rewrite Ht. unfold years. intros Z.
      assert (IZR (d - base) = 0) by lra. apply eq_IZR_R0 in H. lia. }
    assert (Q : r * t / t = r) by (field; exact T0). rewrite Q in P |- *.
    exists (ln (exp r + b) * t). split.
    - cbn [apply_yield]. unfold rt. cbn [r_and_t]. now rewrite Ert.
    - replace (ln (exp r + b) * t / t) with (ln (exp r + b)) by (field; exact T0). now apply exp_ln.
  Qed.

  Lemma annualised_bump_zero c a b : df nan (apply_yield (FlatAnnualised 0) c) a b = df nan c a b.
  Proof.
    assert (K : forall d, rt nan (apply_yield (FlatAnnualised 0) c) d = rt nan c d).
    { intros d. unfold rt. cbn [apply_yield r_and_t]. destruct (r_and_t nan c d) as [(r, t)| |]; [|reflexivity|reflexivity].
      cbn [bind]. f_equal. rnum. rewrite Rplus_0_r, ln_exp. reflexivity. }
    unfold df. now rewrite !K.
  Qed.

  Lemma relative_bump c b d x : rt nan c d = Ok x -> rt nan (relative_bump_new c b) d = Ok (b * x).
  Proof.
    intros E. destruct (rt_split c d x E) as (r & t & Ert & ->). unfold rt, relative_bump_new. cbn [r_and_t].
    rewrite Ert. cbn [bind]. f_equal. rnum. ring.
  Qed.

  (** Failures are those of the curve below. *)
  Lemma bump_fails c b d x m : r_and_t nan c d = x -> x = Err m \/ x = Panic m ->
    r_and_t nan (apply_yield b c) d = x /\ r_and_t nan (relative_bump_new c nan) d = x.
  Proof. intros E [->| ->]; destruct b; cbn [apply_yield relative_bump_new r_and_t]; now rewrite E. Qed.

  (** Bumping a curve that is zero does nothing at all. *)
  Lemma zero_curve_bump base b d : rt nan (apply_yield b (ZeroRateCurve base)) d = Ok 0.
  Proof. destruct b; unfold rt; cbn [apply_yield r_and_t bind]; f_equal; rnum; ring. Qed.

  (** Concrete curve: 5% flat from day 100. *)
  Definition flat_curve : curve R := RateCurveAct365 100%Z (mkLinear Flat Flat [(100%Z, / 20); (200%Z, / 20)]).
End Curves.
