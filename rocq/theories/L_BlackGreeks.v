(** Differences of Black's formula in the forward. *)
From Coq Require Import Reals Lra.
From Verif Require Import Prelude Num L_Num M_Instruments M_Black76 S_Math L_Normal L_Black76 L_PriceDouble S_Greeks.
Open Scope R_scope.

Definition black (pc : put_or_call) (N : R -> R) : R -> R -> R -> R -> R := match pc with Call => call_price N | Put => put_price N end.

Lemma d_one_dplus f k s : d_one f k s = dplus f k s.
Proof. unfold d_one, dplus. lra. Qed.

Lemma d_one_apart f g k s : 0 < f -> 0 < g -> 0 < k -> s <> 0 -> d_one f k s - d_one g k s = ln (f / g) / s.
Proof.
  intros F G K S. unfold d_one. unfold Rdiv. rewrite !ln_mult by (try apply Rinv_0_lt_compat; lra). rewrite !ln_Rinv by lra. lra.
Qed.

Lemma d_one_increasing f g k s : 0 < f < g -> 0 < k -> 0 < s -> d_one f k s < d_one g k s.
Proof.
  intros F K S. pose proof (d_one_apart g f k s ltac:(lra) ltac:(lra) K ltac:(lra)) as E.
  assert (0 < ln (g / f) / s); [|lra]. apply Rdiv_lt_0_compat; [|exact S]. rewrite <- ln_1. apply ln_increasing; [lra|].
  apply (Rmult_lt_reg_r f); [lra|]. unfold Rdiv. rewrite Rmult_assoc, Rinv_l by lra. lra.
Qed.

Section Normal.
  Variable N : R -> R.
  Hypothesis HN : normal_cdf N.

  Lemma call_mean D f g k s : 0 < f < g -> 0 < k -> 0 < s ->
    exists z, f < z < g /\ call_price N D g k s - call_price N D f k s = D * N (d_one z k s) * (g - f).
  Proof.
    intros [F G] K S. destruct (MVT_cor2 (fun f => call_price N D f k s) (fun f => D * N (dplus f k s)) f g G) as (z & E & Z).
    - intros z Z. apply (call_sensitivities N HN D z k s); lra.
    - exists z. split; [exact Z|]. rewrite d_one_dplus. exact E.
  Qed.

  Notation hedge := (hedge N).

  Lemma hedge_increasing pc x y : x < y -> hedge pc x < hedge pc y.
  Proof. intros L. pose proof (cdf_increasing N HN x y L). destruct pc; cbn [hedge]; lra. Qed.
  Lemma hedge_lipschitz pc x y : Rabs (hedge pc x - hedge pc y) <= Rabs (x - y).
  Proof. destruct pc; cbn [hedge]; [replace (N x - 1 - (N y - 1)) with (N x - N y) by lra|]; apply (cdf_lipschitz N HN). Qed.

  Lemma black_mean pc D f g k s : 0 < f < g -> 0 < k -> 0 < s ->
    exists z, f < z < g /\ black pc N D g k s - black pc N D f k s = D * hedge pc (d_one z k s) * (g - f).
  Proof.
    intros F K S. destruct (call_mean D f g k s F K S) as (z & Z & E). exists z. split; [exact Z|].
    pose proof (parity N D f k s (nc_symmetric N HN)). pose proof (parity N D g k s (nc_symmetric N HN)).
    destruct pc; cbn [black hedge]; lra.
  Qed.

  Lemma black_convex pc D f m g k s : 0 < D -> 0 < f < g -> m = (f + g) / 2 -> 0 < k -> 0 < s ->
    0 < black pc N D g k s + black pc N D f k s - 2 * black pc N D m k s.
  Proof.
    intros P F M K S. destruct (black_mean pc D f m k s ltac:(lra) K S) as (y & Y & Ey).
    destruct (black_mean pc D m g k s ltac:(lra) K S) as (z & Z & Ez).
    assert (L : hedge pc (d_one y k s) < hedge pc (d_one z k s)) by (apply hedge_increasing, d_one_increasing; lra).
    replace (g - m) with (m - f) in Ez by lra. assert (0 < D * (m - f)) by (apply Rmult_lt_0_compat; lra). nra.
  Qed.

  (** The hedge ratio between the ends is near that in the middle. *)
  Lemma hedge_near pc f m g z k s : 0 < f < g -> m = (f + g) / 2 -> f < z < g -> 0 < k -> 0 < s ->
    Rabs (hedge pc (d_one z k s) - hedge pc (d_one m k s)) <= (g - f) / (2 * f * s).
  Proof.
    intros F M Z K S. eapply Rle_trans; [apply hedge_lipschitz|]. rewrite d_one_apart by lra.
    unfold Rdiv at 1. rewrite Rabs_mult, (Rabs_right (/ s)) by (left; now apply Rinv_0_lt_compat).
    replace ((g - f) / (2 * f * s)) with ((g - f) / (2 * f) * / s) by (field; lra).
    apply Rmult_le_compat_r; [left; now apply Rinv_0_lt_compat|].
    assert (LN : forall x, 0 < x -> ln x <= x - 1) by (intros x X; pose proof (exp_ineq1_le (ln x)); rewrite exp_ln in *; lra).
    assert (Q : forall a b, 0 < a -> 0 < b -> ln (a / b) <= (a - b) / b).
    { intros a b A B. replace ((a - b) / b) with (a / b - 1) by (field; lra). apply LN, Rdiv_lt_0_compat; lra. }
    assert (H : forall a b, f <= a -> 0 < b -> b - a <= (g - f) / 2 -> ln (b / a) <= (g - f) / (2 * f)).
    { intros a b A B L. eapply Rle_trans; [apply Q; lra|]. replace ((g - f) / (2 * f)) with ((g - f) / 2 * / f) by (field; lra).
      assert (/ a <= / f) by (apply Rinv_le_contravar; lra). assert (0 < / a) by (apply Rinv_0_lt_compat; lra). unfold Rdiv.
      destruct (Rle_dec 0 (b - a)); [apply Rmult_le_compat; lra|]. nra. }
    apply Rabs_le. split.
    - assert (E : ln (z / m) = - ln (m / z)).
      { unfold Rdiv. rewrite !ln_mult by (try apply Rinv_0_lt_compat; lra). rewrite !ln_Rinv by lra. lra. }
      rewrite E. pose proof (H z m ltac:(lra) ltac:(lra) ltac:(lra)). lra.
    - apply H; lra.
  Qed.
End Normal.
