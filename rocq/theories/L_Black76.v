From Coq Require Import ZArith Reals Lra.
From Verif Require Import Num L_Num M_Black76 S_Math L_Normal.
Open Scope R_scope.

Definition dplus (f k s : R) : R := ln (f / k) / s + / 2 * s.
Definition dminus (f k s : R) : R := dplus f k s - s.

Lemma half : nlit 1 2 = / 2 :> R.
Proof. unfold nlit. rnum. cbn. lra. Qed.

Lemma call_eq cdf df f k s : call_price cdf df f k s = df * (cdf (dplus f k s) * f - cdf (dminus f k s) * k).
Proof. unfold call_price, d_plus_minus, dminus, dplus. rewrite half. reflexivity. Qed.
Lemma put_eq cdf df f k s : put_price cdf df f k s = df * (cdf (- dminus f k s) * k - cdf (- dplus f k s) * f).
Proof. unfold put_price, d_plus_minus, dminus, dplus. rewrite half. reflexivity. Qed.

Section Any.
  Variable N : R -> R.

  Lemma parity df f k s : (forall x, N (- x) = 1 - N x) -> call_price N df f k s - put_price N df f k s = df * (f - k).
  Proof. intros S. rewrite call_eq, put_eq, !S. ring. Qed.

  Lemma scaling c df f k s : c <> 0 -> k <> 0 ->
    call_price N df (c * f) (c * k) s = c * call_price N df f k s /\ put_price N df (c * f) (c * k) s = c * put_price N df f k s.
  Proof.
    intros Hc Hk. rewrite !call_eq, !put_eq. unfold dminus, dplus.
    replace (c * f / (c * k)) with (f / k) by (field; tauto). split; ring.
  Qed.

  Lemma df_scaling c df f k s :
    call_price N (c * df) f k s = c * call_price N df f k s /\ put_price N (c * df) f k s = c * put_price N df f k s.
  Proof. rewrite !call_eq, !put_eq. split; ring. Qed.

  Lemma upper_bounds df f k s : (forall x, 0 <= N x <= 1) -> 0 <= df -> 0 <= f -> 0 <= k ->
    call_price N df f k s <= df * f /\ put_price N df f k s <= df * k.
  Proof.
    intros B Hd Hf Hk. rewrite call_eq, put_eq.
    pose proof (B (dplus f k s)). pose proof (B (dminus f k s)). pose proof (B (- dplus f k s)). pose proof (B (- dminus f k s)).
    split; apply Rmult_le_compat_l; nra.
  Qed.
End Any.

(** Put = call with the forward and the strike exchanged. *)
Lemma ln_swap f k : 0 < f -> 0 < k -> ln (k / f) = - ln (f / k).
Proof.
  intros Hf Hk. replace (k / f) with (/ (f / k)) by (field; lra). apply ln_Rinv. now apply Rdiv_lt_0_compat.
Qed.

Lemma put_is_call N df f k s : 0 < f -> 0 < k -> 0 < s -> put_price N df f k s = call_price N df k f s.
Proof.
  intros Hf Hk Hs. rewrite put_eq, call_eq. unfold dminus, dplus. rewrite (ln_swap f k Hf Hk).
  assert (E1 : - (ln (f / k) / s + / 2 * s - s) = - ln (f / k) / s + / 2 * s) by (field; lra).
  assert (E2 : - (ln (f / k) / s + / 2 * s) = - ln (f / k) / s + / 2 * s - s) by (field; lra).
  rewrite E1, E2. reflexivity.
Qed.

Section Normal.
  Variable N : R -> R.
  Hypothesis HN : normal_cdf N.

  (** f bell(t + s) = k bell(t) exp(m - ts - s^2/2). *)
  Lemma bell_shift f k t s : 0 < f -> 0 < k -> f * bell (t + s) = k * bell t * exp (ln (f / k) - t * s - s * s / 2).
  Proof.
    intros Hf Hk. unfold bell. rewrite Rmult_assoc, <- exp_plus.
    replace (- (t * t / 2) + (ln (f / k) - t * s - s * s / 2)) with (- ((t + s) * (t + s) / 2) + ln (f / k)) by field.
    rewrite exp_plus, exp_ln by now apply Rdiv_lt_0_compat. field. lra.
  Qed.

  Lemma bell_dplus f k s : 0 < f -> 0 < k -> 0 < s -> f * bell (dplus f k s) = k * bell (dminus f k s).
  Proof.
    intros Hf Hk Hs. replace (dplus f k s) with (dminus f k s + s) by (unfold dminus; ring).
    rewrite (bell_shift f k) by assumption.
    replace (ln (f / k) - dminus f k s * s - s * s / 2) with 0 by (unfold dminus, dplus; field; lra).
    rewrite exp_0. ring.
  Qed.

  Lemma call_positive f k s : 0 < f -> 0 < k -> 0 < s -> 0 < N (dplus f k s) * f - N (dminus f k s) * k.
  Proof.
    intros Hf Hk Hs. destruct (nc_density N HN) as (c & Hc & D).
    set (g := fun t => N (t + s) * f - N t * k). set (d := dminus f k s).
    set (g' := fun t => c * bell (t + s) * 1 * f - c * bell t * k).
    assert (Dg : forall t, derivable_pt_lim g t (g' t)).
    { intros t. unfold g, g'. apply derivable_pt_lim_minus.
      - apply (derivable_pt_lim_ext (fun t => f * N (t + s))); [intros; ring|].
        rewrite (Rmult_comm _ f). apply (derivable_pt_lim_scal (fun t => N (t + s))).
        apply (derivable_pt_lim_comp (fun t => t + s) N); [|apply D].
        replace 1 with (1 + 0) by ring. apply derivable_pt_lim_plus; [apply derivable_pt_lim_id|apply derivable_pt_lim_const].
      - apply (derivable_pt_lim_ext (fun t => k * N t)); [intros; ring|].
        rewrite (Rmult_comm _ k). apply derivable_pt_lim_scal. apply D. }
    assert (Pg : forall t, t < d -> 0 < g' t).
    { intros t Ht. unfold g'. replace (c * bell (t + s) * 1 * f - c * bell t * k) with (c * (f * bell (t + s) - k * bell t)) by ring.
      apply Rmult_lt_0_compat; [exact Hc|]. rewrite (bell_shift f k) by assumption.
      assert (1 < exp (ln (f / k) - t * s - s * s / 2)).
      { rewrite <- exp_0. apply exp_increasing. unfold d, dminus, dplus in Ht.
        assert ((t - (ln (f / k) / s + / 2 * s - s)) * s < 0) by nra.
        replace (ln (f / k) - t * s - s * s / 2) with (- ((t - (ln (f / k) / s + / 2 * s - s)) * s)) by (field; lra). lra. }
      assert (0 < k * bell t) by (apply Rmult_lt_0_compat; [exact Hk|apply bell_pos]). nra. }
    assert (Ig : forall x y, x < y -> y <= d -> g x < g y).
    { intros x y L Ly. destruct (MVT_cor2 g g' x y L) as (z & E & Z1 & Z2); [intros; apply Dg|].
      specialize (Pg z ltac:(lra)). assert (0 < g' z * (y - x)) by (apply Rmult_lt_0_compat; lra). lra. }
    replace (dplus f k s) with (d + s) by (unfold d, dminus; ring).
    change (0 < g d). pose proof (Ig (d - 1) d ltac:(lra) ltac:(lra)) as I1.
    destruct (Rle_lt_dec 0 (g (d - 1))) as [H|H]; [lra|exfalso].
    destruct (nc_tail N HN (- g (d - 1) / k)) as (M & T). { apply Rdiv_lt_0_compat; lra. }
    set (z := Rmin M (d - 2)). assert (Z1 : z <= M) by apply Rmin_l. assert (Z2 : z <= d - 2) by apply Rmin_r.
    pose proof (Ig z (d - 1) ltac:(lra) ltac:(lra)) as I2. specialize (T z Z1).
    pose proof (cdf_pos N HN z) as P1. pose proof (cdf_pos N HN (z + s)) as P2.
    rewrite Rabs_right in T by lra. assert (N z * k < - g (d - 1)).
    { apply (Rmult_lt_compat_r k) in T; [|exact Hk]. replace (- g (d - 1) / k * k) with (- g (d - 1)) in T by (field; lra). exact T. }
    assert (0 < N (z + s) * f) by (apply Rmult_lt_0_compat; assumption).
    unfold g in I2 at 1. lra.
  Qed.

  Lemma call_above_intrinsic df f k s : 0 < df -> 0 < f -> 0 < k -> 0 < s ->
    Rmax 0 (df * (f - k)) < call_price N df f k s /\ Rmax 0 (df * (k - f)) < put_price N df f k s.
  Proof.
    intros Hd Hf Hk Hs.
    assert (C : forall f k, 0 < f -> 0 < k -> 0 < call_price N df f k s).
    { intros. rewrite call_eq. apply Rmult_lt_0_compat; [exact Hd|]. now apply call_positive. }
    pose proof (C f k Hf Hk) as C1. pose proof (C k f Hk Hf) as C2. rewrite <- put_is_call in C2 by assumption.
    pose proof (parity N df f k s (nc_symmetric N HN)).
    split; unfold Rmax; destruct Rle_dec; lra.
  Qed.

  Lemma call_below df f k s : 0 < df -> 0 < f -> 0 < k -> 0 < s ->
    call_price N df f k s < df * f /\ put_price N df f k s < df * k.
  Proof.
    intros Hd Hf Hk Hs. rewrite call_eq, put_eq.
    pose proof (cdf_pos N HN (dplus f k s)). pose proof (cdf_pos N HN (dminus f k s)).
    pose proof (cdf_pos N HN (- dplus f k s)). pose proof (cdf_pos N HN (- dminus f k s)).
    pose proof (cdf_lt_1 N HN (dplus f k s)). pose proof (cdf_lt_1 N HN (- dminus f k s)).
    split; apply Rmult_lt_compat_l; nra.
  Qed.

  (** The chain rule for the undiscounted call along any path of (f, k, s). *)
  Lemma call_chain c df f k s x f' k' d' : (forall x, derivable_pt_lim N x (c * bell x)) ->
    0 < f x -> 0 < k x -> 0 < s x ->
    forall s', derivable_pt_lim f x f' -> derivable_pt_lim k x k' -> derivable_pt_lim s x s' ->
    derivable_pt_lim (fun x => dplus (f x) (k x) (s x)) x d' ->
    derivable_pt_lim (fun x => call_price N df (f x) (k x) (s x)) x
      (df * (N (dplus (f x) (k x) (s x)) * f' - N (dminus (f x) (k x) (s x)) * k' + c * bell (dplus (f x) (k x) (s x)) * f x * s')).
  Proof.
    intros D Pf Pk Ps s' Df Dk Ds Dd.
    apply (derivable_pt_lim_ext (fun x => df * (N (dplus (f x) (k x) (s x)) * f x - N (dminus (f x) (k x) (s x)) * k x))).
    { intros. now rewrite call_eq. }
    apply (derivable_pt_lim_scal (fun x => N (dplus (f x) (k x) (s x)) * f x - N (dminus (f x) (k x) (s x)) * k x)).
    set (dp := dplus (f x) (k x) (s x)). set (dm := dminus (f x) (k x) (s x)).
    assert (D1 : derivable_pt_lim (fun x => N (dplus (f x) (k x) (s x))) x (c * bell dp * d')).
    { apply (derivable_pt_lim_comp (fun x => dplus (f x) (k x) (s x)) N); [exact Dd|apply D]. }
    assert (D2 : derivable_pt_lim (fun x => N (dminus (f x) (k x) (s x))) x (c * bell dm * (d' - s'))).
    { apply (derivable_pt_lim_comp (fun x => dminus (f x) (k x) (s x)) N); [|apply D].
      unfold dminus. apply (derivable_pt_lim_minus (fun x => dplus (f x) (k x) (s x)) s); assumption. }
    assert (E : N dp * f' - N dm * k' + c * bell dp * f x * s' =
                (c * bell dp * d' * f x + N dp * f') - (c * bell dm * (d' - s') * k x + N dm * k')).
    { pose proof (bell_dplus (f x) (k x) (s x) Pf Pk Ps) as B. fold dp dm in B.
      replace (c * bell dm * (d' - s') * k x) with (c * (d' - s') * (k x * bell dm)) by ring. rewrite <- B. ring. }
    rewrite E.
    apply (derivable_pt_lim_minus (fun x => N (dplus (f x) (k x) (s x)) * f x) (fun x => N (dminus (f x) (k x) (s x)) * k x)).
    - apply (derivable_pt_lim_mult (fun x => N (dplus (f x) (k x) (s x))) f); assumption.
    - apply (derivable_pt_lim_mult (fun x => N (dminus (f x) (k x) (s x))) k); assumption.
  Qed.


  Lemma dplus_in_s f k s : 0 < s -> exists d, derivable_pt_lim (fun s => dplus f k s) s d.
  Proof.
    intros Hs. eexists. unfold dplus.
    apply (derivable_pt_lim_plus (fun s => ln (f / k) / s) (fun s => / 2 * s)).
    - apply (derivable_pt_lim_div (fun _ => ln (f / k)) id); [apply derivable_pt_lim_const|apply derivable_pt_lim_id|unfold id; lra].
    - apply (derivable_pt_lim_scal id). apply derivable_pt_lim_id.
  Qed.

  Lemma dplus_in_f f k s : 0 < f -> 0 < k -> exists d, derivable_pt_lim (fun f => dplus f k s) f d.
  Proof.
    intros Hf Hk. eexists. unfold dplus.
    apply (derivable_pt_lim_plus (fun f => ln (f / k) / s) (fun _ => / 2 * s)); [|apply derivable_pt_lim_const].
    apply (derivable_pt_lim_ext (fun f => / s * ln (f * / k))); [intros; unfold Rdiv; ring|].
    apply (derivable_pt_lim_scal (fun f => ln (f * / k))).
    apply (derivable_pt_lim_comp (fun f => f * / k) ln).
    - apply (derivable_pt_lim_mult id (fun _ => / k)); [apply derivable_pt_lim_id|apply derivable_pt_lim_const].
    - apply derivable_pt_lim_ln. apply Rmult_lt_0_compat; [exact Hf|now apply Rinv_0_lt_compat].
  Qed.

  Lemma dplus_in_k f k s : 0 < f -> 0 < k -> exists d, derivable_pt_lim (fun k => dplus f k s) k d.
  Proof.
    intros Hf Hk. eexists. unfold dplus.
    apply (derivable_pt_lim_plus (fun k => ln (f / k) / s) (fun _ => / 2 * s)); [|apply derivable_pt_lim_const].
    apply (derivable_pt_lim_ext (fun k => / s * ln (f / k))); [intros; unfold Rdiv; ring|].
    apply (derivable_pt_lim_scal (fun k => ln (f / k))).
    apply (derivable_pt_lim_comp (fun k => f / k) ln).
    - apply (derivable_pt_lim_div (fun _ => f) id); [apply derivable_pt_lim_const|apply derivable_pt_lim_id|unfold id; lra].
    - apply derivable_pt_lim_ln. now apply Rdiv_lt_0_compat.
  Qed.

  (** The sensitivities. *)
  Lemma call_sensitivities df f k s : 0 < f -> 0 < k -> 0 < s ->
    derivable_pt_lim (fun f => call_price N df f k s) f (df * N (dplus f k s)) /\
    derivable_pt_lim (fun k => call_price N df f k s) k (- (df * N (dminus f k s))) /\
    exists v, 0 < v /\ derivable_pt_lim (fun s => call_price N df f k s) s (df * v).
  Proof.
    intros Hf Hk Hs. destruct (nc_density N HN) as (c & Hc & D). split; [|split].
    - destruct (dplus_in_f f k s Hf Hk) as (d & Hd).
      pose proof (call_chain c df (fun f => f) (fun _ => k) (fun _ => s) f 1 0 d D Hf Hk Hs 0) as C. cbn beta in C.
      replace (df * N (dplus f k s)) with (df * (N (dplus f k s) * 1 - N (dminus f k s) * 0 + c * bell (dplus f k s) * f * 0)) by ring.
      apply C; [apply derivable_pt_lim_id|apply derivable_pt_lim_const|apply derivable_pt_lim_const|exact Hd].
    - destruct (dplus_in_k f k s Hf Hk) as (d & Hd).
      pose proof (call_chain c df (fun _ => f) (fun k => k) (fun _ => s) k 0 1 d D Hf Hk Hs 0) as C. cbn beta in C.
      replace (- (df * N (dminus f k s))) with (df * (N (dplus f k s) * 0 - N (dminus f k s) * 1 + c * bell (dplus f k s) * f * 0)) by ring.
      apply C; [apply derivable_pt_lim_const|apply derivable_pt_lim_id|apply derivable_pt_lim_const|exact Hd].
    - exists (c * bell (dplus f k s) * f). split.
      { apply Rmult_lt_0_compat; [|exact Hf]. apply Rmult_lt_0_compat; [exact Hc|apply bell_pos]. }
      destruct (dplus_in_s f k s Hs) as (d & Hd).
      pose proof (call_chain c df (fun _ => f) (fun _ => k) (fun s => s) s 0 0 d D Hf Hk Hs 1) as C. cbn beta in C.
      replace (df * (c * bell (dplus f k s) * f)) with (df * (N (dplus f k s) * 0 - N (dminus f k s) * 0 + c * bell (dplus f k s) * f * 1)) by ring.
      apply C; [apply derivable_pt_lim_const|apply derivable_pt_lim_const|apply derivable_pt_lim_id|exact Hd].
  Qed.

  Lemma call_increasing_in_s df f k s1 s2 : 0 < df -> 0 < f -> 0 < k -> 0 < s1 < s2 ->
    call_price N df f k s1 < call_price N df f k s2.
  Proof.
    intros Hd Hf Hk (H1 & H2). destruct (nc_density N HN) as (c & Hc & D).
    destruct (MVT_cor2 (fun s => call_price N df f k s) (fun s => df * (c * bell (dplus f k s) * f)) s1 s2 H2) as (z & E & Z1 & Z2).
    - intros z (Z1 & Z2). destruct (dplus_in_s f k z ltac:(lra)) as (d & Dd).
      pose proof (call_chain c df (fun _ => f) (fun _ => k) (fun s => s) z 0 0 d D Hf Hk ltac:(lra) 1) as C. cbn beta in C.
      replace (df * (c * bell (dplus f k z) * f)) with (df * (N (dplus f k z) * 0 - N (dminus f k z) * 0 + c * bell (dplus f k z) * f * 1)) by ring.
      apply C; [apply derivable_pt_lim_const|apply derivable_pt_lim_const|apply derivable_pt_lim_id|exact Dd].
    - cbn beta in E. assert (0 < df * (c * bell (dplus f k z) * f) * (s2 - s1)).
      { pose proof (bell_pos (dplus f k z)). repeat apply Rmult_lt_0_compat; lra. }
      lra.
  Qed.

  Lemma put_increasing_in_s df f k s1 s2 : 0 < df -> 0 < f -> 0 < k -> 0 < s1 < s2 ->
    put_price N df f k s1 < put_price N df f k s2.
  Proof. intros. rewrite !put_is_call by lra. now apply call_increasing_in_s. Qed.

  Lemma call_decreasing_in_k df f k1 k2 s : 0 < df -> 0 < f -> 0 < k1 < k2 -> 0 < s ->
    call_price N df f k2 s < call_price N df f k1 s /\
    call_price N df f k1 s - call_price N df f k2 s < df * (k2 - k1).
  Proof.
    intros Hd Hf (H1 & H2) Hs.
    destruct (MVT_cor2 (fun k => call_price N df f k s) (fun k => - (df * N (dminus f k s))) k1 k2 H2) as (z & E & Z1 & Z2).
    - intros z (Z1 & Z2). apply (call_sensitivities df f z s); lra.
    - cbn beta in E. pose proof (cdf_pos N HN (dminus f z s)). pose proof (cdf_lt_1 N HN (dminus f z s)).
      assert (0 < df * (k2 - k1)) by (apply Rmult_lt_0_compat; lra).
      split; nra.
  Qed.

  Lemma call_increasing_in_f df f1 f2 k s : 0 < df -> 0 < f1 < f2 -> 0 < k -> 0 < s ->
    call_price N df f1 k s < call_price N df f2 k s /\
    call_price N df f2 k s - call_price N df f1 k s < df * (f2 - f1).
  Proof.
    intros Hd (H1 & H2) Hk Hs.
    destruct (MVT_cor2 (fun f => call_price N df f k s) (fun f => df * N (dplus f k s)) f1 f2 H2) as (z & E & Z1 & Z2).
    - intros z (Z1 & Z2). apply (call_sensitivities df z k s); lra.
    - cbn beta in E. pose proof (cdf_pos N HN (dplus z k s)). pose proof (cdf_lt_1 N HN (dplus z k s)).
      assert (0 < df * (f2 - f1)) by (apply Rmult_lt_0_compat; lra).
      split; nra.
  Qed.

  (** Butterflies are worth something: the call is strictly convex in the strike. *)
  Lemma dminus_decreasing f k1 k2 s : 0 < f -> 0 < k1 < k2 -> 0 < s -> dminus f k2 s < dminus f k1 s.
  Proof.
    intros Hf (H1 & H2) Hs. unfold dminus, dplus.
    assert (ln (f / k2) < ln (f / k1)).
    { apply ln_increasing; [apply Rdiv_lt_0_compat; lra|]. apply Rmult_lt_compat_l; [exact Hf|]. apply Rinv_lt_contravar; nra. }
    assert (ln (f / k2) / s < ln (f / k1) / s) by (apply Rmult_lt_compat_r; [now apply Rinv_0_lt_compat|assumption]).
    lra.
  Qed.

  Lemma call_convex_in_k df f k1 k k2 s : 0 < df -> 0 < f -> 0 < k1 -> k1 < k < k2 -> 0 < s ->
    (k2 - k1) * call_price N df f k s < (k2 - k) * call_price N df f k1 s + (k - k1) * call_price N df f k2 s.
  Proof.
    intros Hd Hf H1 (H2 & H3) Hs.
    set (C := fun k => call_price N df f k s).
    destruct (MVT_cor2 C (fun k => - (df * N (dminus f k s))) k1 k H2) as (y & Ey & Y1 & Y2).
    { intros z (Z1 & Z2). apply (call_sensitivities df f z s); lra. }
    destruct (MVT_cor2 C (fun k => - (df * N (dminus f k s))) k k2 H3) as (z & Ez & Z1 & Z2).
    { intros x (X1 & X2). apply (call_sensitivities df f x s); lra. }
    cbn beta in Ey, Ez. fold (C k) (C k1) (C k2).
    pose proof (cdf_increasing N HN _ _ (dminus_decreasing f y z s Hf ltac:(lra) Hs)) as L.
    set (ny := N (dminus f y s)) in *. set (nz := N (dminus f z s)) in *.
    replace (C k2) with (C k + - (df * nz) * (k2 - k)) by lra.
    replace (C k1) with (C k - - (df * ny) * (k - k1)) by lra.
    assert (0 < (k - k1) * (k2 - k) * (df * (ny - nz))) by (repeat apply Rmult_lt_0_compat; lra).
    nra.
  Qed.
End Normal.
