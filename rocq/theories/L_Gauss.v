(** Means of distribution functions and of payoffs over a normal draw. *)
From Coq Require Import List Reals Lra Lia Psatz.
From Verif Require Import S_Math S_Expectation L_Normal L_Black76 L_Expectation.
Import ListNotations.
Open Scope R_scope.

Lemma bell_le_1 x : bell x <= 1.
Proof. unfold bell. rewrite <- exp_0. destruct (Req_dec (- (x * x / 2)) 0) as [->|NE]; [lra|]. left. apply exp_increasing. nra. Qed.
Lemma bell_slope x : Rabs (- x * bell x) <= 1.
Proof.
  assert (Q : Rabs x <= exp (x * x / 2)).
  { pose proof (exp_ineq1_le (x * x / 2)). unfold Rabs. destruct Rcase_abs; nra. }
  rewrite Rabs_mult, Rabs_Ropp, (Rabs_right (bell x)) by (apply Rle_ge, Rlt_le, bell_pos).
  assert (B : bell x = / exp (x * x / 2)) by (unfold bell; now rewrite exp_Ropp). rewrite B.
  apply (Rmult_le_reg_r (exp (x * x / 2))); [apply exp_pos|]. rewrite Rmult_assoc, Rinv_l by (pose proof (exp_pos (x * x / 2)); lra). lra.
Qed.
Lemma bell_lipschitz x y : Rabs (bell x - bell y) <= Rabs (x - y).
Proof.
  assert (K : forall x y, x < y -> Rabs (bell x - bell y) <= Rabs (x - y)).
  { clear. intros x y L. destruct (MVT_cor2 bell (fun z => - z * bell z) x y L) as (c & E & _); [intros; apply bell_derivable|].
    rewrite <- Rabs_Ropp, Ropp_minus_distr, E, Rabs_mult, (Rabs_minus_sym x y).
    pose proof (bell_slope c). pose proof (Rabs_pos (y - x)). rewrite <- (Rmult_1_l (Rabs (y - x))) at 2. apply Rmult_le_compat_r; assumption. }
  destruct (Rtotal_order x y) as [L|[->|L]]; [now apply K|rewrite !Rminus_diag_eq by reflexivity; lra|].
  rewrite Rabs_minus_sym, (Rabs_minus_sym x y). now apply K.
Qed.

Section Normal.
  Variable N : R -> R.
  Hypothesis HN : normal_cdf N.
  Notation mean := (mean_of N).

  Lemma cdf_half : N 0 = / 2.
  Proof. pose proof (nc_symmetric N HN 0) as E. rewrite Ropp_0 in E. lra. Qed.

  (** Close to its tangent. *)
  Lemma cdf_tangent k y h : density_of N k -> Rabs (N (y + h) - N y - h * (k * bell y)) <= k * (h * h).
  Proof.
    intros (K & D). assert (S : forall y z, y < z -> exists c, y < c < z /\ N z - N y = k * bell c * (z - y)).
    { intros u z L. destruct (MVT_cor2 N (fun x => k * bell x) u z L) as (c & E & B); [intros; apply D|]. exists c. tauto. }
    assert (Q : exists c, Rabs (c - y) <= Rabs h /\ N (y + h) - N y = k * bell c * h).
    { destruct (Rtotal_order 0 h) as [L|[<-|L]].
      - destruct (S y (y + h) ltac:(lra)) as (c & B & E). exists c. split; [unfold Rabs; repeat destruct Rcase_abs; lra|]. rewrite E. ring.
      - exists y. rewrite Rplus_0_r. split; [rewrite Rminus_diag_eq by reflexivity; lra|ring].
      - destruct (S (y + h) y ltac:(lra)) as (c & B & E). exists c. split; [unfold Rabs; repeat destruct Rcase_abs; lra|].
        replace (N (y + h) - N y) with (- (N y - N (y + h))) by ring. rewrite E. ring. }
    destruct Q as (c & B & ->). replace (k * bell c * h - h * (k * bell y)) with (k * (h * (bell c - bell y))) by ring.
    rewrite !Rabs_mult, (Rabs_right k) by lra. apply Rmult_le_compat_l; [lra|].
    replace (h * h) with (Rabs h * Rabs h) by (rewrite <- Rabs_mult; apply Rabs_right; nra).
    apply Rmult_le_compat_l; [apply Rabs_pos|]. pose proof (bell_lipschitz c y). lra.
  Qed.

  Lemma cdf_continuous x : continuity_pt N x.
  Proof. destruct (has_density N HN) as (k & _ & D). apply derivable_continuous_pt. eexists. apply D. Qed.

  Lemma mean_cdf_exists a b : exists v, mean (fun x => N (a + b * x)) v.
  Proof.
    apply (mean_exists N HN _ 1 0).
    - intros x. apply (continuity_pt_comp (fun x => a + b * x) N); [|apply cdf_continuous]. apply derivable_continuous_pt. eexists.
      apply (derivable_pt_lim_ext (fun y => b * y + a * 1)); [intros; ring|]. apply (diff_linear b a id (fun _ => 1)); [apply derivable_pt_lim_id|apply derivable_pt_lim_const].
    - intros x. pose proof (cdf_pos N HN (a + b * x)). pose proof (cdf_lt_1 N HN (a + b * x)). rewrite Rabs_right; lra.
  Qed.

  Lemma mean_bell k a b : density_of N k -> let c := sqrt (1 + b * b) in mean (fun x => k * bell (a + b * x)) (k * bell (a / c) / c).
  Proof.
    intros D c. assert (C2 : c * c = 1 + b * b) by (apply sqrt_def; nra).
    assert (C0 : 0 < c) by (apply sqrt_lt_R0; nra).
    apply (mean_density N k _ _ D). exists (fun x => k * bell (a / c) / c * N (c * x + a * b / c)), (k * bell (a / c) / c * 0), (k * bell (a / c) / c * 1).
    split; [|split; [|split; [|ring]]].
    - intros x. eapply diff_eq; [|apply derivable_pt_lim_scal, diff_affine, (proj2 D)].
      assert (E : bell (a + b * x) * bell x = bell (a / c) * bell (c * x + a * b / c)).
      { unfold bell. rewrite <- !exp_plus. f_equal.
        assert (H : a / c * (a / c) + a * b / c * (a * b / c) = a * a).
        { replace (a / c * (a / c) + a * b / c * (a * b / c)) with (a * a * (1 + b * b) / (c * c)) by (field; lra). rewrite <- C2. field. lra. }
        replace (- (a / c * (a / c) / 2) + - ((c * x + a * b / c) * (c * x + a * b / c) / 2)) with
          (- ((a / c * (a / c) + a * b / c * (a * b / c) + 2 * (a * b * x) + c * c * (x * x)) / 2)) by (field; lra). rewrite H, C2. field. }
      replace (k * bell (a / c) / c * (c * (k * bell (c * x + a * b / c)))) with (k * k * (bell (a / c) * bell (c * x + a * b / c))) by (field; lra).
      rewrite <- E. ring.
    - pose proof (down_linear (k * bell (a / c) / c) 0 _ _ _ _ (down_scale N 0 c (a * b / c) C0 (cdf_down N HN)) (down_scale N 0 c (a * b / c) C0 (cdf_down N HN))) as L.
      eapply down_ext; [|replace (k * bell (a / c) / c * 0) with (k * bell (a / c) / c * 0 + 0 * 0) by ring; exact L]. intros x. cbn beta. ring.
    - pose proof (up_linear (k * bell (a / c) / c) 0 _ _ _ _ (up_scale N 1 c (a * b / c) C0 (cdf_up N HN)) (up_scale N 1 c (a * b / c) C0 (cdf_up N HN))) as L.
      eapply up_ext; [|replace (k * bell (a / c) / c * 1) with (k * bell (a / c) / c * 1 + 0 * 1) by ring; exact L]. intros x. cbn beta. ring.
  Qed.

  Lemma mean_cdf a b : mean (fun x => N (a + b * x)) (N (a / sqrt (1 + b * b))).
  Proof.
    destruct (has_density N HN) as (k & D). set (c := sqrt (1 + b * b)).
    assert (C0 : 0 < c) by (apply sqrt_lt_R0; nra).
    pose (I := fun a => proj1_sig (mean_exists_at N HN _ (mean_cdf_exists a b))).
    assert (HI : forall a, mean (fun x => N (a + b * x)) (I a)) by (intros z; unfold I; now destruct mean_exists_at).
    assert (DI : forall a, derivable_pt_lim I a (k * bell (a / c) / c)).
    { intros z eps P. assert (P' : 0 < eps / (k + 1)) by (apply Rdiv_lt_0_compat; [lra|destruct D; lra]). exists (mkposreal _ P'). cbn [pos]. intros h NZ Hh.
      set (J := k * bell (z / c) / c).
      assert (B : Rabs (I (z + h) - I z - h * J) <= k * (h * h)).
      { pose proof (mean_bell k z b D) as MJ. fold c in MJ. fold J in MJ.
        assert (MD : mean (fun x => 1 * (1 * N (z + h + b * x) + (-1) * N (z + b * x)) + (- h) * (k * bell (z + b * x))) (1 * (1 * I (z + h) + (-1) * I z) + (- h) * J))
          by (apply mean_linear; [exact HN|apply mean_linear; [exact HN|apply HI|apply HI]|exact MJ]).
        assert (T : forall x, Rabs (1 * (1 * N (z + h + b * x) + (-1) * N (z + b * x)) + (- h) * (k * bell (z + b * x))) <= k * (h * h)).
        { intros x. pose proof (cdf_tangent k (z + b * x) h D) as T. replace (z + b * x + h) with (z + h + b * x) in T by ring.
          match goal with |- Rabs ?u <= _ => replace u with (N (z + h + b * x) - N (z + b * x) - h * (k * bell (z + b * x))) by ring end. exact T. }
        apply Rabs_le. split.
        - assert (- (k * (h * h)) <= 1 * (1 * I (z + h) + (-1) * I z) + (- h) * J); [|lra].
          eapply (mean_mono N HN (fun _ => - (k * (h * h)))); [|apply mean_const, HN|exact MD]. intros x. specialize (T x). cbn beta. unfold Rabs in T. destruct Rcase_abs; lra.
        - assert (1 * (1 * I (z + h) + (-1) * I z) + (- h) * J <= k * (h * h)); [|lra].
          eapply (mean_mono N HN _ (fun _ => k * (h * h))); [|exact MD|apply mean_const, HN]. intros x. specialize (T x). cbn beta. unfold Rabs in T. destruct Rcase_abs; lra. }
      replace ((I (z + h) - I z) / h - J) with ((I (z + h) - I z - h * J) / h) by (field; exact NZ).
      unfold Rdiv at 1. rewrite Rabs_mult, Rabs_inv. assert (A : 0 < Rabs h) by now apply Rabs_pos_lt.
      apply (Rmult_lt_reg_r (Rabs h)); [exact A|]. rewrite Rmult_assoc, Rinv_l by lra. rewrite Rmult_1_r.
      eapply Rle_lt_trans; [exact B|]. replace (h * h) with (Rabs h * Rabs h) by (rewrite <- Rabs_mult; apply Rabs_right; nra).
      rewrite <- Rmult_assoc. apply Rmult_lt_compat_r; [exact A|].
      destruct D as [K _]. apply (Rmult_lt_compat_l (k + 1)) in Hh; [|lra]. replace ((k + 1) * (eps / (k + 1))) with eps in Hh by (field; lra). nra. }
    assert (DN : forall a, derivable_pt_lim (fun a => N (/ c * a + 0)) a (k * bell (a / c) / c)).
    { intros z. eapply diff_eq; [|apply diff_affine, (proj2 D)]. replace (/ c * z + 0) with (z / c) by (field; lra). field. lra. }
    pose proof (same_derivative _ _ _ DI DN a 0) as E. cbn beta in E.
    assert (I0 : I 0 = / 2).
    { assert (M : mean (fun x => 1 * 1 + (-1) * N (0 + b * - x)) (1 * 1 + (-1) * I 0)).
      { apply mean_linear; [exact HN|apply mean_const, HN|]. apply (mean_flip N HN (fun x => N (0 + b * x))), HI. }
      apply (mean_ext N _ (fun x => N (0 + b * x))) in M.
      - pose proof (mean_unique N HN _ _ _ M (HI 0)). lra.
      - intros x. replace (0 + b * - x) with (- (0 + b * x)) by ring. rewrite (nc_symmetric N HN). ring. }
    replace (/ c * 0 + 0) with 0 in E by ring. rewrite I0, cdf_half in E. replace (a / c) with (/ c * a + 0) by (field; lra).
    replace (N (/ c * a + 0)) with (I a) by lra. apply HI.
  Qed.

  (** The mean of what is positive only beyond a point. *)
  Lemma mean_beyond k u U x0 hi : density_of N k -> (forall x, derivable_pt_lim U x (u x * (k * bell x))) -> tends_up U hi ->
    (forall x, x <= x0 -> u x <= 0) -> (forall x, x0 <= x -> 0 <= u x) -> mean (fun x => Rmax (u x) 0) (hi - U x0).
  Proof.
    intros D DU Hi Lo Up. apply (mean_density N k _ _ D). exists (fun x => if Rle_dec x x0 then U x0 else U x), (U x0), hi.
    assert (Z : u x0 = 0) by (pose proof (Lo x0 ltac:(lra)); pose proof (Up x0 ltac:(lra)); lra).
    split; [|split; [|split; [|reflexivity]]].
    - intros x. destruct (Rtotal_order x x0) as [L|[->|L]].
      + rewrite Rmax_right by (apply Lo; lra). rewrite Rmult_0_l.
        apply (derivable_pt_lim_locally_ext (fun _ => U x0) _ x (x - 1) x0); [lra| |apply derivable_pt_lim_const].
        intros z Hz. destruct Rle_dec; [reflexivity|lra].
      + rewrite Rmax_right by lra. rewrite Rmult_0_l. specialize (DU x0). rewrite Z, Rmult_0_l in DU.
        intros eps P. destruct (DU eps P) as (delta & H). exists delta. intros h NZ Hh. specialize (H h NZ Hh).
        destruct (Rle_dec x0 x0) as [_|]; [|lra]. destruct (Rle_dec (x0 + h) x0); [|exact H].
        unfold Rminus at 1. rewrite (Rminus_diag_eq (U x0)) by reflexivity. unfold Rdiv. rewrite Rmult_0_l, Rplus_0_l, Ropp_0, Rabs_R0. exact P.
      + rewrite Rmax_left by (apply Up; lra). apply (derivable_pt_lim_locally_ext U _ x x0 (x + 1)); [lra| |apply DU].
        intros z Hz. destruct Rle_dec; [lra|reflexivity].
    - intros eps P. exists x0. intros x L. destruct Rle_dec; [|lra]. now rewrite Rminus_diag_eq, Rabs_R0.
    - intros eps P. destruct (Hi eps P) as (M & HM). exists (Rmax M (x0 + 1)). intros x L. pose proof (Rmax_l M (x0 + 1)). pose proof (Rmax_r M (x0 + 1)).
      destruct Rle_dec; [lra|]. apply HM. lra.
  Qed.

  (** A call on what grows to a lognormal value is worth Black's price. *)
  Definition black (p k s : R) : R := N (dplus p k s) * p - N (dminus p k s) * k.

  Lemma mean_call p strike s : 0 < p -> 0 < strike -> 0 < s -> mean (fun x => Rmax (p * exp (s * x - s * s / 2) - strike) 0) (black p strike s).
  Proof.
    intros P K S. destruct (has_density N HN) as (k & D). set (x0 := (ln (strike / p) + s * s / 2) / s).
    assert (Q : 0 < strike / p) by (now apply Rdiv_lt_0_compat).
    assert (R0 : p * exp (s * x0 - s * s / 2) = strike).
    { replace (s * x0 - s * s / 2) with (ln (strike / p)) by (unfold x0; field; lra). rewrite exp_ln by exact Q. field. lra. }
    assert (L : forall x y, x <= y -> p * exp (s * x - s * s / 2) <= p * exp (s * y - s * s / 2)).
    { intros x y [Lt|Eq]; [|rewrite Eq; lra]. apply Rmult_le_compat_l; [lra|]. left. apply exp_increasing. nra. }
    replace (black p strike s) with ((p * 1 + - strike * 1) - (p * N (x0 + - s) + - strike * N x0)).
    - apply (mean_beyond k (fun x => p * exp (s * x - s * s / 2) - strike) (fun x => p * N (x + - s) + - strike * N x)).
      + exact D.
      + intros x. eapply diff_eq; [|apply diff_linear; [|apply (proj2 D)]].
        2:{ apply (derivable_pt_lim_ext (fun y => N (1 * y + - s))); [intros; f_equal; ring|]. apply diff_affine, (proj2 D). }
        unfold bell. replace (- ((1 * x + - s) * (1 * x + - s) / 2)) with ((s * x - s * s / 2) + - (x * x / 2)) by field. rewrite exp_plus. ring.
      + apply up_linear; [apply up_shift, cdf_up, HN|apply cdf_up, HN].
      + intros x B. specialize (L x x0 B). lra.
      + intros x B. specialize (L x0 x B). lra.
    - unfold black. assert (E : dminus p strike s = - x0). { unfold dminus, dplus, x0. rewrite ln_swap by assumption. field. lra. }
      assert (E' : dplus p strike s = - (x0 + - s)). { replace (dplus p strike s) with (dminus p strike s + s) by (unfold dminus; ring). rewrite E. ring. }
      rewrite E, E', !(nc_symmetric N HN). ring.
  Qed.

  (** One on what moves by a normal amount is worth Bachelier's. *)
  Lemma mean_call_linear p strike s n : 0 < s -> derivable_pt_lim N ((p - strike) / s) n ->
    mean (fun x => Rmax (p + s * x - strike) 0) ((p - strike) * N ((p - strike) / s) + s * n).
  Proof.
    intros S Dn. destruct (has_density N HN) as (k & D). rewrite (uniqueness_limite N _ n _ Dn (proj2 D _)). clear n Dn.
    set (x0 := (strike - p) / s). assert (R0 : p + s * x0 = strike) by (unfold x0; field; lra).
    replace ((p - strike) * N ((p - strike) / s) + s * (k * bell ((p - strike) / s))) with
      (((p - strike) * 1 + - (s * k) * 0) - ((p - strike) * N x0 + - (s * k) * bell x0)).
    - apply (mean_beyond k (fun x => p + s * x - strike) (fun x => (p - strike) * N x + - (s * k) * bell x)).
      + exact D.
      + intros x. eapply diff_eq; [|apply diff_linear; [apply (proj2 D)|apply bell_derivable]]. ring.
      + apply up_linear; [apply cdf_up, HN|apply bell_up0].
      + intros x B. nra.
      + intros x B. nra.
    - replace ((p - strike) / s) with (- x0) by (unfold x0; field; lra). rewrite (nc_symmetric N HN), bell_even. ring.
  Qed.

  (** Black's prices compose: the price later, which is a function of where the forward has gone, has as mean the price now. *)
  Lemma black_compose p strike s V : 0 < p -> 0 < strike -> 0 < V ->
    mean (fun x => black (p * exp (s * x - s * s / 2)) strike (sqrt V)) (black p strike (sqrt (s * s + V))).
  Proof.
    intros P K PV. set (q := sqrt V). assert (Q0 : 0 < q) by now apply sqrt_lt_R0. assert (Q2 : q * q = V) by (apply sqrt_def; lra).
    set (t := sqrt (s * s + V)). assert (T0 : 0 < t) by (apply sqrt_lt_R0; nra). assert (T2 : t * t = s * s + V) by (apply sqrt_def; nra).
    assert (R : sqrt (1 + s / q * (s / q)) = t / q).
    { replace (1 + s / q * (s / q)) with ((s * s + V) / (q * q)) by (rewrite <- Q2; field; lra). rewrite <- T2.
      replace (t * t / (q * q)) with ((t / q) * (t / q)) by (field; lra). apply sqrt_square. apply Rlt_le, Rdiv_lt_0_compat; assumption. }
    set (m := ln (p / strike)).
    assert (LN : forall x, ln (p * exp (s * x - s * s / 2) / strike) = m + (s * x - s * s / 2)).
    { intros x. unfold m. replace (p * exp (s * x - s * s / 2) / strike) with (p / strike * exp (s * x - s * s / 2)) by (field; lra).
      rewrite ln_mult, ln_exp; [reflexivity|now apply Rdiv_lt_0_compat|apply exp_pos]. }
    pose proof (mean_cdf ((m + s * s / 2) / q + / 2 * q) (s / q)) as M1. rewrite R in M1.
    pose proof (mean_cdf ((m - s * s / 2) / q + / 2 * q - q) (s / q)) as M2. rewrite R in M2.
    apply (mean_ext N _ (fun x => (fun x => N ((m - s * s / 2) / q + / 2 * q + s / q * x)) (x + s))) in M1.
    2:{ intros x. cbn beta. f_equal. field. lra. }
    apply (mean_shift N HN s (fun x => N ((m - s * s / 2) / q + / 2 * q + s / q * x))) in M1. pose proof (mean_linear N HN p (- strike) _ _ _ _ M1 M2) as M. unfold black.
    assert (E1 : dplus p strike t = ((m + s * s / 2) / q + / 2 * q) / (t / q)).
    { unfold dplus. fold m. apply (Rmult_eq_reg_r t); [|lra]. replace ((m / t + / 2 * t) * t) with (m + / 2 * (t * t)) by (field; lra).
      replace (((m + s * s / 2) / q + / 2 * q) / (t / q) * t) with (m + s * s / 2 + / 2 * (q * q)) by (field; lra). rewrite T2, Q2. field. }
    assert (E2 : dminus p strike t = ((m - s * s / 2) / q + / 2 * q - q) / (t / q)).
    { unfold dminus, dplus. fold m. apply (Rmult_eq_reg_r t); [|lra]. replace ((m / t + / 2 * t - t) * t) with (m - / 2 * (t * t)) by (field; lra).
      replace (((m - s * s / 2) / q + / 2 * q - q) / (t / q) * t) with (m - s * s / 2 - / 2 * (q * q)) by (field; lra). rewrite T2, Q2. field. }
    rewrite E1, E2. clear E1 E2 M1 M2. match type of M with mean_of _ _ ?v => match goal with |- mean_of _ _ ?w => replace w with v by ring end end.
    eapply mean_ext; [|exact M]. intros x. cbn beta. unfold dminus, dplus. rewrite LN.
    replace ((m - s * s / 2) / q + / 2 * q - q + s / q * x) with ((m + (s * x - s * s / 2)) / q + / 2 * q - q) by (field; lra).
    replace ((m - s * s / 2) / q + / 2 * q + s / q * x) with ((m + (s * x - s * s / 2)) / q + / 2 * q) by (field; lra). ring.
  Qed.
End Normal.
