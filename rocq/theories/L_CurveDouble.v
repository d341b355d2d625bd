(** Curves of doubles. *)
From Coq Require Import ZArith List String Bool Lia Reals Lra.
From Coq.Floats Require Import SpecFloat.
From Flocq Require Import Core BinarySingleNaN.
From Verif Require Import Prelude Num M_Dates M_Search M_Interp S_Interp M_Curves S_Data S_Double S_CurveDouble L_Num L_Double L_DoubleError L_InterpAny L_InterpDouble.
Import ListNotations.
Open Scope list_scope.
Open Scope R_scope.

(** ** Interpolated rates *)

Lemma cmp_dates_R (a b : Z) : i32 a -> i32 b -> interp_ord (T := R) a b = true /\ interp_cmp (T := R) a b = Rcompare (IZR a) (IZR b).
Proof. intros _ _. split; [reflexivity|]. cbn [interp_cmp interpolable_Z]. now rewrite Rcompare_IZR. Qed.

Section Rates.
  Variable pts : list (Z * F64).
  Variable M : R.
  Hypothesis D : forall p, In p pts -> i32 (fst p) /\ finite (snd p) /\ Rabs (real (snd p)) <= M.
  Hypothesis BM : M <= bpow radix2 900.
  Variables (l r : extrap) (f : linear F64 Z).
  Hypothesis Cl : constant l.
  Hypothesis Cr : constant r.
  Hypothesis New : linear_new pts l r = Ok f.
  Variables (nan : F64) (nan' : R).

  Definition D' : forall p, In p pts -> i32 (fst p) := fun p I => proj1 (D p I).
  Let rpts := map (fun p : Z * F64 => (fst p, real (snd p))) pts.

  Lemma rpts_nth i p : nth_error pts i = Some p -> nth_error rpts i = Some (fst p, real (snd p)).
  Proof. intros N. unfold rpts. rewrite nth_error_map, N. reflexivity. Qed.
  Lemma rpts_nth' i q : nth_error rpts i = Some q -> exists p, nth_error pts i = Some p /\ q = (fst p, real (snd p)).
  Proof. unfold rpts. rewrite nth_error_map. destruct (nth_error pts i) as [p|]; [|discriminate]. intros E. injection E as <-. now exists p. Qed.
  Lemma rpts_dates p : In p rpts -> i32 (fst p).
  Proof. intros I. apply in_map_iff in I. destruct I as (q & <- & I). apply (D' q I). Qed.
  Lemma rpts_increasing : forall i a b, nth_error rpts i = Some a -> nth_error rpts (S i) = Some b -> IZR (fst a) < IZR (fst b).
  Proof.
    intros i a b A B. apply rpts_nth' in A, B. destruct A as (p & A & ->), B as (q & B & ->). cbn [fst].
    exact (proj2 (dates_increasing pts D' l r f New) i p q A B).
  Qed.

  Lemma rates_M : 0 <= M.
  Proof.
    apply dates_new in New; [|exact D']. destruct New as (N & _). destruct pts as [|p ps]; [now destruct N|].
    destruct (D p (or_introl eq_refl)) as (_ & _ & B). pose proof (Rabs_pos (real (snd p))). lra.
  Qed.

  Lemma constant_natural e : constant e -> e <> Natural.
  Proof. unfold constant. intros [->|[->| ->]]; discriminate. Qed.

  Lemma extrapolated e (p : Z * F64) x : constant e -> finite (snd p) -> Rabs (real (snd p)) <= M ->
    extrapolate nan e (snd p) = Ok x -> finite x /\ extrapolate nan' e (real (snd p)) = Ok (real x) /\ Rabs (real x) <= M.
  Proof.
    intros C F B E. destruct C as [->|[->| ->]]; cbn [extrapolate] in *; try discriminate.
    - injection E as <-. auto.
    - assert (X : x = n0) by congruence. clear E. subst x. destruct zero_spec as [Fz Rz]. rewrite Rz. split; [exact Fz|]. split; [reflexivity|]. rewrite Rabs_R0. apply rates_M.
  Qed.

  Lemma linear_near d x : i32 d -> linear_at nan f d = Ok x -> finite x /\
    exists y, linear_at nan' (exact_linear f) d = Ok y /\ Rabs y <= M /\ Rabs (real x - y) <= bpow radix2 (-49) * M + bpow radix2 (-1073).
  Proof.
    intros Dd E. pose proof rates_M as M0. assert (0 < bpow radix2 (-49)) by apply bpow_gt_0. assert (0 < bpow radix2 (-1073)) by apply bpow_gt_0.
    assert (Q : 0 <= bpow radix2 (-49) * M + bpow radix2 (-1073)) by (pose proof (Rmult_le_pos (bpow radix2 (-49)) M); lra).
    destruct (dates_increasing pts D' l r f New) as [Ef Inc].
    assert (Exact : forall y, linear_interpolate_extrapolate nan' d rpts l r = Ok y -> linear_at nan' (exact_linear f) d = Ok y).
    { intros y Y. rewrite Ef. exact Y. }
    pose proof (any_search i32 IZR cmp_dates pts D' Inc d Dd) as S.
    rewrite Ef in E. unfold linear_at in E. cbn [lin_points lin_left lin_right] in E.
    destruct (binary_search_by pts (fun p => interp_cmp (fst p) d)) as [i|i] eqn:Bs.
    - destruct S as (p & Np & Ep). rewrite (any_at i32 IZR cmp_dates nan pts D' Inc l r d i p Dd Np Ep) in E. injection E as <-.
      destruct (D p (nth_error_In _ _ Np)) as (_ & Fp & Bp). split; [exact Fp|]. exists (real (snd p)). split; [|split; [exact Bp|]].
      + apply Exact. rewrite (any_at i32 IZR cmp_dates_R nan' rpts rpts_dates rpts_increasing l r d i (fst p, real (snd p)) Dd (rpts_nth i p Np) Ep). reflexivity.
      + now rewrite Rminus_eq_0, Rabs_R0.
    - destruct S as (Li & Lo & Hi). destruct i as [|i].
      + destruct (nth_error pts 0) as [p|] eqn:Np; [|exfalso; apply nth_error_None in Np; apply dates_new in New; [|exact D']; destruct New as (N & _); destruct pts; [now destruct N|cbn in Np; lia]].
        assert (L : IZR d < IZR (fst p)) by (apply (Hi 0%nat p Np); lia).
        rewrite (any_below i32 IZR cmp_dates nan pts D' Inc l r d p Dd Np L (constant_natural l Cl)) in E.
        destruct (D p (nth_error_In _ _ Np)) as (_ & Fp & Bp). destruct (extrapolated l p x Cl Fp Bp E) as (Fx & Ex & Bx).
        split; [exact Fx|]. exists (real x). split; [|split; [exact Bx|now rewrite Rminus_eq_0, Rabs_R0]].
        apply Exact. rewrite (any_below i32 IZR cmp_dates_R nan' rpts rpts_dates rpts_increasing l r d (fst p, real (snd p)) Dd (rpts_nth _ p Np) L (constant_natural l Cl)). exact Ex.
      + destruct (nth_error pts i) as [p|] eqn:Np; [|apply nth_error_None in Np; lia].
        assert (L : IZR (fst p) < IZR d) by (apply (Lo i p Np); lia).
        destruct (D p (nth_error_In _ _ Np)) as (Dp & Fp & Bp).
        destruct (nth_error pts (S i)) as [q|] eqn:Nq.
        * assert (L' : IZR d < IZR (fst q)) by (apply (Hi (S i) q Nq); lia).
          destruct (D q (nth_error_In _ _ Nq)) as (Dq & Fq & Bq).
          assert (BM' : M <= bpow radix2 1000) by (eapply Rle_trans; [exact BM|apply bpow_le; lia]).
          destruct (dates_between pts D' nan l r f New d p q M Fp Fq) as (y & Ey & Fy & Near & _); auto.
          { now exists i. } { split; apply lt_IZR; assumption. }
          rewrite Ef in Ey. unfold linear_at in Ey. cbn [lin_points lin_left lin_right] in Ey. rewrite Ey in E. injection E as <-.
          split; [exact Fy|]. eexists. split; [apply Exact; rewrite (any_between i32 IZR cmp_dates_R nan' rpts rpts_dates rpts_increasing l r d i (fst p, real (snd p)) (fst q, real (snd q)) Dd (rpts_nth i p Np) (rpts_nth (S i) q Nq) (conj L L'))|].
          { unfold linear_interpolate. cbn [fst snd interp_diff interpolable_Z].
            assert (W : IZR 1 <= IZR (fst q - fst p)) by (apply IZR_le; apply lt_IZR in L, L'; lia).
            assert (NE : nltb (nabs (nofZ (fst q - fst p) : R)) eps12 = false).
            { unfold eps12, nlit. cbn [nltb nabs nofZ ndiv RNum]. unfold Rltb. destruct (Rlt_dec _ _) as [K|]; [|reflexivity]. rewrite Rabs_right in K by lra. lra. }
            rewrite NE. reflexivity. }
          unfold lerp. cbn [nadd nmul nsub ndiv nofZ n1 RNum]. unfold n1. cbn [nofZ RNum].
          set (t := IZR (d - fst p) / IZR (fst q - fst p)) in *.
          assert (T : 0 <= t <= 1).
          { unfold t. assert (0 < IZR (fst q - fst p)) by (rewrite minus_IZR; lra). rewrite !minus_IZR in *. split.
            - apply Rmult_le_pos; [lra|]. left. now apply Rinv_0_lt_compat.
            - apply (Rmult_le_reg_r (IZR (fst q) - IZR (fst p))); [lra|]. unfold Rdiv. rewrite Rmult_assoc, Rinv_l by lra. lra. }
          split.
          { apply Rabs_le_inv in Bp, Bq. apply Rabs_le. split; nra. }
          replace (real (snd p) * (1 - t) + real (snd q) * t) with (real (snd p) + (real (snd q) - real (snd p)) * t) by ring. exact Near.
        * apply nth_error_None in Nq. assert (Ei : i = (List.length pts - 1)%nat) by lia. rewrite Ei in Np.
          rewrite (any_above i32 IZR cmp_dates nan pts D' Inc l r d p Dd Np L (constant_natural l Cl)) in E.
          destruct (extrapolated r p x Cr Fp Bp E) as (Fx & Ex & Bx).
          split; [exact Fx|]. exists (real x). split; [|split; [exact Bx|now rewrite Rminus_eq_0, Rabs_R0]].
          apply Exact. rewrite (any_above i32 IZR cmp_dates_R nan' rpts rpts_dates rpts_increasing l r d (fst p, real (snd p)) Dd); auto.
          { unfold rpts. rewrite map_length. apply rpts_nth, Np. } { now apply constant_natural. }
  Qed.
End Rates.

(** ** Rates and times *)

Lemma within_pos M c : rates_within M c -> M <= bpow radix2 900 -> 0 <= M.
Proof.
  revert M. induction c as [b|b f|c IH b|c IH b|c IH b]; cbn [rates_within]; intros M W BM; try tauto.
  - destruct W as (_ & pts & l & r & N & _ & _ & D). exact (rates_M pts M D l r f N).
  - destruct W as [_ W]. pose proof (Rabs_pos (real b)). specialize (IH _ W). lra.
Qed.

Lemma uu49 : bpow radix2 (-49) = 16 * uu.
Proof. unfold uu. change (-49)%Z with (4 + -53)%Z. rewrite bpow_plus. reflexivity. Qed.
Lemma uu_1 : 0 < uu < / 1000000.
Proof. pose proof uu_small. lra. Qed.

(** Errors in terms of a rounding unit are small for any reasonable number of bumps. *)
Lemma few (n : nat) : (n <= 1000)%nat -> 0 <= INR n <= 1000.
Proof. intros L. split; [apply pos_INR|]. change 1000 with (IZR (Z.of_nat 1000)). rewrite <- INR_IZR_INZ. now apply le_INR. Qed.

Definition slack : R := bpow radix2 (-1073).
Lemma slack_pos : 0 < slack.
Proof. apply bpow_gt_0. Qed.

Lemma rate_near nan nan' (TR : Trans F64) c : forall M d r t, rates_within M c -> M <= bpow radix2 900 -> (bumps c <= 1000)%nat -> i32 d ->
  r_and_t nan c d = Ok (r, t) -> finite r /\ finite t /\
  exists r' t', r_and_t nan' (exact_curve c) d = Ok (r', t') /\ Rabs r' <= M /\
    Rabs (real r - r') <= (16 + 2 * INR (bumps c)) * uu * M + (1 + INR (bumps c)) * slack /\
    Rabs t' <= bpow radix2 24 /\ Rabs (real t - t') <= 2 * uu * Rabs t' /\ (t' = 0 \/ t' = years (base_date c) d /\ / 365 <= Rabs t').
Proof.
  assert (Z0 : finite (n0 : F64) /\ real n0 = 0) by exact zero_spec. destruct Z0 as [Fz Rz].
  pose proof uu_1 as U. pose proof slack_pos as SP. pose proof tiny_small as TS.
  induction c as [b|b f|c IH b|c IH b|c IH b]; cbn [rates_within bumps r_and_t exact_curve base_date]; intros M d r t W BM NB Dd E; try tauto.
  - assert (r = n0 /\ t = n0) as [-> ->] by (split; congruence). split; [exact Fz|]. split; [exact Fz|]. exists 0, 0.
    split; [reflexivity|]. rewrite Rz, Rminus_eq_0, Rabs_R0. split; [exact W|]. cbn [INR].
    assert (0 <= uu * M) by (apply Rmult_le_pos; lra). split; [lra|]. split; [apply bpow_ge_0|]. split; [lra|now left].
  - destruct W as (Db & pts & l & r0 & New & Cl & Cr & D). pose proof (rates_M pts M D l r0 f New) as M0.
    destruct (d - b =? 0)%Z eqn:Ea.
    + assert (r = n0 /\ t = n0) as [-> ->] by (split; congruence). split; [exact Fz|]. split; [exact Fz|]. exists 0, 0.
      split; [reflexivity|]. rewrite Rz, Rminus_eq_0, Rabs_R0. split; [exact M0|]. cbn [INR].
      assert (0 <= uu * M) by (apply Rmult_le_pos; lra). split; [lra|]. split; [apply bpow_ge_0|]. split; [lra|now left].
    + destruct (linear_at nan f d) as [x|m|m] eqn:El; try discriminate. cbn [bind] in E.
      assert (r = x) by congruence. assert (Et : t = ndiv (nofZ (d - b)) (nofZ 365)) by congruence. subst r. clear E.
      destruct (linear_near pts M D BM l r0 f Cl Cr New nan nan' d x Dd El) as (Fx & y & Ey & By & Near).
      destruct (ofZ_exact (d - b)) as [Fa Ra]; [unfold i32 in *; cbn; lia|]. destruct (ofZ_exact 365) as [Fy Ry]; [cbn; lia|].
      assert (Bt : Rabs (IZR (d - b) / 365) <= bpow radix2 24).
      { unfold Rdiv. rewrite Rabs_mult, (Rabs_right (/ 365)) by lra. rewrite <- abs_IZR.
        assert (IZR (Z.abs (d - b)) <= 4294967296) by (apply IZR_le; unfold i32 in *; lia).
        assert (0 <= IZR (Z.abs (d - b))) by (apply IZR_le; lia). change (bpow radix2 24) with 16777216. lra. }
      destruct (div_spec (nofZ (d - b)) (nofZ 365) Fa Fy) as [Ft Rt]; [rewrite Ry; lra|rewrite Ra, Ry; apply (bound_in_range _ 24); [lia|exact Bt]|].
      rewrite <- Et in Ft, Rt. split; [exact Fx|]. split; [exact Ft|]. exists y, (IZR (d - b) / 365). cbn [INR].
      split; [exact (f_equal (fun z => bind z (fun r : R => Ok (r, IZR (d - b) / 365))) Ey)|]. assert (Ge : / 365 <= Rabs (IZR (d - b) / 365)).
      { unfold Rdiv. rewrite Rabs_mult, (Rabs_right (/ 365)) by lra. rewrite <- abs_IZR.
        assert (1 <= IZR (Z.abs (d - b))) by (apply IZR_le; apply Z.eqb_neq in Ea; lia). lra. }
      split; [exact By|]. split; [|split; [exact Bt|split; [|right; split; [reflexivity|exact Ge]]]].
      * rewrite uu49 in Near. fold slack in Near. lra.
      * rewrite Rt, Ra, Ry. destruct (rnd_error (IZR (d - b) / 365)) as (e & h & He & Hh & ->).
        replace (IZR (d - b) / 365 * (1 + e) + h - IZR (d - b) / 365) with (e * (IZR (d - b) / 365) + h) by ring.
        eapply Rle_trans; [apply Rabs_triang|]. rewrite Rabs_mult. set (a := Rabs (IZR (d - b) / 365)) in *.
        apply Rle_trans with (uu * a + uu * a); [|lra]. apply Rplus_le_compat; [apply Rmult_le_compat_r; [apply Rabs_pos|exact He]|].
        eapply Rle_trans; [exact Hh|]. eapply Rle_trans; [apply TS|]. apply Rmult_le_compat_l; lra.
  - destruct W as [Fb W]. destruct (r_and_t nan c d) as [[r1 t1]|m|m] eqn:E1; try discriminate. cbn [bind] in E.
    assert (Er : r = nadd r1 b) by congruence. assert (t1 = t) by congruence. subst t1. clear E.
    pose proof (Rabs_pos (real b)) as Pb.
    assert (M1 : 0 <= M - Rabs (real b)) by (apply (within_pos _ c W); lra).
    destruct (IH (M - Rabs (real b)) d r1 t W ltac:(lra) ltac:(lia) Dd E1) as (F1 & Ft & r' & t' & Ex & Br & Nr & Bt & Nt & Yt).
    pose proof (few (bumps c) ltac:(lia)) as Fw. set (k := INR (bumps c)) in *. set (M' := M - Rabs (real b)) in *.
    assert (P : 0 <= uu * M') by (apply Rmult_le_pos; lra).
    assert (SB : slack <= / 1000000).
    { unfold slack. eapply Rle_trans; [apply (bpow_le radix2 _ (-20)); lia|]. change (bpow radix2 (-20)) with (/ 1048576). lra. }
    assert (Er1 : Rabs (real r1 - r') <= M' + / 2).
    { eapply Rle_trans; [exact Nr|]. assert ((16 + 2 * k) * uu * M' <= 1 * M').
      { apply Rmult_le_compat_r; [exact M1|]. apply Rle_trans with (2016 * uu); [apply Rmult_le_compat_r; lra|lra]. }
      assert ((1 + k) * slack <= 1001 * slack) by (apply Rmult_le_compat_r; lra). lra. }
    assert (BS : Rabs (real r1 + real b) <= bpow radix2 1000).
    { replace (real r1 + real b) with ((real r1 - r') + (r' + real b)) by ring. eapply Rle_trans; [apply Rabs_triang|].
      pose proof (Rabs_triang r' (real b)). apply Rle_trans with (2 * bpow radix2 900 + 1); [unfold M' in *; lra|].
      apply Rle_trans with (bpow radix2 2 * bpow radix2 900); [|rewrite <- bpow_plus; apply bpow_le; lia].
      change (bpow radix2 2) with 4. assert (bpow radix2 0 <= bpow radix2 900) by (apply bpow_le; lia). change (bpow radix2 0) with 1 in H0. lra. }
    destruct (add_spec r1 b F1 Fb) as [Fr Rr]; [apply (bound_in_range _ 1000); [lia|exact BS]|]. rewrite <- Er in Fr, Rr.
    split; [exact Fr|]. split; [exact Ft|]. exists (r' + real b), t'. rewrite Ex. cbn [bind]. split; [reflexivity|].
    split; [eapply Rle_trans; [apply Rabs_triang|unfold M' in *; lra]|]. split; [|split; [exact Bt|split; [exact Nt|exact Yt]]].
    rewrite Rr. destruct (rnd_sum_error (real r1) (real b) (finite_format _ F1) (finite_format _ Fb)) as (e & He & ->).
    replace ((real r1 + real b) * (1 + e) - (r' + real b)) with ((real r1 - r') * (1 + e) + e * (r' + real b)) by ring.
    eapply Rle_trans; [apply Rabs_triang|]. rewrite !Rabs_mult.
    assert (A1 : Rabs (1 + e) <= 1 + uu). { eapply Rle_trans; [apply Rabs_triang|]. rewrite Rabs_R1. lra. }
    assert (A2 : Rabs (r' + real b) <= M) by (eapply Rle_trans; [apply Rabs_triang|unfold M' in *; lra]).
    apply Rle_trans with (((16 + 2 * k) * uu * M' + (1 + k) * slack) * (1 + uu) + uu * M).
    { apply Rplus_le_compat; [apply Rmult_le_compat|apply Rmult_le_compat]; auto using Rabs_pos. }
    rewrite S_INR. fold k.
    assert (A3 : (16 + 2 * k) * uu * M' * (1 + uu) <= ((16 + 2 * k) * uu + uu) * M).
    { apply Rle_trans with (((16 + 2 * k) * uu * (1 + uu)) * M').
      - right. ring.
      - apply Rmult_le_compat; [apply Rmult_le_pos; [apply Rmult_le_pos|]; lra|exact M1| |unfold M'; lra].
        replace ((16 + 2 * k) * uu * (1 + uu)) with ((16 + 2 * k) * uu + uu * ((16 + 2 * k) * uu)) by ring.
        apply Rplus_le_compat_l. rewrite <- (Rmult_1_r uu) at 3. apply Rmult_le_compat_l; [lra|].
        apply Rle_trans with (2016 * uu); [apply Rmult_le_compat_r; lra|lra]. }
    assert (A4 : (1 + k) * slack * (1 + uu) <= (1 + (k + 1)) * slack).
    { apply Rle_trans with (((1 + k) * (1 + uu)) * slack); [right; ring|]. apply Rmult_le_compat_r; [lra|]. nra. }
    nra.
Qed.

(** ** Rate times time *)

Lemma slack_small M : bpow radix2 (-900) <= M -> 1001 * slack <= uu * M * / 100000 /\ tiny <= uu * M * / 100000000.
Proof.
  intros L. assert (X : bpow radix2 (-1000) <= uu * M * / 100000000).
  { apply Rle_trans with (bpow radix2 (-53) * bpow radix2 (-900) * bpow radix2 (-27)).
    - rewrite <- !bpow_plus. apply bpow_le. lia.
    - apply Rmult_le_compat; [rewrite <- bpow_plus; apply bpow_ge_0|apply bpow_ge_0| |change (bpow radix2 (-27)) with (/ 134217728); lra].
      unfold uu. apply Rmult_le_compat_l; [apply bpow_ge_0|exact L]. }
  assert (1001 * slack <= bpow radix2 (-1000)).
  { apply Rle_trans with (bpow radix2 10 * bpow radix2 (-1073)); [|rewrite <- bpow_plus; apply bpow_le; lia].
    unfold slack. apply Rmult_le_compat_r; [apply bpow_ge_0|]. change (bpow radix2 10) with 1024. lra. }
  assert (tiny <= bpow radix2 (-1000)) by (apply bpow_le; lia).
  assert (0 <= bpow radix2 (-1000)) by apply bpow_ge_0. split; lra.
Qed.

Lemma product_near uM M n (r t r' t' : R) : 0 <= M -> 0 <= n <= 1000 -> uM = uu * M ->
  Rabs r' <= M -> Rabs (r - r') <= (16 + 2 * n) * uM + uM * / 100000 -> Rabs (t - t') <= 2 * uu * Rabs t' ->
  Rabs (r * t - r' * t') <= (18 + 2 * n + / 50) * uM * Rabs t' /\ Rabs (r * t) <= (1 + / 100) * M * Rabs t'.
Proof.
  intros M0 N -> Br Nr Nt. pose proof uu_1 as U. pose proof (Rabs_pos t') as T0. set (a := Rabs t') in *.
  assert (P : 0 <= uu * M) by (apply Rmult_le_pos; lra). assert (Pa : 0 <= uu * M * a) by (apply Rmult_le_pos; lra). assert (Ma : 0 <= M * a) by (apply Rmult_le_pos; lra).
  assert (Q : (16 + 2 * n) * (uu * M) + uu * M * / 100000 <= 2017 * (uu * M)) by nra.
  assert (T1 : Rabs t <= (1 + 2 * uu) * a). { replace t with ((t - t') + t') by ring. eapply Rle_trans; [apply Rabs_triang|]. fold a. lra. }
  assert (First : Rabs (r * t - r' * t') <= (18 + 2 * n + / 50) * (uu * M) * a).
  { replace (r * t - r' * t') with ((r - r') * t + r' * (t - t')) by ring. eapply Rle_trans; [apply Rabs_triang|]. rewrite !Rabs_mult.
    apply Rle_trans with (((16 + 2 * n) * (uu * M) + uu * M * / 100000) * ((1 + 2 * uu) * a) + M * (2 * uu * a)).
    { apply Rplus_le_compat; apply Rmult_le_compat; auto using Rabs_pos. }
    replace (((16 + 2 * n) * (uu * M) + uu * M * / 100000) * ((1 + 2 * uu) * a) + M * (2 * uu * a))
      with (uu * M * a * ((16 + 2 * n + / 100000) * (1 + 2 * uu) + 2)) by ring.
    replace ((18 + 2 * n + / 50) * (uu * M) * a) with (uu * M * a * (18 + 2 * n + / 50)) by ring.
    apply Rmult_le_compat_l; [exact Pa|]. nra. }
  split; [exact First|].
  rewrite Rabs_mult. apply Rle_trans with ((M + 2017 * (uu * M)) * ((1 + 2 * uu) * a)).
  - apply Rmult_le_compat; auto using Rabs_pos. replace r with ((r - r') + r') by ring. eapply Rle_trans; [apply Rabs_triang|]. lra.
  - replace ((M + 2017 * (uu * M)) * ((1 + 2 * uu) * a)) with (M * a * ((1 + 2017 * uu) * (1 + 2 * uu))) by ring.
    replace ((1 + / 100) * M * a) with (M * a * (1 + / 100)) by ring. apply Rmult_le_compat_l; [exact Ma|]. nra.
Qed.

Lemma years_bound base d : i32 base -> i32 d -> Rabs (years base d) <= bpow radix2 24.
Proof.
  intros B D. unfold years, Rdiv. rewrite Rabs_mult, (Rabs_right (/ 365)) by lra. rewrite <- abs_IZR.
  assert (IZR (Z.abs (d - base)) <= 4294967296) by (apply IZR_le; unfold i32 in *; lia). change (bpow radix2 24) with 16777216. lra.
Qed.

Lemma rt_near nan nan' (TR : Trans F64) c M d x : rates_within M c -> bpow radix2 (-900) <= M <= bpow radix2 900 -> (bumps c <= 1000)%nat -> i32 d ->
  rt nan c d = Ok x -> finite x /\ exists y, rt nan' (exact_curve c) d = Ok y /\ Rabs y <= M * Rabs (years (base_date c) d) /\
    Rabs (real x - y) <= (20 + 2 * INR (bumps c)) * uu * M * Rabs (years (base_date c) d).
Proof.
  intros W [LM BM] NB Dd E. pose proof (within_pos M c W BM) as M0. unfold rt in *.
  destruct (r_and_t nan c d) as [[r t]|m|m] eqn:E1; try discriminate. cbn [bind] in E. assert (Ex : x = nmul r t) by congruence. clear E.
  destruct (rate_near nan nan' TR c M d r t W BM NB Dd E1) as (Fr & Ft & r' & t' & Er & Br & Nr & Bt & Nt & Yt). rewrite Er. cbn [bind].
  pose proof (few _ NB) as Fw. set (n := INR (bumps c)) in *. destruct (slack_small M LM) as [SS ST]. pose proof uu_1 as U. pose proof slack_pos as SP.
  assert (P : 0 <= uu * M) by (apply Rmult_le_pos; lra).
  assert (Nr' : Rabs (real r - r') <= (16 + 2 * n) * (uu * M) + uu * M * / 100000).
  { eapply Rle_trans; [exact Nr|]. apply Rplus_le_compat; [right; ring|]. apply Rle_trans with (1001 * slack); [apply Rmult_le_compat_r; lra|exact SS]. }
  destruct (product_near (uu * M) M n (real r) (real t) r' t' M0 Fw eq_refl Br Nr' Nt) as [N1 N2].
  pose proof (Rabs_pos t') as T0. set (a := Rabs t') in *. assert (Ma : 0 <= M * a) by (apply Rmult_le_pos; lra).
  assert (IR : Rabs (real r * real t) <= bpow radix2 1000).
  { eapply Rle_trans; [exact N2|]. apply Rle_trans with (bpow radix2 1 * bpow radix2 900 * bpow radix2 24).
    - apply Rmult_le_compat; [nra|lra| |exact Bt]. apply Rmult_le_compat; [lra|lra|change (bpow radix2 1) with 2; lra|exact BM].
    - rewrite <- !bpow_plus. apply bpow_le. lia. }
  destruct (mul_spec r t Fr Ft) as [Fx Rx]; [apply (bound_in_range _ 1000); [lia|exact IR]|]. rewrite <- Ex in Fx, Rx.
  split; [exact Fx|]. exists (r' * t'). split; [reflexivity|].
  destruct (rnd_error (real r * real t)) as (e & h & He & Hh & Rn).
  destruct Yt as [-> |[Yt Ya]].
  - unfold a in *. rewrite Rabs_R0 in *. assert (real t = 0). { apply Rabs_le_inv in Nt. lra. }
    assert (R0 : real x = 0). { rewrite Rx, H, Rmult_0_r. apply rnd_0. }
    rewrite R0, Rmult_0_r, Rminus_0_r, Rabs_R0. pose proof (Rabs_pos (years (base_date c) d)) as Py. split.
    + apply Rmult_le_pos; lra.
    + apply Rmult_le_pos; [|lra]. apply Rmult_le_pos; [|lra]. apply Rmult_le_pos; lra.
  - rewrite <- Yt. fold a. split; [rewrite Rabs_mult; apply Rmult_le_compat_r; [exact T0|exact Br]|].
    rewrite Rx, Rn. replace (real r * real t * (1 + e) + h - r' * t') with ((real r * real t - r' * t') + e * (real r * real t) + h) by ring.
    eapply Rle_trans; [apply Rabs_triang|]. eapply Rle_trans; [apply Rplus_le_compat_r, Rabs_triang|]. rewrite Rabs_mult.
    assert (A1 : Rabs e * Rabs (real r * real t) <= uu * ((1 + / 100) * M * a)) by (apply Rmult_le_compat; auto using Rabs_pos).
    assert (A2 : tiny <= uu * M * a * / 100000).
    { eapply Rle_trans; [exact ST|]. apply Rle_trans with (uu * M * (/ 365 * / 100000)); [apply Rmult_le_compat_l; lra|].
      rewrite (Rmult_assoc (uu * M) a). apply Rmult_le_compat_l; [exact P|]. apply Rmult_le_compat_r; lra. }
    assert (Pa : 0 <= uu * M * a) by (apply Rmult_le_pos; lra).
    replace ((18 + 2 * n + / 50) * (uu * M) * a) with (uu * M * a * (18 + 2 * n + / 50)) in N1 by ring.
    replace ((20 + 2 * n) * uu * M * a) with (uu * M * a * (18 + 2 * n + / 50) + uu * M * a * (2 - / 50)) by field.
    replace (uu * ((1 + / 100) * M * a)) with (uu * M * a * (1 + / 100)) in A1 by ring. lra.
Qed.

(** ** Discount factors *)

Lemma exp_mono a b : a <= b -> exp a <= exp b.
Proof. intros H. destruct H as [H| ->]; [left; now apply exp_increasing|right; reflexivity]. Qed.

Lemma exp_near eps D (x s s' : R) : 0 <= eps -> Rabs (s - s') <= D -> Rabs (x - exp s) <= eps * exp s ->
  Rabs (x - exp s') <= ((1 + eps) * exp D - 1) * exp s'.
Proof.
  intros E0 Hd Hx. assert (Es : exp s = exp (s - s') * exp s') by (rewrite <- exp_plus; f_equal; ring). set (d := s - s') in *. apply Rabs_le_inv in Hd.
  pose proof (exp_pos s') as P. pose proof (exp_pos d) as Pd. assert (U : exp d <= exp D) by (apply exp_mono; lra). assert (L : exp (- D) <= exp d) by (apply exp_mono; lra).
  pose proof (exp_pos (- D)) as PmD. assert (Inv : exp D * exp (- D) = 1) by (rewrite <- exp_plus, Rplus_opp_r; apply exp_0).
  assert (D0 : 0 <= D) by lra. assert (1 <= exp D) by (rewrite <- exp_0; now apply exp_mono). assert (exp (- D) <= 1) by nra.
  assert (C : 2 <= exp D + exp (- D)) by nra. rewrite Es in Hx. set (q := exp s') in *. apply Rabs_le_inv in Hx. apply Rabs_le.
  replace (x - q) with ((x - exp d * q) + (exp d - 1) * q) by ring.
  assert (A : eps * (exp d * q) <= eps * (exp D * q)) by (apply Rmult_le_compat_l; [exact E0|]; apply Rmult_le_compat_r; lra).
  split.
  - assert ((exp (- D) - 1) * q <= (exp d - 1) * q) by (apply Rmult_le_compat_r; lra).
    assert ((2 - exp D - 1) * q <= (exp (- D) - 1) * q) by (apply Rmult_le_compat_r; lra).
    replace (- (((1 + eps) * exp D - 1) * q)) with ((2 - exp D - 1) * q - eps * (exp D * q)) by ring. lra.
  - assert ((exp d - 1) * q <= (exp D - 1) * q) by (apply Rmult_le_compat_r; lra).
    replace (((1 + eps) * exp D - 1) * q) with ((exp D - 1) * q + eps * (exp D * q)) by ring. lra.
Qed.

Lemma years_apart b d1 d2 : d1 <> d2 -> / 365 <= Rabs (years b d1) + Rabs (years b d2).
Proof.
  intros H. unfold years, Rdiv. rewrite !Rabs_mult, (Rabs_right (/ 365)) by lra. rewrite <- !abs_IZR, <- Rmult_plus_distr_r, <- plus_IZR.
  assert (1 <= IZR (Z.abs (d1 - b) + Z.abs (d2 - b))) by (apply IZR_le; lia). lra.
Qed.

Lemma difference_near n (A M x1 x2 y1 y2 a1 a2 : R) : 0 <= n <= 1000 -> 0 <= M -> 0 <= a1 -> 0 <= a2 -> A = a1 + a2 -> M * A <= 600 -> tiny <= uu * M * A * / 1000 ->
  Rabs y1 <= M * a1 -> Rabs y2 <= M * a2 -> Rabs (x1 - y1) <= (20 + 2 * n) * uu * M * a1 -> Rabs (x2 - y2) <= (20 + 2 * n) * uu * M * a2 ->
  Rabs (x2 - x1) <= 601 /\ Rabs (rnd (x2 - x1) - (y2 - y1)) <= (22 + 2 * n) * uu * M * A /\ Rabs (rnd (x2 - x1)) <= 640.
Proof.
  intros N M0 P1 P2 -> B T B1 B2 N1 N2. pose proof uu_1 as U. set (A := a1 + a2) in *. assert (MA : 0 <= M * A) by (unfold A; apply Rmult_le_pos; lra).
  assert (UMA : 0 <= uu * M * A) by (rewrite Rmult_assoc; apply Rmult_le_pos; lra).
  assert (Sy : Rabs (y2 - y1) <= M * A). { unfold Rminus, A. eapply Rle_trans; [apply Rabs_triang|]. rewrite Rabs_Ropp. lra. }
  assert (Dx : Rabs ((x2 - x1) - (y2 - y1)) <= (20 + 2 * n) * (uu * M * A)).
  { replace ((x2 - x1) - (y2 - y1)) with ((x2 - y2) + - (x1 - y1)) by ring. eapply Rle_trans; [apply Rabs_triang|]. rewrite Rabs_Ropp. unfold A. lra. }
  assert (Small : (22 + 2 * n) * (uu * M * A) <= M * A * / 1000).
  { replace ((22 + 2 * n) * (uu * M * A)) with (M * A * ((22 + 2 * n) * uu)) by ring. apply Rmult_le_compat_l; [exact MA|].
    apply Rle_trans with (2022 * uu); [apply Rmult_le_compat_r; lra|]. apply Rle_trans with (2022 * bpow radix2 (-49)); [|change (bpow radix2 (-49)) with (/ 562949953421312); lra].
    apply Rmult_le_compat_l; [lra|]. unfold uu. apply bpow_le. lia. }
  assert (Less : (20 + 2 * n) * (uu * M * A) <= (22 + 2 * n) * (uu * M * A)) by (apply Rmult_le_compat_r; lra).
  assert (Sx : Rabs (x2 - x1) <= M * A * (1 + / 1000)).
  { replace (x2 - x1) with (((x2 - x1) - (y2 - y1)) + (y2 - y1)) by ring. eapply Rle_trans; [apply Rabs_triang|]. lra. }
  split; [lra|]. destruct (rnd_error (x2 - x1)) as (e & h & He & Hh & Rn).
  assert (Last : Rabs (rnd (x2 - x1) - (y2 - y1)) <= (22 + 2 * n) * (uu * M * A)).
  { rewrite Rn. replace ((x2 - x1) * (1 + e) + h - (y2 - y1)) with (((x2 - x1) - (y2 - y1)) + e * (x2 - x1) + h) by ring.
    eapply Rle_trans; [apply Rabs_triang|]. eapply Rle_trans; [apply Rplus_le_compat_r, Rabs_triang|]. rewrite Rabs_mult.
    assert (Rabs e * Rabs (x2 - x1) <= uu * (M * A * (1 + / 1000))) by (apply Rmult_le_compat; auto using Rabs_pos).
    replace (uu * (M * A * (1 + / 1000))) with (uu * M * A * (1 + / 1000)) in H by ring. lra. }
  split; [replace ((22 + 2 * n) * uu * M * A) with ((22 + 2 * n) * (uu * M * A)) by ring; exact Last|].
  replace (rnd (x2 - x1)) with ((rnd (x2 - x1) - (y2 - y1)) + (y2 - y1)) by ring. eapply Rle_trans; [apply Rabs_triang|]. lra.
Qed.

Lemma df_near nan nan' eps (TR : Trans F64) c M d1 d2 x : accurate eps TR -> 0 <= eps -> rates_within M c -> bpow radix2 (-900) <= M <= bpow radix2 900 -> (bumps c <= 1000)%nat ->
  i32 d1 -> i32 d2 -> let A := Rabs (years (base_date c) d1) + Rabs (years (base_date c) d2) in M * A <= 600 ->
  df nan c d1 d2 = Ok x -> finite x /\ exists y, df nan' (exact_curve c) d1 d2 = Ok y /\ 
    Rabs (real x - y) <= ((1 + eps) * exp ((22 + 2 * INR (bumps c)) * uu * M * A) - 1) * y.
Proof.
  intros HT E0 W BM NB D1 D2 A Hmax E. pose proof (within_pos M c W (proj2 BM)) as M0. unfold df in *.
  pose proof (few _ NB) as Fw. pose proof uu_1 as U.
  assert (A0 : 0 <= A) by (unfold A; pose proof (Rabs_pos (years (base_date c) d1)); pose proof (Rabs_pos (years (base_date c) d2)); lra).
  destruct (d1 =? d2)%Z eqn:E12.
  - assert (X : x = n1) by congruence. subst x. destruct (ofZ_exact 1 ltac:(lia)) as [F1 R1]. change (nofZ 1 : F64) with (n1 : F64) in F1, R1.
    split; [exact F1|]. exists 1. split; [reflexivity|]. rewrite R1. replace (1 - 1) with 0 by ring. rewrite Rabs_R0.
    assert (1 <= exp ((22 + 2 * INR (bumps c)) * uu * M * A)).
    { rewrite <- exp_0. apply exp_mono. repeat apply Rmult_le_pos; lra. }
    nra.
  - apply Z.eqb_neq in E12.
    destruct (rt nan c d1) as [x1|m|m] eqn:E1; try discriminate. cbn [bind] in E. destruct (rt nan c d2) as [x2|m|m] eqn:E2; try discriminate. cbn [bind] in E.
    assert (X : x = nexp (nsub x2 x1)) by congruence. clear E.
    destruct (rt_near nan nan' TR c M d1 x1 W BM NB D1 E1) as (F1 & y1 & Y1 & B1 & N1).
    destruct (rt_near nan nan' TR c M d2 x2 W BM NB D2 E2) as (F2 & y2 & Y2 & B2 & N2). rewrite Y1, Y2. cbn [bind].
    assert (T : tiny <= uu * M * A * / 1000).
    { destruct (slack_small M (proj1 BM)) as [_ ST]. pose proof (years_apart (base_date c) d1 d2 E12) as YA. fold A in YA.
      eapply Rle_trans; [exact ST|]. rewrite (Rmult_assoc (uu * M) A). apply Rmult_le_compat_l; [apply Rmult_le_pos; lra|lra]. }
    destruct (difference_near _ A M (real x1) (real x2) y1 y2 _ _ Fw M0 (Rabs_pos _) (Rabs_pos _) eq_refl Hmax T B1 B2 N1 N2) as (S1 & S2 & S3).
    destruct (sub_spec x2 x1 F2 F1) as [Fd Rd].
    { apply (bound_in_range _ 10); [lia|]. change (bpow radix2 10) with 1024. lra. }
    destruct (HT (nsub x2 x1) Fd) as [Fe Ne]; [rewrite Rd; exact S3|]. rewrite X. split; [exact Fe|].
    exists (exp (y2 - y1)). split; [reflexivity|]. apply (exp_near eps _ _ (real (nsub x2 x1))); [exact E0| |exact Ne]. rewrite Rd. exact S2.
Qed.

(** ** Products of discount factors, on any curve *)

Lemma df_value nan eps (TR : Trans F64) c d1 d2 x a1 a2 : accurate eps TR -> 0 <= eps -> rt nan c d1 = Ok a1 -> rt nan c d2 = Ok a2 -> 
  finite a1 -> finite a2 -> Rabs (real a1) <= 300 -> Rabs (real a2) <= 300 -> df nan c d1 d2 = Ok x ->
  finite x /\ exists s e, real x = exp s * (1 + e) /\ Rabs e <= eps /\ Rabs (s - (real a2 - real a1)) <= 601 * uu.
Proof.
  intros HT E0 E1 E2 F1 F2 B1 B2 E. pose proof uu_1 as U. unfold df in E. destruct (d1 =? d2)%Z eqn:E12.
  - assert (X : x = n1) by congruence. subst x. destruct (ofZ_exact 1 ltac:(lia)) as [F R]. change (nofZ 1 : F64) with (n1 : F64) in F, R. split; [exact F|].
    exists 0, 0. rewrite R, exp_0, Rabs_R0. apply Z.eqb_eq in E12. subst d2. assert (a1 = a2) by congruence. subst a2.
    split; [ring|]. split; [exact E0|]. replace (0 - (real a1 - real a1)) with 0 by ring. rewrite Rabs_R0. lra.
  - rewrite E1, E2 in E. cbn [bind] in E. assert (X : x = nexp (nsub a2 a1)) by congruence. clear E.
    assert (B : Rabs (real a2 - real a1) <= 600). { unfold Rminus. eapply Rle_trans; [apply Rabs_triang|]. rewrite Rabs_Ropp. lra. }
    destruct (sub_spec a2 a1 F2 F1) as [Fd Rd].
    { apply (bound_in_range _ 10); [lia|]. change (bpow radix2 10) with 1024. lra. }
    destruct (rnd_error (real a2 - real a1)) as (e & h & He & Hh & Rn).
    assert (TU : tiny <= uu) by (apply bpow_le; lia).
    assert (Near : Rabs (rnd (real a2 - real a1) - (real a2 - real a1)) <= 601 * uu).
    { rewrite Rn. replace ((real a2 - real a1) * (1 + e) + h - (real a2 - real a1)) with (e * (real a2 - real a1) + h) by ring.
      eapply Rle_trans; [apply Rabs_triang|]. rewrite Rabs_mult.
      assert (Rabs e * Rabs (real a2 - real a1) <= uu * 600) by (apply Rmult_le_compat; auto using Rabs_pos). lra. }
    destruct (HT (nsub a2 a1) Fd) as [Fe Ne].
    { rewrite Rd. replace (rnd (real a2 - real a1)) with ((rnd (real a2 - real a1) - (real a2 - real a1)) + (real a2 - real a1)) by ring.
      eapply Rle_trans; [apply Rabs_triang|]. lra. }
    rewrite X. split; [exact Fe|]. rewrite Rd in Ne. set (s := rnd (real a2 - real a1)) in *. pose proof (exp_pos s) as P.
    exists s, (real (nexp (nsub a2 a1)) / exp s - 1). split; [field; lra|]. split; [|exact Near].
    replace (real (nexp (nsub a2 a1)) / exp s - 1) with ((real (nexp (nsub a2 a1)) - exp s) * / exp s) by (field; lra).
    rewrite Rabs_mult, (Rabs_right (/ exp s)) by (left; now apply Rinv_0_lt_compat).
    apply Rmult_le_reg_r with (exp s); [exact P|]. rewrite Rmult_assoc, Rinv_l, Rmult_1_r by lra. exact Ne.
Qed.

Lemma df_positive_double nan eps (TR : Trans F64) c d1 d2 x a1 a2 : accurate eps TR -> 0 <= eps < 1 -> rt nan c d1 = Ok a1 -> rt nan c d2 = Ok a2 -> 
  finite a1 -> finite a2 -> Rabs (real a1) <= 300 -> Rabs (real a2) <= 300 -> df nan c d1 d2 = Ok x -> finite x /\ 0 < real x.
Proof.
  intros HT [E0 E3] E1 E2 F1 F2 B1 B2 E. destruct (df_value nan eps TR c d1 d2 x a1 a2 HT E0 E1 E2 F1 F2 B1 B2 E) as (F & s & e & R & He & _).
  split; [exact F|]. rewrite R. apply Rabs_le_inv in He. apply Rmult_lt_0_compat; [apply exp_pos|lra].
Qed.

Lemma exp_upper d : 0 <= d <= / 2 -> exp d <= 1 + 2 * d.
Proof.
  intros [D0 D1]. pose proof (exp_ineq1_le (- d)) as L. pose proof (exp_pos d) as P. pose proof (exp_pos (- d)) as P'.
  assert (Inv : exp d * exp (- d) = 1) by (rewrite <- exp_plus, Rplus_opp_r; apply exp_0).
  assert (exp d * (1 + - d) <= 1) by (rewrite <- Inv; apply Rmult_le_compat_l; lra). nra.
Qed.

Lemma ratio_bound eps t x y z e1 e2 e3 s : 0 <= eps <= / 1000 -> 0 <= t <= / 1000 -> Rabs e1 <= eps -> Rabs e2 <= eps -> Rabs e3 <= eps -> 1 - t <= s <= 1 + t -> 0 < z ->
  x * y = z * s * ((1 + e1) * (1 + e2)) -> Rabs (x * y - z * (1 + e3)) <= (4 * eps + 2 * t) * (z * (1 + e3)).
Proof.
  intros E T H1 H2 H3 S P ->. apply Rabs_le_inv in H1, H2, H3.
  replace (z * s * ((1 + e1) * (1 + e2)) - z * (1 + e3)) with (z * (s * ((1 + e1) * (1 + e2)) - (1 + e3))) by ring.
  rewrite Rabs_mult, (Rabs_right z) by lra. replace ((4 * eps + 2 * t) * (z * (1 + e3))) with (z * ((4 * eps + 2 * t) * (1 + e3))) by ring.
  apply Rmult_le_compat_l; [lra|]. 
  set (p := (1 + e1) * (1 + e2)). assert (Pl : 1 - 2 * eps <= p) by (unfold p; nra). assert (Pu : p <= 1 + 2 * eps + eps * / 1000) by (unfold p; nra).
  assert (Su : s * p <= p + t * p) by nra. assert (Sl : p - t * p <= s * p) by nra. assert (t * p <= t * (1 + / 100)) by (apply Rmult_le_compat_l; lra).
  assert (Lo : (4 * eps + 2 * t) * (1 - / 1000) <= (4 * eps + 2 * t) * (1 + e3)) by (apply Rmult_le_compat_l; lra).
  apply Rabs_le. lra.
Qed.

Lemma df_compose_double nan eps (TR : Trans F64) c d1 d2 d3 x y z a1 a2 a3 : accurate eps TR -> 0 <= eps <= / 1000 ->
  rt nan c d1 = Ok a1 -> rt nan c d2 = Ok a2 -> rt nan c d3 = Ok a3 -> finite a1 -> finite a2 -> finite a3 ->
  Rabs (real a1) <= 300 -> Rabs (real a2) <= 300 -> Rabs (real a3) <= 300 ->
  df nan c d1 d2 = Ok x -> df nan c d2 d3 = Ok y -> df nan c d1 d3 = Ok z ->
  Rabs (real x * real y - real z) <= (4 * eps + bpow radix2 (-40)) * real z.
Proof.
  intros HT [E0 E3] E1 E2 E4 F1 F2 F3 B1 B2 B3 Ex Ey Ez.
  destruct (df_value nan eps TR c d1 d2 x a1 a2 HT E0 E1 E2 F1 F2 B1 B2 Ex) as (_ & s1 & e1 & R1 & H1 & N1).
  destruct (df_value nan eps TR c d2 d3 y a2 a3 HT E0 E2 E4 F2 F3 B2 B3 Ey) as (_ & s2 & e2 & R2 & H2 & N2).
  destruct (df_value nan eps TR c d1 d3 z a1 a3 HT E0 E1 E4 F1 F3 B1 B3 Ez) as (_ & s3 & e3 & R3 & H3 & N3).
  set (d := s1 + s2 - s3). assert (Ed : exp s1 * exp s2 = exp s3 * exp d) by (rewrite <- !exp_plus; f_equal; unfold d; ring).
  apply Rabs_le_inv in N1, N2, N3. pose proof uu_1 as U. assert (Bd : Rabs d <= 1803 * uu) by (apply Rabs_le; unfold d; lra).
  set (t := 2 * (1803 * uu)). assert (Tt : 2 * t <= bpow radix2 (-40)).
  { unfold t. replace (bpow radix2 (-40)) with (8192 * uu); [lra|]. unfold uu. change (-40)%Z with (13 + -53)%Z. rewrite bpow_plus. reflexivity. }
  assert (T1 : 0 <= t <= / 1000). { split; [unfold t; lra|]. change (bpow radix2 (-40)) with (/ 1099511627776) in Tt. lra. }
  assert (Sd : 1 - t <= exp d <= 1 + t).
  { apply Rabs_le_inv in Bd. split.
    - pose proof (exp_ineq1_le d). unfold t. lra.
    - apply Rle_trans with (exp (1803 * uu)); [apply exp_mono; lra|]. unfold t. apply exp_upper. unfold t in T1. lra. }
  rewrite R1, R2, R3. pose proof (exp_pos s3) as P.
  eapply Rle_trans; [apply (ratio_bound eps t _ _ (exp s3) e1 e2 e3 (exp d)); auto|].
  - rewrite <- Ed. ring.
  - apply Rmult_le_compat_r; [|lra]. apply Rabs_le_inv in H3. apply Rmult_le_pos; lra.
Qed.

Lemma df_same_double nan (TR : Trans F64) (c : curve F64) d : df nan c d d = Ok n1.
Proof. unfold df. now rewrite Z.eqb_refl. Qed.

Lemma df_inverse_double nan eps (TR : Trans F64) c d1 d2 x y a1 a2 : accurate eps TR -> 0 <= eps <= / 1000 ->
  rt nan c d1 = Ok a1 -> rt nan c d2 = Ok a2 -> finite a1 -> finite a2 -> Rabs (real a1) <= 300 -> Rabs (real a2) <= 300 ->
  df nan c d1 d2 = Ok x -> df nan c d2 d1 = Ok y -> Rabs (real x * real y - 1) <= 4 * eps + bpow radix2 (-40).
Proof.
  intros HT E E1 E2 F1 F2 B1 B2 Ex Ey. destruct (ofZ_exact 1 ltac:(lia)) as [_ R]. change (nofZ 1 : F64) with (n1 : F64) in R.
  pose proof (df_compose_double nan eps TR c d1 d2 d1 x y n1 a1 a2 a1 HT E E1 E2 E1 F1 F2 F1 B1 B2 B1 Ex Ey (df_same_double nan TR c d1)) as H.
  rewrite R, Rmult_1_r in H. exact H.
Qed.

(** ** The exponential rounded to the nearest double is accurate *)

Lemma exp_3_pow n : exp (INR n) <= 3 ^ n.
Proof.
  induction n as [|n IH]; [simpl; rewrite exp_0; lra|]. rewrite S_INR, exp_plus. cbn [pow]. rewrite Rmult_comm.
  apply Rmult_le_compat; [left; apply exp_pos|left; apply exp_pos|apply exp_le_3|exact IH].
Qed.

Lemma three_pow : 3 ^ 640 <= bpow radix2 1020.
Proof.
  replace 640%nat with (17 * 37 + 11)%nat by reflexivity. rewrite pow_add, pow_mult.
  replace (1020)%Z with (Z.of_nat 37 * 27 + 21)%Z by reflexivity. rewrite bpow_plus.
  assert (A : bpow radix2 (Z.of_nat 37 * 27) = bpow radix2 27 ^ 37).
  { generalize 37%nat. intros n. induction n as [|n IH]; [reflexivity|]. cbn [pow]. rewrite <- IH, <- bpow_plus. f_equal. lia. }
  rewrite A. change (bpow radix2 27) with 134217728. change (bpow radix2 21) with 2097152.
  apply Rmult_le_compat; [apply pow_le, pow_le; lra|apply pow_le; lra| |simpl; lra]. apply pow_incr. simpl. lra.
Qed.

Lemma exp_640 v : Rabs v <= 640 -> bpow radix2 (-1020) <= exp v <= bpow radix2 1020.
Proof.
  intros H. apply Rabs_le_inv in H. assert (Up : exp 640 <= bpow radix2 1020).
  { replace 640 with (INR 640) by (rewrite INR_IZR_INZ; reflexivity). eapply Rle_trans; [apply exp_3_pow|exact three_pow]. }
  pose proof (exp_pos 640) as P. split.
  - apply Rle_trans with (exp (Ropp 640)); [|apply exp_mono; lra]. rewrite exp_Ropp. change (-1020)%Z with (Z.opp 1020). rewrite bpow_opp. now apply Rinv_le.
  - eapply Rle_trans; [|exact Up]. apply exp_mono. lra.
Qed.

Definition nearest_double (v : R) : F64 :=
  SpecFloat.binary_normalize 53 1024 (ZnearestE (scaled_mantissa radix2 (FLT_exp (-1074) 53) v)) (cexp radix2 (FLT_exp (-1074) 53) v) false.

Lemma nearest_double_spec v : in_range v -> finite (nearest_double v) /\ real (nearest_double v) = rnd v.
Proof.
  intros H. unfold nearest_double. set (m := ZnearestE _). set (e := cexp _ _ v).
  assert (F : F2R (Float radix2 m e) = rnd v) by reflexivity.
  rewrite binary_normalize_equiv.
  pose proof (binary_normalize_correct 53 1024 Hprec Hmax mode_NE m e false) as C. rewrite F in C.
  assert (Idem : round radix2 (SpecFloat.fexp 53 1024) (round_mode mode_NE) (rnd v) = rnd v).
  { rewrite fexp_eq. apply round_generic; [apply valid_rnd_N|]. apply generic_format_round; [apply FLT_exp_valid; reflexivity|apply valid_rnd_N]. }
  cbv zeta in C. rewrite Idem in C. unfold in_range in H. rewrite (Rlt_bool_true _ _ H) in C. destruct C as (C1 & C2 & _).
  split; [now apply finite_of_B|]. rewrite real_of_B. exact C1.
Qed.

Definition rounded_exp : Trans F64 := {| nexp := fun x => nearest_double (exp (real x)); nln := fun x => nearest_double (ln (real x)) |}.

Lemma rounded_exp_accurate : accurate (2 * uu) rounded_exp.
Proof.
  intros x F B. destruct (exp_640 _ B) as [L U]. pose proof (exp_pos (real x)) as P.
  destruct (nearest_double_spec (exp (real x))) as [Fn Rn].
  { apply (bound_in_range _ 1020); [lia|]. rewrite Rabs_right by lra. exact U. }
  cbn [nexp rounded_exp]. split; [exact Fn|]. rewrite Rn.
  destruct (rnd_error (exp (real x))) as (e & h & He & Hh & ->).
  replace (exp (real x) * (1 + e) + h - exp (real x)) with (e * exp (real x) + h) by ring.
  eapply Rle_trans; [apply Rabs_triang|]. rewrite Rabs_mult, (Rabs_right (exp (real x))) by lra.
  assert (tiny <= uu * exp (real x)).
  { apply Rle_trans with (uu * bpow radix2 (-1020)); [unfold uu, tiny; rewrite <- bpow_plus; apply bpow_le; lia|]. apply Rmult_le_compat_l; [apply bpow_ge_0|exact L]. }
  assert (Rabs e * exp (real x) <= uu * exp (real x)) by (apply Rmult_le_compat_r; lra). lra.
Qed.

(** ** A curve of two points, bumped *)

Definition bumped_curve : res (curve F64) :=
  let* f := linear_new [(100, nlit 1 16); (465, nlit 1 8)]%Z Flat Flat in Ok (ContinuouslyCompoundedFlatBump (RateCurveAct365 100%Z f) (nlit 1 1024)).

Lemma bumped_curve_fine : exists c a1 a2, bumped_curve = Ok c /\ rates_within 1 c /\ bumps c = 1%nat /\
  (forall TR : Trans F64, rt F_nan c 200%Z = Ok a1 /\ rt F_nan c 400%Z = Ok a2) /\ finite a1 /\ finite a2 /\ Rabs (real a1) <= 300 /\ Rabs (real a2) <= 300 /\ real a1 <> real a2.
Proof.
  unfold bumped_curve. destruct (linear_new [(100, nlit 1 16); (465, nlit 1 8)]%Z Flat Flat) as [f|m|m] eqn:E; try (vm_compute in E; discriminate).
  cbn [bind]. eexists _, _, _. split; [reflexivity|]. split; [|split; [reflexivity|split]].
  - cbn [rates_within]. assert (R3 : real (nlit 1 1024) = / 1024) by (vm_compute; lra). split; [split; reflexivity|]. rewrite R3, Rabs_right by lra.
    split; [unfold i32; lia|]. exists [(100, nlit 1 16); (465, nlit 1 8)]%Z, Flat, Flat. split; [exact E|]. split; [left; reflexivity|]. split; [left; reflexivity|].
    intros p [<-|[<-|[]]]; cbn [fst snd]; (split; [unfold i32; lia|]); (split; [split; reflexivity|]).
    + replace (real (nlit 1 16)) with (/ 16) by (vm_compute; lra). rewrite Rabs_right; lra.
    + replace (real (nlit 1 8)) with (/ 8) by (vm_compute; lra). rewrite Rabs_right; lra.
  - intros TR. assert (F : f = mkLinear Flat Flat [(100, nlit 1 16); (465, nlit 1 8)]%Z) by (vm_compute in E; injection E as <-; reflexivity).
    rewrite F. split; vm_compute; reflexivity.
  - assert (X : forall x, -300 <= x <= 300 -> Rabs x <= 300) by (intros; apply Rabs_le; lra).
    split; [split; reflexivity|]. split; [split; reflexivity|]. split; [apply X; vm_compute; lra|]. split; [apply X; vm_compute; lra|]. vm_compute. lra.
Qed.
