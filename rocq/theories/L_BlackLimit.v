(** Expected values of the diffusion in the code against those of a lognormal one. *)
From Coq Require Import ZArith List String Bool Lia Reals Lra Psatz Permutation.
From Verif Require Import Prelude Num M_Dates M_Calendar M_Curves M_Fixings M_Forward M_Vol M_Black76 M_Instruments M_Deps M_Risk M_Reports M_MonteCarlo
  S_Math S_Deps S_Instruments S_Risk S_Reports S_MonteCarlo S_Expectation
  L_Num L_Vol L_Normal L_Black76 L_Diffusion L_Models L_Paths L_MonteCarlo L_Expectation L_Gauss L_Expected L_Unbiased.
Import ListNotations.
Open Scope list_scope.
Open Scope R_scope.

(** Deviations leg by leg. *)
Definition devs_of (vs : list R) (steps : list nat) : list R :=
  List.concat (map (fun gn => repeat (sqrt (fst gn / INR (snd gn))) (snd gn)) (combine vs steps)).
Lemma devs_cons v vs n steps : devs_of (v :: vs) (n :: steps) = repeat (sqrt (v / INR n)) n ++ devs_of vs steps.
Proof. reflexivity. Qed.
Lemma devs_length vs steps : List.length vs = List.length steps -> List.length (devs_of vs steps) = list_sum steps.
Proof.
  revert steps. induction vs as [|v vs IH]; intros [|n steps] L; try discriminate; [reflexivity|]. rewrite devs_cons, app_length, repeat_length, IH by (now injection L). reflexivity.
Qed.
Lemma devs_first k : forall vs steps, List.length vs = List.length steps ->
  firstn (list_sum (firstn k steps)) (devs_of vs steps) = devs_of (firstn k vs) (firstn k steps).
Proof.
  induction k as [|k IH]; intros [|v vs] [|n steps] L; try discriminate; try reflexivity. cbn [firstn]. rewrite !devs_cons.
  change (list_sum (n :: firstn k steps)) with (n + list_sum (firstn k steps))%nat. rewrite firstn_app, repeat_length.
  rewrite firstn_all2 by (rewrite repeat_length; lia). replace (n + list_sum (firstn k steps) - n)%nat with (list_sum (firstn k steps)) by lia.
  f_equal. apply IH. now injection L.
Qed.
Lemma variance_app a b : variance_of (a ++ b) = variance_of a + variance_of b.
Proof. induction a as [|s a IH]; [cbn; unfold variance_of, sum; cbn; ring|]. cbn [app]. rewrite !variance_cons, IH. ring. Qed.
Lemma variance_repeat s n : variance_of (repeat s n) = INR n * (s * s).
Proof. induction n as [|n IH]; [cbn; unfold variance_of, sum; cbn; ring|]. cbn [repeat]. rewrite variance_cons, IH, S_INR. ring. Qed.
Lemma devs_variance vs steps : Forall2 (fun v n => 0 <= v / INR n /\ (1 <= n)%nat) vs steps -> variance_of (devs_of vs steps) = sum vs.
Proof.
  induction 1 as [|v n vs steps [P L] F IH]; [reflexivity|]. rewrite devs_cons, variance_app, variance_repeat, sqrt_def, IH by exact P.
  change (sum (v :: vs)) with (v + sum vs). assert (0 < INR n) by (apply lt_0_INR; lia). f_equal. field. lra.
Qed.
Lemma devs_small most vs steps : Forall2 (fun v n => 0 <= v / INR n /\ v / INR n <= most) vs steps -> Forall (fun s => s * s <= most) (devs_of vs steps).
Proof.
  induction 1 as [|v n vs steps [P L] F IH]; [constructor|]. rewrite devs_cons. apply Forall_app. split; [|exact IH].
  apply Forall_forall. intros s I. apply repeat_spec in I. subst s. now rewrite sqrt_def.
Qed.
Lemma devs_nonneg vs steps : Forall (fun s => 0 <= s) (devs_of vs steps).
Proof.
  revert steps. induction vs as [|v vs IH]; intros [|n steps]; try constructor. rewrite devs_cons. apply Forall_app. split; [|apply IH].
  apply Forall_forall. intros s I. apply repeat_spec in I. subst s. apply sqrt_pos.
Qed.
Lemma gained_length b marks : List.length (gained b marks) = List.length marks.
Proof. revert b. induction marks as [|m marks IH]; intros b; cbn; auto. Qed.
Lemma gained_sum marks : forall j b m, nth_error marks j = Some m -> sum (firstn (S j) (gained b marks)) = mk_variance m - b.
Proof.
  induction marks as [|m0 marks IH]; intros j b m E; [destruct j; discriminate|]. cbn [gained firstn].
  change (sum (mk_variance m0 - b :: ?l)) with (mk_variance m0 - b + sum l). destruct j as [|j].
  - injection E as <-. unfold sum. cbn. ring.
  - rewrite (IH j _ m E). ring.
Qed.
Lemma Forall2_first {A B} (Q : A -> B -> Prop) k : forall l l', Forall2 Q l l' -> Forall2 Q (firstn k l) (firstn k l').
Proof. induction k as [|k IH]; intros l l' F; [constructor|]. destruct F; [constructor|]. cbn. constructor; auto. Qed.
Lemma Forall2_and {A B} (Q Q' : A -> B -> Prop) l l' : Forall2 Q l l' -> Forall2 Q' l l' -> Forall2 (fun a b => Q a b /\ Q' a b) l l'.
Proof. induction 1; intros F; inversion F; subst; constructor; auto. Qed.
Lemma Forall2_mono {A B} (Q Q' : A -> B -> Prop) l l' : (forall a b, Q a b -> Q' a b) -> Forall2 Q l l' -> Forall2 Q' l l'.
Proof. intros H. induction 1; constructor; auto. Qed.

(** Where a path is at an observation. *)
Lemma path_at marks steps l j m : List.length steps = List.length marks -> nth_error marks j = Some m ->
  nth j (path_of marks steps l) 0 = (mk_forward m - mk_displacement m) *
    over euler (firstn (list_sum (firstn (S j) steps)) l) (devs_of (firstn (S j) (gained 0 marks)) (firstn (S j) steps)) + mk_displacement m.
Proof.
  intros L E. assert (J : (j < List.length marks)%nat) by (apply nth_error_Some; congruence). unfold path_of.
  set (g := fun j => let m := nth j marks (mkMark 0 0 0) in
    (mk_forward m - mk_displacement m) * grown l (deviations marks steps) (list_sum (firstn (S j) steps)) + mk_displacement m).
  rewrite (nth_indep _ 0 (g 0%nat)) by (now rewrite map_length, seq_length). rewrite (map_nth g), seq_nth by exact J. cbn [plus]. unfold g. cbn zeta.
  rewrite (nth_error_nth _ _ _ E), grown_over. change (deviations marks steps) with (devs_of (gained 0 marks) steps).
  rewrite devs_first by (now rewrite gained_length). reflexivity.
Qed.
Lemma path_single m n l : List.length l = n ->
  path_of [m] [n] l = [(mk_forward m - mk_displacement m) * over euler l (repeat (sqrt (mk_variance m / INR n)) n) + mk_displacement m].
Proof.
  intros L. unfold path_of. cbn [List.length seq map nth firstn gained]. rewrite grown_over. unfold deviations. cbn [gained combine map List.concat fst snd].
  rewrite app_nil_r, Rminus_0_r. change (list_sum [n]) with (n + 0)%nat. rewrite Nat.add_0_r, !firstn_all2; [reflexivity|now rewrite repeat_length|lia].
Qed.

(** Growth no faster than squares, and continuity. *)
Definition smooth (L : R) (h : R -> R) : Prop := forall x y, Rabs (h x - h y) <= L * (1 + Rabs x + Rabs y) * Rabs (x - y).
Lemma smooth_nonneg L h : smooth L h -> 0 <= L.
Proof.
  intros H. specialize (H 1 0). rewrite Rabs_R1, Rabs_R0, Rminus_0_r, Rabs_R1 in H. pose proof (Rabs_pos (h 1 - h 0)). lra.
Qed.
Lemma smooth_continuous L h : smooth L h -> forall x, continuity_pt h x.
Proof.
  intros H x eps E. pose proof (smooth_nonneg L h H) as L0. set (c := L * (2 + 2 * Rabs x) + 1). pose proof (Rabs_pos x) as X0.
  assert (C0 : 0 < c) by (unfold c; nra). exists (Rmin 1 (eps / c)). split; [apply Rmin_glb_lt; [lra|now apply Rdiv_lt_0_compat]|].
  intros z [_ B]. unfold dist in *. cbn in *. unfold R_dist in *. eapply Rle_lt_trans; [apply H|].
  assert (B1 : Rabs (z - x) < 1) by (eapply Rlt_le_trans; [exact B|apply Rmin_l]).
  assert (B2 : Rabs (z - x) < eps / c) by (eapply Rlt_le_trans; [exact B|apply Rmin_r]).
  apply (Rmult_lt_compat_l c) in B2; [|exact C0]. replace (c * (eps / c)) with eps in B2 by (field; lra).
  assert (Z : Rabs z <= 1 + Rabs x). { replace z with ((z - x) + x) by ring. eapply Rle_trans; [apply Rabs_triang|]. lra. }
  pose proof (Rabs_pos (z - x)) as P. eapply Rle_lt_trans; [|exact B2]. apply Rmult_le_compat_r; [exact P|]. unfold c.
  assert (L * (1 + Rabs z + Rabs x) <= L * (2 + 2 * Rabs x)) by (apply Rmult_le_compat_l; lra). lra.
Qed.
Lemma lipschitz_square h : (forall x y, Rabs (h x - h y) <= Rabs (x - y)) -> smooth (1 + 2 * Rabs (h 0)) (fun x => h x * h x).
Proof.
  intros Lip x y. replace (h x * h x - h y * h y) with ((h x + h y) * (h x - h y)) by ring. rewrite Rabs_mult.
  assert (B : forall z, Rabs (h z) <= Rabs (h 0) + Rabs z).
  { intros z. replace (h z) with (h 0 + (h z - h 0)) by ring. eapply Rle_trans; [apply Rabs_triang|]. specialize (Lip z 0). rewrite Rminus_0_r in Lip. lra. }
  apply Rmult_le_compat; try apply Rabs_pos; [|apply Lip]. eapply Rle_trans; [apply Rabs_triang|]. pose proof (B x). pose proof (B y).
  pose proof (Rabs_pos (h 0)). pose proof (Rabs_pos x). pose proof (Rabs_pos y). nra.
Qed.
Lemma sq_abs x : Rabs x * Rabs x = x * x.
Proof. rewrite <- Rabs_mult. apply Rabs_right, Rle_ge, Rle_0_sqr. Qed.
Lemma abs_below x : Rabs x <= 1 + x * x.
Proof. unfold Rabs. destruct Rcase_abs; nra. Qed.

Lemma ends_lipschitz pc k x y : Rabs (ends pc x k - ends pc y k) <= Rabs (x - y).
Proof. unfold ends, Rmax, Rabs. destruct pc; repeat destruct Rle_dec; repeat destruct Rcase_abs; lra. Qed.

Section Normal.
  Variable N : R -> R.
  Hypothesis HN : normal_cdf N.
  Notation mean := (mean_of N).
  Notation expected := (expected N).

  Lemma smooth_exists devs : forall h L, smooth L h -> exists u M, smooth M u /\ forall p, expected (List.length devs) (fun l => h (p * over euler l devs)) (u p).
  Proof.
    induction devs as [|s devs IH]; intros h L Sm.
    - exists h, L. split; [exact Sm|]. intros p. apply ex_none. unfold over. cbn. f_equal. ring.
    - destruct (IH h L Sm) as (u & M & LM & E). pose proof (smooth_nonneg _ _ LM) as M0.
      assert (EX : forall p, exists v, mean (fun x => u (p * euler s x)) v).
      { intros p. apply (mean_exists N HN _ (Rabs (u 0) + M * (1 + 4 * (p * p))) (M * (4 * (p * p * (s * s))))).
        - intros x. apply (continuity_pt_comp (fun x => p * euler s x) u); [|apply (smooth_continuous M), LM]. apply derivable_continuous_pt. eexists.
          apply (derivable_pt_lim_ext (fun y => p * s * y + p * 1)); [intros; unfold euler; ring|]. apply (diff_linear (p * s) p id (fun _ => 1)); [apply derivable_pt_lim_id|apply derivable_pt_lim_const].
        - intros x. set (y := p * euler s x). replace (u y) with (u 0 + (u y - u 0)) by ring. eapply Rle_trans; [apply Rabs_triang|].
          assert (Q : Rabs (u y - u 0) <= M * (1 + 2 * (y * y))).
          { eapply Rle_trans; [apply LM|]. rewrite Rabs_R0, Rminus_0_r, Rmult_assoc. apply Rmult_le_compat_l; [exact M0|].
            pose proof (sq_abs y). pose proof (abs_below y). nra. }
          assert (Y : y * y <= 2 * (p * p) + 2 * (p * p * (s * s)) * (x * x)).
          { unfold y, euler. pose proof (Rle_0_sqr (p - p * (x * s))) as SQ. unfold Rsqr in SQ. nra. }
          assert (M * (1 + 2 * (y * y)) <= M * (1 + 2 * (2 * (p * p) + 2 * (p * p * (s * s)) * (x * x)))) by (apply Rmult_le_compat_l; lra). lra. }
      pose (U := fun p => proj1_sig (mean_exists_at N HN _ (EX p))).
      assert (HU : forall p, mean (fun x => u (p * euler s x)) (U p)) by (intros p; unfold U; now destruct mean_exists_at).
      exists U, (M * (2 + s * s)). split.
      + intros p q. set (c := M * (1 + Rabs p + Rabs q) * Rabs (p - q)). assert (C0 : 0 <= c).
        { unfold c. pose proof (Rabs_pos p). pose proof (Rabs_pos q). apply Rmult_le_pos; [apply Rmult_le_pos; lra|apply Rabs_pos]. }
        assert (B : mean (fun x => c * 1 + c * (euler s x * euler s x)) (c * 1 + c * (1 + s * s))).
        { apply (mean_linear N HN _ _ (fun _ => 1)); [now apply mean_const|now apply mean_euler2]. }
        assert (Q : forall x, Rabs (u (p * euler s x) - u (q * euler s x)) <= c * 1 + c * (euler s x * euler s x)).
        { intros x. generalize (euler s x). intros e. eapply Rle_trans; [apply LM|]. rewrite <- Rmult_minus_distr_r, !Rabs_mult.
          replace (c * 1 + c * (e * e)) with (M * ((1 + Rabs p + Rabs q) * Rabs (p - q) * (1 + e * e))) by (unfold c; ring).
          rewrite !Rmult_assoc. apply Rmult_le_compat_l; [exact M0|]. pose proof (Rabs_pos p). pose proof (Rabs_pos q). pose proof (Rabs_pos (p - q)) as D.
          replace ((1 + Rabs p * Rabs e + Rabs q * Rabs e) * (Rabs (p - q) * Rabs e)) with (Rabs (p - q) * (Rabs e + (Rabs p + Rabs q) * (Rabs e * Rabs e))) by ring.
          replace ((1 + Rabs p + Rabs q) * (Rabs (p - q) * (1 + e * e))) with (Rabs (p - q) * ((1 + e * e) + (Rabs p + Rabs q) * (1 + e * e))) by ring.
          apply Rmult_le_compat_l; [exact D|]. rewrite sq_abs. apply Rplus_le_compat; [apply abs_below|]. apply Rmult_le_compat_l; lra. }
        replace (M * (2 + s * s) * (1 + Rabs p + Rabs q) * Rabs (p - q)) with (c * 1 + c * (1 + s * s)) by (unfold c; ring). apply Rabs_le.
        pose proof (mean_linear N HN 1 (-1) _ _ _ _ (HU p) (HU q)) as D. split.
        * apply Ropp_le_cancel. rewrite Ropp_involutive. replace (- (U p - U q)) with ((-1) * (1 * U p + (-1) * U q)) by ring.
          eapply (mean_mono N HN); [|apply mean_scale; [exact HN|exact D]|exact B]. intros x. specialize (Q x). cbn beta. unfold Rabs in Q at 1. destruct Rcase_abs in Q; lra.
        * replace (U p - U q) with (1 * U p + (-1) * U q) by ring. eapply (mean_mono N HN); [|exact D|exact B]. intros x. specialize (Q x). cbn beta. unfold Rabs in Q at 1. destruct Rcase_abs in Q; lra.
      + intros p. cbn [List.length]. apply (ex_draw N _ _ (fun x => u (p * euler s x))); [|apply HU]. intros x.
        apply (expected_ext N _ (fun l => h (p * euler s x * over euler l devs))); [|apply E]. intros l _. rewrite over_cons. f_equal. ring.
  Qed.

  Lemma product_ones (devs : list R) : product (map (fun _ => 1) devs) = 1.
  Proof. induction devs as [|s devs IH]; cbn; [reflexivity|]. unfold product in IH. rewrite IH. ring. Qed.
  Lemma expected_euler devs : expected (List.length devs) (fun l => over euler l devs) 1.
  Proof. pose proof (expected_over N HN euler (fun _ => 1) devs (fun s _ => mean_euler N HN s)) as E. now rewrite product_ones in E. Qed.
  Lemma expected_euler2 devs : expected (List.length devs) (fun l => over euler l devs * over euler l devs) (product (map (fun s => 1 + s * s) devs)).
  Proof.
    eapply expected_ext; [|exact (expected_over N HN (fun s x => euler s x * euler s x) (fun s => 1 + s * s) devs (fun s _ => mean_euler2 N HN s))].
    intros l _. cbn beta. symmetry. apply over_times.
  Qed.
  Lemma product_above devs : product (map (fun s => 1 + s * s) devs) <= exp (variance_of devs).
  Proof. pose proof (apart_nonneg N HN devs) as A. unfold apart in A. rewrite product_exp in A. lra. Qed.

  (** What is paid spreads no more than the underlying. *)
  Lemma lipschitz_spread devs p d h e q : (forall x y, Rabs (h x - h y) <= Rabs (x - y)) ->
    expected (List.length devs) (fun l => h (p * over euler l devs + d)) e ->
    expected (List.length devs) (fun l => h (p * over euler l devs + d) * h (p * over euler l devs + d)) q ->
    0 <= q - e * e <= p * p * (exp (variance_of devs) - 1).
  Proof.
    intros Lip E Q. set (x := fun l => h (p * over euler l devs + d)) in *. set (c := h (p + d)).
    assert (A : forall c, expected (List.length devs) (fun l => (x l - c) * (x l - c)) (q - 2 * c * e + c * c)).
    { intros c0. pose proof (expected_linear N HN _ 1 1 _ _ _ _ Q (expected_linear N HN _ (-2 * c0) (c0 * c0) _ _ _ _ E (expected_const N HN _ 1))) as F.
      replace (1 * q + 1 * (-2 * c0 * e + c0 * c0 * 1)) with (q - 2 * c0 * e + c0 * c0) in F by ring. eapply expected_ext; [|exact F]. intros; cbn beta; fold (x l); ring. }
    split.
    - replace (q - e * e) with (q - 2 * e * e + e * e) by ring. exact (expected_mono N HN _ _ _ _ _ (fun l _ => Rle_0_sqr _) (expected_const N HN _ 0) (A e)).
    - assert (B : q - 2 * c * e + c * c <= p * p * (product (map (fun s => 1 + s * s) devs) - 1)).
      { pose proof (expected_linear N HN _ 1 1 _ _ _ _ (expected_euler2 devs) (expected_linear N HN _ (-2) 1 _ _ _ _ (expected_euler devs) (expected_const N HN _ 1))) as F.
        replace (1 * product (map (fun s => 1 + s * s) devs) + 1 * (-2 * 1 + 1 * 1)) with (product (map (fun s => 1 + s * s) devs) - 1) in F by ring.
        apply (expected_scale N HN _ (p * p)) in F. refine (expected_mono N HN _ _ _ _ _ _ (A c) F). intros l _. cbn beta.
        match goal with |- _ <= ?r => replace r with ((p * over euler l devs - p) * (p * over euler l devs - p)) by ring end.
        rewrite <- (sq_abs (x l - c)), <- (sq_abs (p * over euler l devs - p)). apply Rmult_le_compat; try apply Rabs_pos.
        all: eapply Rle_trans; [apply Lip|right; f_equal; ring]. }
      pose proof (product_above devs) as PA. pose proof (Rle_0_sqr (e - c)) as SQ. unfold Rsqr in SQ. pose proof (Rle_0_sqr p) as PP. unfold Rsqr in PP.
      assert (p * p * (product (map (fun s => 1 + s * s) devs) - 1) <= p * p * (exp (variance_of devs) - 1)) by (apply Rmult_le_compat_l; lra). nra.
  Qed.

  Lemma blacks_call p k s : s <> 0 -> blacks_price N Call p k s = black N p k s.
  Proof.
    intros S. unfold blacks_price, black, dminus, dplus. cbn match.
    replace ((ln (p / k) + s * s / 2) / s) with (ln (p / k) / s + / 2 * s) by (field; exact S).
    replace ((ln (p / k) - s * s / 2) / s) with (ln (p / k) / s + / 2 * s - s) by (field; exact S). ring.
  Qed.
  Lemma blacks_parity p k s : blacks_price N Put p k s = blacks_price N Call p k s - p + k.
  Proof. unfold blacks_price. cbn match. rewrite !(nc_symmetric N HN). ring. Qed.
  Lemma expected_lognormal pc strike devs p d : d < strike -> Forall (fun s => 0 <= s) devs -> 0 < variance_of devs -> 0 < p ->
    expected (List.length devs) (fun l => ends pc (p * over lognormal l devs + d) strike) (blacks_price N pc p (strike - d) (sqrt (variance_of devs))).
  Proof.
    intros K F V P. assert (S0 : sqrt (variance_of devs) <> 0) by (pose proof (sqrt_lt_R0 _ V); lra). assert (K0 : 0 < strike - d) by lra.
    destruct pc; [rewrite blacks_parity|]; rewrite blacks_call by exact S0.
    - eapply expected_ext; [|exact (expected_put N HN (strike - d) devs K0 F V p P)]. intros l _. unfold ends. f_equal. ring.
    - eapply expected_ext; [|exact (expected_call N HN (strike - d) devs K0 F V p P)]. intros l _. unfold ends. f_equal. ring.
  Qed.

  (** One step. *)
  Lemma expected_bachelier pc n strike p d s : 0 < p -> 0 < s -> (forall x, derivable_pt_lim N x (n x)) ->
    expected 1 (fun l => ends pc (p * over euler l [s] + d) strike) (bacheliers_price N n pc (p + d) strike (p * s)).
  Proof.
    intros P S D. set (g := fun x => ends pc (p + d + p * s * x) strike). apply (ex_draw N 0 _ g).
    { intros x. apply ex_none. unfold g. f_equal. unfold over, euler, product. cbn. ring. }
    assert (PS : 0 < p * s) by (now apply Rmult_lt_0_compat).
    pose proof (mean_call_linear N HN (p + d) strike (p * s) _ PS (D _)) as M. destruct pc; [|exact M].
    pose proof (mean_linear N HN (- (p * s)) (strike - (p + d)) (fun x => x) (fun _ => 1) _ _ (mean_id N HN) (mean_const N HN 1)) as M'.
    pose proof (mean_linear N HN 1 1 _ _ _ _ M M') as Z. apply (mean_ext N) with (h := g) in Z.
    2: { intros x. cbn beta. unfold g, ends, Rmax. repeat destruct Rle_dec; lra. }
    eapply (mean_eq N); [|exact Z]. unfold bacheliers_price. cbn zeta match. rewrite (nc_symmetric N HN). ring.
  Qed.

  (** Struck at the forward, it costs more than Black's price. *)
  Lemma bachelier_above pc n p s : 0 < p -> 0 < s -> (forall x, derivable_pt_lim N x (n x)) ->
    blacks_price N pc p p s < bacheliers_price N n pc p p (p * s).
  Proof.
    intros P S D. destruct (has_density N HN) as (k & K & DN).
    assert (N0 : n 0 = k). { rewrite (uniqueness_limite N 0 _ _ (D 0) (DN 0)). unfold bell. replace (- (0 * 0 / 2)) with 0 by field. rewrite exp_0. ring. }
    assert (T : N (s / 2) - N 0 < k * (s / 2)).
    { destruct (MVT_cor2 N (fun x => k * bell x) 0 (s / 2)) as (c & E & B); [lra|intros; apply DN|]. rewrite E. rewrite Rminus_0_r.
      assert (bell c < 1). { unfold bell. rewrite <- exp_0. apply exp_increasing. assert (0 < c * c) by (apply Rmult_lt_0_compat; lra). lra. }
      apply Rmult_lt_compat_r; [lra|]. rewrite <- (Rmult_1_r k) at 2. now apply Rmult_lt_compat_l. }
    assert (H : N 0 = / 2) by now apply cdf_half.
    assert (B : forall pc, blacks_price N pc p p s = p * (2 * (N (s / 2) - N 0))).
    { intros pc'. assert (C : blacks_price N Call p p s = p * (2 * (N (s / 2) - N 0))).
      { unfold blacks_price. cbn zeta match. replace (p / p) with 1 by (field; lra). rewrite ln_1. replace ((0 + s * s / 2) / s) with (s / 2) by (field; lra).
        replace ((0 - s * s / 2) / s) with (- (s / 2)) by (field; lra). rewrite (nc_symmetric N HN), H. field. }
      destruct pc'; [rewrite blacks_parity, C; ring|exact C]. }
    rewrite B. assert (Z : bacheliers_price N n pc p p (p * s) = p * s * k).
    { unfold bacheliers_price. replace ((p - p) / (p * s)) with 0 by (field; split; lra). rewrite N0. destruct pc; ring. }
    rewrite Z. replace (p * s * k) with (p * (2 * (k * (s / 2)))) by field. apply Rmult_lt_compat_l; lra.
  Qed.
End Normal.
