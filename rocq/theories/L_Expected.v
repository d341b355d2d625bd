(** Expected values over independent normal draws; products of growth over steps. *)
From Coq Require Import List Reals Lra Lia Psatz.
From Verif Require Import S_Math S_Expectation S_MonteCarlo L_Normal L_Black76 L_Expectation L_Gauss.
Import ListNotations.
Open Scope R_scope.
Open Scope list_scope.

Section Normal.
  Variable N : R -> R.
  Hypothesis HN : normal_cdf N.
  Notation mean := (mean_of N).
  Notation expected := (expected N).

  Lemma mean_eq v w g : v = w -> mean g v -> mean g w.
  Proof. now intros ->. Qed.
  Lemma expected_0 f v : expected 0 f v -> f [] = v.
  Proof. intros E. now inversion E. Qed.
  Lemma expected_S n f v : expected (S n) f v -> exists g, (forall x, expected n (fun rest => f (x :: rest)) (g x)) /\ mean g v.
  Proof. intros E. inversion E as [|n' f' g v' H M]. now exists g. Qed.

  Lemma expected_ext n : forall f f' v, (forall l, List.length l = n -> f l = f' l) -> expected n f v -> expected n f' v.
  Proof.
    induction n as [|n IH]; intros f f' v E H.
    - apply expected_0 in H. apply ex_none. now rewrite <- E.
    - apply expected_S in H. destruct H as (g & H & M). apply (ex_draw N n f' g v); [|exact M]. intros x.
      apply (IH (fun rest => f (x :: rest))); [|apply H]. intros l L. apply E. cbn. now rewrite L.
  Qed.
  Lemma expected_unique n : forall f v w, expected n f v -> expected n f w -> v = w.
  Proof.
    induction n as [|n IH]; intros f v w A B.
    - apply expected_0 in A, B. congruence.
    - apply expected_S in A, B. destruct A as (g & A & M). destruct B as (h & B & M').
      apply (mean_unique N HN h); [|exact M']. apply (mean_ext N g); [|exact M]. intros x. apply (IH (fun rest => f (x :: rest))); auto.
  Qed.
  Lemma expected_linear n : forall a b f g v w, expected n f v -> expected n g w -> expected n (fun l => a * f l + b * g l) (a * v + b * w).
  Proof.
    induction n as [|n IH]; intros a b f g v w A B.
    - apply expected_0 in A, B. apply ex_none. congruence.
    - apply expected_S in A, B. destruct A as (g1 & A & M). destruct B as (g2 & B & M').
      apply (ex_draw N n _ (fun x => a * g1 x + b * g2 x)); [|now apply mean_linear]. intros x. now apply (IH a b (fun rest => f (x :: rest)) (fun rest => g (x :: rest))).
  Qed.
  Lemma expected_const n c : expected n (fun _ => c) c.
  Proof. induction n as [|n IH]; [now apply ex_none|]. apply (ex_draw N n _ (fun _ => c)); [auto|now apply mean_const]. Qed.
  Lemma expected_scale n a f v : expected n f v -> expected n (fun l => a * f l) (a * v).
  Proof.
    intros E. apply (expected_ext n (fun l => a * f l + 0 * 0)); [intros; ring|]. replace (a * v) with (a * v + 0 * 0) by ring.
    apply (expected_linear n a 0 f (fun _ => 0)); [exact E|apply expected_const].
  Qed.
  Lemma expected_plus n f g v w : expected n f v -> expected n g w -> expected n (fun l => f l + g l) (v + w).
  Proof.
    intros A B. apply (expected_ext n (fun l => 1 * f l + 1 * g l)); [intros; ring|]. replace (v + w) with (1 * v + 1 * w) by ring. now apply expected_linear.
  Qed.
  Lemma expected_mono n : forall f g v w, (forall l, List.length l = n -> f l <= g l) -> expected n f v -> expected n g w -> v <= w.
  Proof.
    induction n as [|n IH]; intros f g v w L A B.
    - apply expected_0 in A, B. subst. apply L. reflexivity.
    - apply expected_S in A, B. destruct A as (g1 & A & M). destruct B as (g2 & B & M').
      apply (mean_mono N HN g1 g2); [|exact M|exact M']. intros x. apply (IH (fun rest => f (x :: rest)) (fun rest => g (x :: rest))); auto.
      intros l Ll. apply L. cbn. now rewrite Ll.
  Qed.

  (** Independence of one block of draws from the next. *)
  Lemma expected_times n : forall m f g v w, expected n f v -> expected m g w -> expected (n + m) (fun l => f (firstn n l) * g (skipn n l)) (v * w).
  Proof.
    induction n as [|n IH]; intros m f g v w A B.
    - apply expected_0 in A. subst v. cbn. now apply expected_scale.
    - apply expected_S in A. destruct A as (g1 & A & M). cbn [plus]. apply (ex_draw N (n + m) _ (fun x => w * g1 x)).
      + intros x. cbn [firstn skipn]. rewrite (Rmult_comm w). apply (IH m (fun rest => f (x :: rest)) g); auto.
      + rewrite Rmult_comm. now apply mean_scale.
  Qed.
  Lemma expected_first n m f v : expected n f v -> expected (n + m) (fun l => f (firstn n l)) v.
  Proof.
    intros A. apply (expected_ext _ (fun l => f (firstn n l) * 1)); [intros; ring|]. rewrite <- (Rmult_1_r v).
    apply (expected_times n m f (fun _ => 1)); [exact A|apply expected_const].
  Qed.
  Lemma expected_rest n m f v : expected m f v -> expected (n + m) (fun l => f (skipn n l)) v.
  Proof.
    intros A. apply (expected_ext _ (fun l => 1 * f (skipn n l))); [intros; ring|]. rewrite <- (Rmult_1_l v).
    apply (expected_times n m (fun _ => 1) f); [apply expected_const|exact A].
  Qed.

  (** One block of [n] draws after another. *)
  Fixpoint blocks (m n : nat) (l : list R) : list (list R) :=
    match m with O => [] | S m' => firstn n l :: blocks m' n (skipn n l) end.
  Definition sum (l : list R) : R := fold_right Rplus 0 l.

  Lemma expected_sum n h e m : expected n h e -> expected (m * n) (fun l => sum (map h (blocks m n l))) (INR m * e).
  Proof.
    intros H. induction m as [|m IH]; [cbn; apply ex_none; cbn; ring|]. rewrite S_INR. replace ((INR m + 1) * e) with (e + INR m * e) by ring.
    cbn [mult blocks map sum fold_right]. apply expected_plus; [now apply expected_first|]. now apply (expected_rest n (m * n) (fun l => sum (map h (blocks m n l)))).
  Qed.
  Lemma expected_sum_square n h q m : expected n h 0 -> expected n (fun l => h l * h l) q ->
    expected (m * n) (fun l => sum (map h (blocks m n l)) * sum (map h (blocks m n l))) (INR m * q).
  Proof.
    intros H Q. induction m as [|m IH]; [cbn; apply ex_none; cbn; ring|]. rewrite S_INR. replace ((INR m + 1) * q) with (1 * q + 1 * (2 * (0 * (INR m * 0)) + INR m * q)) by ring.
    set (s := fun l => sum (map h (blocks m n l))) in *.
    apply (expected_ext _ (fun l => 1 * (h (firstn n l) * h (firstn n l)) + 1 * (2 * (h (firstn n l) * s (skipn n l)) + s (skipn n l) * s (skipn n l)))).
    { intros l _. unfold s. cbn [blocks map sum fold_right]. fold (sum (map h (blocks m n (skipn n l)))). ring. }
    cbn [mult]. apply expected_linear; [now apply (expected_first n (m * n) (fun l => h l * h l))|].
    apply expected_plus; [|now apply (expected_rest n (m * n) (fun l => s l * s l))]. apply expected_scale.
    apply (expected_times n (m * n) h s); [exact H|]. now apply expected_sum.
  Qed.

  (** Products over the steps. *)
  Definition over (f : R -> R -> R) (draws devs : list R) : R := product (map (fun gs => f (snd gs) (fst gs)) (combine draws devs)).
  Lemma expected_over f m devs : (forall s, In s devs -> mean (f s) (m s)) -> expected (List.length devs) (fun l => over f l devs) (product (map m devs)).
  Proof.
    induction devs as [|s devs IH]; intros H; [now apply ex_none|].
    cbn [List.length map product fold_right]. apply (ex_draw N _ _ (fun x => product (map m devs) * f s x)).
    - intros x. apply (expected_ext _ (fun l => f s x * over f l devs)); [reflexivity|]. rewrite Rmult_comm. apply expected_scale, IH. intros; apply H; now right.
    - fold (product (map m devs)). rewrite Rmult_comm. apply mean_scale; [exact HN|]. apply H. now left.
  Qed.
  Lemma over_times f g draws : forall devs, over f draws devs * over g draws devs = over (fun s x => f s x * g s x) draws devs.
  Proof.
    induction draws as [|x draws IH]; intros [|s devs]; unfold over in *; cbn; try ring.
    specialize (IH devs). cbn in IH. unfold product in *. rewrite <- IH. ring.
  Qed.

  (** A step in the code, and one of a lognormal value. *)
  Definition euler (s x : R) : R := 1 + x * s.
  Definition lognormal (s x : R) : R := exp (s * x - s * s / 2).

  Lemma mean_euler s : mean (euler s) 1.
  Proof.
    apply (mean_ext N (fun x => 1 * 1 + s * x)); [intros; unfold euler; ring|]. apply (mean_eq (1 * 1 + s * 0)); [ring|].
    apply (mean_linear N HN 1 s (fun _ => 1) (fun x => x)); [now apply mean_const|now apply mean_id].
  Qed.
  Lemma mean_euler2 s : mean (fun x => euler s x * euler s x) (1 + s * s).
  Proof.
    apply (mean_ext N (fun x => 1 * (1 * 1 + (2 * s) * x) + (s * s) * (x * x))); [intros; unfold euler; ring|].
    replace (1 + s * s) with (1 * (1 * 1 + (2 * s) * 0) + (s * s) * 1) by ring.
    apply mean_linear; [exact HN| |now apply mean_square]. apply (mean_linear N HN 1 (2 * s) (fun _ => 1) (fun x => x)); [now apply mean_const|now apply mean_id].
  Qed.
  Lemma mean_cross s : mean (fun x => lognormal s x * euler s x) (1 + s * s).
  Proof.
    unfold lognormal. apply (mean_shift N HN s (euler s)). apply (mean_ext N (fun x => (1 + s * s) * 1 + s * x)); [intros; unfold euler; ring|].
    apply (mean_eq ((1 + s * s) * 1 + s * 0)); [ring|].
    apply (mean_linear N HN (1 + s * s) s (fun _ => 1) (fun x => x)); [now apply mean_const|now apply mean_id].
  Qed.
  Lemma mean_lognormal s : mean (lognormal s) 1.
  Proof. now apply mean_exp. Qed.
  Lemma mean_lognormal2 s : mean (fun x => lognormal s x * lognormal s x) (exp (s * s)).
  Proof.
    apply (mean_ext N (fun x => exp (s * s) * exp ((2 * s) * x - (2 * s) * (2 * s) / 2))).
    - intros x. unfold lognormal. rewrite <- !exp_plus. f_equal. field.
    - apply (mean_eq (exp (s * s) * 1)); [ring|]. apply mean_scale; [exact HN|]. now apply mean_exp.
  Qed.

  (** How far apart the two are: exactly. *)
  Definition apart (devs : list R) : R := product (map (fun s => exp (s * s)) devs) - product (map (fun s => 1 + s * s) devs).
  Lemma expected_apart devs : expected (List.length devs) (fun l => (over euler l devs - over lognormal l devs) * (over euler l devs - over lognormal l devs)) (apart devs).
  Proof.
    pose proof (expected_over (fun s x => euler s x * euler s x) (fun s => 1 + s * s) devs (fun s _ => mean_euler2 s)) as A.
    pose proof (expected_over (fun s x => lognormal s x * euler s x) (fun s => 1 + s * s) devs (fun s _ => mean_cross s)) as B.
    pose proof (expected_over (fun s x => lognormal s x * lognormal s x) (fun s => exp (s * s)) devs (fun s _ => mean_lognormal2 s)) as C.
    pose proof (expected_linear _ 1 1 _ _ _ _ (expected_linear _ 1 (-2) _ _ _ _ A B) C) as E.
    unfold apart. match type of E with S_Expectation.expected _ _ _ ?v => match goal with |- S_Expectation.expected _ _ _ ?w => replace w with v by ring end end.
    eapply expected_ext; [|exact E]. intros l _. cbn beta. rewrite <- !over_times. ring.
  Qed.
  Lemma apart_nonneg devs : 0 <= apart devs.
  Proof.
    pose proof (expected_apart devs) as E. pose proof (expected_const (List.length devs) 0) as Z.
    apply (expected_mono _ _ _ _ _ (fun l _ => Rle_0_sqr _) Z E).
  Qed.

  (** Functions are expected no further apart than the roots of the expected squares of what keeps them together. *)
  Lemma root_between D eps : 0 <= D -> 0 < eps -> exists t, 0 < t /\ (t + D / t) / 2 <= sqrt D + eps.
  Proof.
    intros D0 E. destruct (Req_dec D 0) as [->|NZ].
    - exists (2 * eps). split; [lra|]. rewrite sqrt_0. unfold Rdiv. rewrite Rmult_0_l. lra.
    - assert (S0 : 0 < sqrt D) by (apply sqrt_lt_R0; lra). exists (sqrt D). split; [exact S0|].
      replace (D / sqrt D) with (sqrt D); [lra|]. rewrite <- (sqrt_sqrt D) at 2 by lra. field. lra.
  Qed.
  Lemma between_root a t z : 0 <= a -> 0 < t -> a * Rabs z <= a * t / 2 + a / t / 2 * (z * z).
  Proof.
    intros A T. replace (a * t / 2 + a / t / 2 * (z * z)) with (a * ((t + z * z / t) / 2)) by (field; lra). apply Rmult_le_compat_l; [exact A|].
    replace (z * z) with (Rabs z * Rabs z) by (rewrite <- Rabs_mult; apply Rabs_right, Rle_ge, Rle_0_sqr). generalize (Rabs z). intros y.
    assert (0 <= (t - y) * (t - y) / t) by (apply Rmult_le_pos; [apply (Rle_0_sqr (t - y))|left; now apply Rinv_0_lt_compat]).
    replace (y * y / t) with ((t - y) * (t - y) / t - t + 2 * y) by (field; lra). lra.
  Qed.
  Lemma expected_near n f g e b a c x y D D' : 0 <= a -> 0 <= c -> (forall l, List.length l = n -> Rabs (f l - g l) <= a * Rabs (x l) + c * Rabs (y l)) ->
    expected n f e -> expected n g b -> expected n (fun l => x l * x l) D -> expected n (fun l => y l * y l) D' ->
    Rabs (e - b) <= a * sqrt D + c * sqrt D'.
  Proof.
    intros A C Q E B X Y. pose proof (expected_const n 0) as Z.
    assert (D0 : 0 <= D) by (exact (expected_mono n _ _ _ _ (fun l _ => Rle_0_sqr (x l)) Z X)).
    assert (D1 : 0 <= D') by (exact (expected_mono n _ _ _ _ (fun l _ => Rle_0_sqr (y l)) Z Y)).
    apply le_epsilon. intros eps P. set (eta := eps / (a + c + 1)). assert (P' : 0 < eta) by (apply Rdiv_lt_0_compat; lra).
    assert (EE : eps = eta * (a + c + 1)) by (unfold eta; field; lra).
    destruct (root_between D eta D0 P') as (t & T & HT). destruct (root_between D' eta D1 P') as (t' & T' & HT').
    pose proof (expected_linear n 1 1 _ _ _ _ (expected_linear n (a * t / 2) (a / t / 2) _ _ _ _ (expected_const n 1) X) (expected_linear n (c * t' / 2) (c / t' / 2) _ _ _ _ (expected_const n 1) Y)) as U.
    match type of U with S_Expectation.expected _ _ _ ?u => assert (HU : u <= a * sqrt D + c * sqrt D' + eps) end.
    { replace (a * t / 2 * 1 + a / t / 2 * D) with (a * ((t + D / t) / 2)) by (field; lra).
      replace (c * t' / 2 * 1 + c / t' / 2 * D') with (c * ((t' + D' / t') / 2)) by (field; lra).
      apply (Rmult_le_compat_l a) in HT; [|exact A]. apply (Rmult_le_compat_l c) in HT'; [|exact C].
      rewrite EE. assert (0 <= eta * 1) by lra. nra. }
    assert (Q' : forall l, List.length l = n -> Rabs (f l - g l) <= 1 * (a * t / 2 * 1 + a / t / 2 * (x l * x l)) + 1 * (c * t' / 2 * 1 + c / t' / 2 * (y l * y l))).
    { intros l L. specialize (Q l L). pose proof (between_root a t (x l) A T). pose proof (between_root c t' (y l) C T'). lra. }
    clear Q. eapply Rle_trans; [|exact HU]. pose proof (expected_linear _ 1 (-1) _ _ _ _ E B) as F. apply Rabs_le. split.
    - apply Ropp_le_cancel. rewrite Ropp_involutive. replace (- (e - b)) with ((-1) * (1 * e + (-1) * b)) by ring.
      eapply expected_mono; [|apply expected_scale, F|exact U]. intros l L. specialize (Q' l L). cbn beta. unfold Rabs in Q'. destruct Rcase_abs in Q'; lra.
    - replace (e - b) with (1 * e + (-1) * b) by ring.
      eapply expected_mono; [|exact F|exact U]. intros l L. specialize (Q' l L). cbn beta. unfold Rabs in Q'. destruct Rcase_abs in Q'; lra.
  Qed.
  Lemma expected_close devs p h e b : (forall x y, Rabs (h x - h y) <= Rabs (x - y)) -> 0 <= p ->
    expected (List.length devs) (fun l => h (p * over euler l devs)) e -> expected (List.length devs) (fun l => h (p * over lognormal l devs)) b ->
    Rabs (e - b) <= p * sqrt (apart devs).
  Proof.
    intros Lip P E B. replace (p * sqrt (apart devs)) with (p * sqrt (apart devs) + 0 * sqrt (apart devs)) by ring.
    refine (expected_near _ _ _ e b p 0 _ _ _ _ P (Rle_refl 0) _ E B (expected_apart devs) (expected_apart devs)).
    intros l _. eapply Rle_trans; [apply Lip|]. rewrite <- Rmult_minus_distr_l, Rabs_mult, (Rabs_right p) by lra. lra.
  Qed.

  (** One stage after another. *)
  Lemma expected_stages n m : forall f u v, (forall l, List.length l = n -> expected m (fun l' => f (l ++ l')) (u l)) -> expected n u v -> expected (n + m) f v.
  Proof.
    induction n as [|n IH]; intros f u v H E.
    - apply expected_0 in E. subst v. exact (H [] eq_refl).
    - apply expected_S in E. destruct E as (g & E & M). cbn [plus]. apply (ex_draw N _ _ g); [|exact M]. intros x.
      apply (IH (fun l => f (x :: l)) (fun l => u (x :: l))); [|apply E]. intros l L. apply (H (x :: l)). cbn. now rewrite L.
  Qed.

  (** The expected payoff of a call on a lognormal value is Black's price. *)
  Definition variance_of (devs : list R) : R := sum (map (fun s => s * s) devs).
  Lemma variance_nonneg devs : 0 <= variance_of devs.
  Proof. unfold variance_of, sum in *. induction devs as [|s devs IH]; cbn; [lra|]. pose proof (Rle_0_sqr s) as Q. unfold Rsqr in Q. lra. Qed.
  Lemma variance_cons s devs : variance_of (s :: devs) = s * s + variance_of devs.
  Proof. reflexivity. Qed.
  Lemma lognormal_still h devs : forall p, variance_of devs = 0 -> expected (List.length devs) (fun l => h (p * over lognormal l devs)) (h p).
  Proof.
    induction devs as [|s devs IH]; intros p V; [apply ex_none; unfold over; cbn; f_equal; ring|].
    rewrite variance_cons in V. pose proof (variance_nonneg devs). pose proof (Rle_0_sqr s) as SQ. unfold Rsqr in SQ.
    assert (S0 : s = 0) by (destruct (Rmult_integral s s); lra). assert (V' : variance_of devs = 0) by lra.
    cbn [List.length]. apply (ex_draw N _ _ (fun _ => h p)); [|now apply mean_const]. intros x.
    apply (expected_ext _ (fun l => h (p * over lognormal l devs))); [|now apply IH].
    intros l _. unfold over. cbn. fold (over lognormal l devs). unfold lognormal at 2. rewrite S0. f_equal. f_equal. f_equal.
    replace (0 * x - 0 * 0 / 2) with 0 by field. rewrite exp_0. unfold over, product. ring.
  Qed.
  Lemma over_cons f x s l devs : over f (x :: l) (s :: devs) = f s x * over f l devs.
  Proof. reflexivity. Qed.
  Lemma expected_call strike devs : 0 < strike -> Forall (fun s => 0 <= s) devs -> 0 < variance_of devs -> forall p, 0 < p ->
    expected (List.length devs) (fun l => Rmax (p * over lognormal l devs - strike) 0) (black N p strike (sqrt (variance_of devs))).
  Proof.
    intros K. induction devs as [|s devs IH]; intros F V p P; [cbn in V; lra|]. inversion F as [|? ? S0 F']; subst.
    rewrite variance_cons in V |- *. pose proof (variance_nonneg devs) as V0.
    assert (E : forall x l, Rmax (p * over lognormal (x :: l) (s :: devs) - strike) 0 = Rmax (p * lognormal s x * over lognormal l devs - strike) 0).
    { intros x l. rewrite over_cons. f_equal. ring. }
    destruct (Req_dec (variance_of devs) 0) as [Z|NZ].
    - rewrite Z, Rplus_0_r, sqrt_square by exact S0. assert (0 < s) by (destruct S0 as [|E0]; [assumption|rewrite <- E0, Z in V; lra]).
      apply (ex_draw N _ _ (fun x => Rmax (p * lognormal s x - strike) 0)); [|now apply mean_call]. intros x.
      apply (expected_ext _ (fun l => Rmax (p * lognormal s x * over lognormal l devs - strike) 0)); [intros; now rewrite E|].
      now apply (lognormal_still (fun y => Rmax (y - strike) 0)).
    - apply (ex_draw N _ _ (fun x => black N (p * lognormal s x) strike (sqrt (variance_of devs)))); [|apply black_compose; [exact HN|lra..]].
      intros x. apply (expected_ext _ (fun l => Rmax (p * lognormal s x * over lognormal l devs - strike) 0)); [intros; now rewrite E|].
      apply IH; [exact F'|lra|]. apply Rmult_lt_0_compat; [exact P|apply exp_pos].
  Qed.
  Lemma expected_put strike devs : 0 < strike -> Forall (fun s => 0 <= s) devs -> 0 < variance_of devs -> forall p, 0 < p ->
    expected (List.length devs) (fun l => Rmax (strike - p * over lognormal l devs) 0) (black N p strike (sqrt (variance_of devs)) - p + strike).
  Proof.
    intros K F V p P. pose proof (expected_call strike devs K F V p P) as C.
    pose proof (expected_over lognormal (fun _ => 1) devs (fun s _ => mean_lognormal s)) as M.
    assert (P1 : product (map (fun _ => 1) devs) = 1) by (clear; induction devs as [|s devs IH]; cbn; [reflexivity|]; unfold product in IH; rewrite IH; ring).
    rewrite P1 in M. pose proof (expected_linear _ 1 (- p) _ _ _ _ (expected_linear _ 1 strike _ _ _ _ C (expected_const _ 1)) M) as E.
    match type of E with S_Expectation.expected _ _ _ ?v => match goal with |- S_Expectation.expected _ _ _ ?w => replace w with v by ring end end.
    eapply expected_ext; [|exact E]. intros l _. cbn beta. unfold Rmax. repeat destruct Rle_dec; lra.
  Qed.

  (** How far apart they are is in proportion to the greatest variance of a step. *)
  Lemma exp_below y : 0 <= y -> exp (y - y * y / 2) <= 1 + y.
  Proof.
    intros Y. set (g := fun z => (1 + z) * exp (- (z - z * z / 2))).
    assert (D : forall z, derivable_pt_lim g z (z * z * exp (- (z - z * z / 2)))).
    { intros z. eapply diff_eq; [|apply (derivable_pt_lim_mult (fun z => 1 + z) (fun z => exp (- (z - z * z / 2))) z (0 + 1) (exp (- (z - z * z / 2)) * (- (1 - (1 * z + z * 1) / 2))))].
      - field.
      - apply derivable_pt_lim_plus; [apply derivable_pt_lim_const|apply derivable_pt_lim_id].
      - apply (derivable_pt_lim_comp (fun z => - (z - z * z / 2)) exp); [|apply derivable_pt_lim_exp]. apply derivable_pt_lim_opp, derivable_pt_lim_minus; [apply derivable_pt_lim_id|].
        apply (derivable_pt_lim_ext (fun y => / 2 * (y * y))); [intros; field|]. replace ((1 * z + z * 1) / 2) with (/ 2 * (1 * z + z * 1)) by field.
        apply derivable_pt_lim_scal. apply (derivable_pt_lim_mult id id z 1 1); apply derivable_pt_lim_id. }
    assert (R : g 0 <= g y).
    { apply (rises g (fun z => z * z * exp (- (z - z * z / 2)))); [intros; apply D| |exact Y]. intros z _. pose proof (exp_pos (- (z - z * z / 2))). apply Rmult_le_pos; [nra|lra]. }
    unfold g in R. replace (- (0 - 0 * 0 / 2)) with 0 in R by field. rewrite exp_0 in R. rewrite exp_Ropp in R.
    pose proof (exp_pos (y - y * y / 2)) as X. apply (Rmult_le_compat_r (exp (y - y * y / 2))) in R; [|lra]. replace ((1 + y) * / exp (y - y * y / 2) * exp (y - y * y / 2)) with (1 + y) in R by (field; lra). lra.
  Qed.
  Lemma product_exp devs : product (map (fun s => exp (s * s)) devs) = exp (variance_of devs).
  Proof.
    induction devs as [|s devs IH]; [symmetry; apply exp_0|]. rewrite variance_cons, exp_plus, <- IH. reflexivity.
  Qed.
  Lemma product_below m devs : Forall (fun s => s * s <= m) devs -> exp (variance_of devs - m * variance_of devs / 2) <= product (map (fun s => 1 + s * s) devs).
  Proof.
    induction 1 as [|s devs L F IH]; [cbn; replace (0 - m * 0 / 2) with 0 by field; rewrite exp_0; lra|]. rewrite variance_cons.
    change (product (map (fun s => 1 + s * s) (s :: devs))) with ((1 + s * s) * product (map (fun s => 1 + s * s) devs)).
    replace (s * s + variance_of devs - m * (s * s + variance_of devs) / 2) with ((s * s - m * (s * s) / 2) + (variance_of devs - m * variance_of devs / 2)) by field.
    rewrite exp_plus. apply Rmult_le_compat; try (left; apply exp_pos); [|exact IH].
    eapply Rle_trans; [|apply (exp_below (s * s)); nra]. destruct (Req_dec (s * s - m * (s * s) / 2) (s * s - s * s * (s * s) / 2)) as [->|NE]; [lra|]. left. apply exp_increasing. nra.
  Qed.
  Lemma apart_below m devs : Forall (fun s => s * s <= m) devs -> apart devs <= exp (variance_of devs) * (m * variance_of devs / 2).
  Proof.
    intros F. unfold apart. rewrite product_exp. pose proof (product_below m devs F) as B. set (V := variance_of devs) in *.
    unfold Rminus in B at 1. rewrite exp_plus in B. pose proof (exp_ineq1_le (- (m * V / 2))). pose proof (exp_pos V). nra.
  Qed.

  (** The expected payoff of the walk in the code exists. *)
  Lemma lipschitz_continuous u M : (forall x y, Rabs (u x - u y) <= M * Rabs (x - y)) -> forall x, continuity_pt u x.
  Proof.
    intros L x eps E. assert (M0 : 0 <= M). { specialize (L 1 0). rewrite Rminus_0_r, Rabs_R1 in L. pose proof (Rabs_pos (u 1 - u 0)). lra. }
    exists (eps / (M + 1)). split; [apply Rdiv_lt_0_compat; lra|]. intros z [_ B]. unfold dist in *. cbn in *. unfold R_dist in *.
    eapply Rle_lt_trans; [apply L|]. apply (Rmult_lt_compat_l (M + 1)) in B; [|lra]. replace ((M + 1) * (eps / (M + 1))) with eps in B by (field; lra).
    pose proof (Rabs_pos (z - x)). nra.
  Qed.
  Lemma euler_exists devs : forall h L, (forall x y, Rabs (h x - h y) <= L * Rabs (x - y)) -> exists u M,
    (forall x y, Rabs (u x - u y) <= M * Rabs (x - y)) /\ forall p, expected (List.length devs) (fun l => h (p * over euler l devs)) (u p).
  Proof.
    induction devs as [|s devs IH]; intros h L Lip.
    - exists h, L. split; [exact Lip|]. intros p. apply ex_none. unfold over. cbn. f_equal. ring.
    - destruct (IH h L Lip) as (u & M & LM & E). assert (M0 : 0 <= M). { specialize (LM 1 0). rewrite Rminus_0_r, Rabs_R1 in LM. pose proof (Rabs_pos (u 1 - u 0)). lra. }
      assert (X : forall x, Rabs x <= 1 + x * x) by (intros x; unfold Rabs; destruct Rcase_abs; nra).
      assert (EX : forall p, exists v, mean (fun x => u (p * euler s x)) v).
      { intros p. apply (mean_exists N HN _ (Rabs (u p) + M * Rabs (p * s)) (M * Rabs (p * s))).
        - apply (lipschitz_continuous _ (M * Rabs (p * s))). intros x y. eapply Rle_trans; [apply LM|]. rewrite Rmult_assoc, <- Rabs_mult. unfold euler.
          apply Rmult_le_compat_l; [exact M0|]. right. f_equal. ring.
        - intros x. replace (u (p * euler s x)) with (u p + (u (p * euler s x) - u p)) by ring. eapply Rle_trans; [apply Rabs_triang|].
          rewrite Rplus_assoc. apply Rplus_le_compat_l. eapply Rle_trans; [apply LM|].
          replace (p * euler s x - p) with (p * s * x) by (unfold euler; ring). rewrite Rabs_mult. specialize (X x). pose proof (Rabs_pos (p * s)).
          assert (Rabs (p * s) * Rabs x <= Rabs (p * s) * (1 + x * x)) by (apply Rmult_le_compat_l; assumption). nra. }
      pose (U := fun p => proj1_sig (mean_exists_at N HN _ (EX p))).
      assert (HU : forall p, mean (fun x => u (p * euler s x)) (U p)) by (intros p; unfold U; now destruct mean_exists_at).
      exists U, (M * (1 + Rabs s * 2)). split.
      + intros p q. set (c := M * Rabs (p - q)).
        assert (B : mean (fun x => (c + c * Rabs s) * 1 + c * Rabs s * (x * x)) ((c + c * Rabs s) * 1 + c * Rabs s * 1)).
        { apply (mean_linear N HN _ _ (fun _ => 1) (fun x => x * x)); [now apply mean_const|now apply mean_square]. }
        assert (Q : forall x, Rabs (u (p * euler s x) - u (q * euler s x)) <= (c + c * Rabs s) * 1 + c * Rabs s * (x * x)).
        { intros x. eapply Rle_trans; [apply LM|]. rewrite <- Rmult_minus_distr_r, Rabs_mult, <- Rmult_assoc. fold c.
          replace ((c + c * Rabs s) * 1 + c * Rabs s * (x * x)) with (c * (1 + (1 + x * x) * Rabs s)) by ring.
          apply Rmult_le_compat_l; [apply Rmult_le_pos; [exact M0|apply Rabs_pos]|]. unfold euler. eapply Rle_trans; [apply Rabs_triang|].
          rewrite Rabs_R1, Rabs_mult. apply Rplus_le_compat_l, Rmult_le_compat_r; [apply Rabs_pos|apply X]. }
        replace (M * (1 + Rabs s * 2) * Rabs (p - q)) with ((c + c * Rabs s) * 1 + c * Rabs s * 1) by (unfold c; ring). apply Rabs_le.
        pose proof (mean_linear N HN 1 (-1) _ _ _ _ (HU p) (HU q)) as D. split.
        * apply Ropp_le_cancel. rewrite Ropp_involutive. replace (- (U p - U q)) with ((-1) * (1 * U p + (-1) * U q)) by ring.
          eapply (mean_mono N HN); [|apply mean_scale; [exact HN|exact D]|exact B]. intros x. specialize (Q x). cbn beta. unfold Rabs in Q at 1. destruct Rcase_abs in Q; lra.
        * replace (U p - U q) with (1 * U p + (-1) * U q) by ring. eapply (mean_mono N HN); [|exact D|exact B]. intros x. specialize (Q x). cbn beta. unfold Rabs in Q at 1. destruct Rcase_abs in Q; lra.
      + intros p. cbn [List.length]. apply (ex_draw N _ _ (fun x => u (p * euler s x))); [|apply HU]. intros x.
        apply (expected_ext _ (fun l => h (p * euler s x * over euler l devs))); [|apply E]. intros l _. rewrite over_cons. f_equal. ring.
  Qed.
End Normal.
