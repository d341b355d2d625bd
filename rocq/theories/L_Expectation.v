(** Means over a normal draw. *)
From Coq Require Import List Reals Lra Lia Psatz.
From Verif Require Import S_Math S_Expectation L_Normal.
Import ListNotations.
Open Scope R_scope.

(** Limits. *)
Lemma up_unique g l l' : tends_up g l -> tends_up g l' -> l = l'.
Proof.
  intros A B. destruct (Req_dec l l') as [|NE]; [assumption|exfalso].
  assert (P : 0 < Rabs (l - l') / 2) by (pose proof (Rabs_pos_lt (l - l') ltac:(lra)); lra).
  destruct (A _ P) as (M & HM). destruct (B _ P) as (M' & HM'). set (x := Rmax M M').
  specialize (HM x (Rmax_l _ _)). specialize (HM' x (Rmax_r _ _)). unfold Rabs in *. repeat destruct Rcase_abs; lra.
Qed.
Lemma down_up g l : tends_down g l <-> tends_up (fun x => g (- x)) l.
Proof.
  split; intros A eps P; destruct (A eps P) as (M & HM); exists (- M); intros x L.
  - apply HM. lra.
  - specialize (HM (- x) ltac:(lra)). now rewrite Ropp_involutive in HM.
Qed.
Lemma down_unique g l l' : tends_down g l -> tends_down g l' -> l = l'.
Proof. rewrite !down_up. apply up_unique. Qed.

Lemma up_ext g h l : (forall x, g x = h x) -> tends_up g l -> tends_up h l.
Proof. intros E A eps P. destruct (A eps P) as (M & HM). exists M. intros x L. rewrite <- E. auto. Qed.
Lemma down_ext g h l : (forall x, g x = h x) -> tends_down g l -> tends_down h l.
Proof. intros E A eps P. destruct (A eps P) as (M & HM). exists M. intros x L. rewrite <- E. auto. Qed.

Lemma up_const c : tends_up (fun _ => c) c.
Proof. intros eps P. exists 0. intros x _. now rewrite Rminus_diag_eq, Rabs_R0. Qed.
Lemma up_linear a b g h l m : tends_up g l -> tends_up h m -> tends_up (fun x => a * g x + b * h x) (a * l + b * m).
Proof.
  intros A B eps P. set (c := Rabs a + Rabs b + 1). assert (C : 0 < c) by (unfold c; pose proof (Rabs_pos a); pose proof (Rabs_pos b); lra).
  assert (E : 0 < eps / c) by (now apply Rdiv_lt_0_compat).
  destruct (A _ E) as (M & HM). destruct (B _ E) as (M' & HM'). exists (Rmax M M'). intros x L.
  specialize (HM x (Rle_trans _ _ _ (Rmax_l _ _) L)). specialize (HM' x (Rle_trans _ _ _ (Rmax_r _ _) L)).
  replace (a * g x + b * h x - (a * l + b * m)) with (a * (g x - l) + b * (h x - m)) by ring.
  eapply Rle_lt_trans; [apply Rabs_triang|]. rewrite !Rabs_mult.
  assert (Q : eps = (eps / c) * c) by (field; lra). set (e := eps / c) in *. rewrite Q. unfold c.
  pose proof (Rabs_pos a). pose proof (Rabs_pos b). nra.
Qed.
Lemma down_linear a b g h l m : tends_down g l -> tends_down h m -> tends_down (fun x => a * g x + b * h x) (a * l + b * m).
Proof. rewrite !down_up. apply up_linear. Qed.

Lemma up_shift g l s : tends_up g l -> tends_up (fun x => g (x + s)) l.
Proof. intros A eps P. destruct (A eps P) as (M & HM). exists (M - s). intros x L. apply HM. lra. Qed.
Lemma down_shift g l s : tends_down g l -> tends_down (fun x => g (x + s)) l.
Proof. intros A eps P. destruct (A eps P) as (M & HM). exists (M - s). intros x L. apply HM. lra. Qed.
Lemma up_scale g l a s : 0 < a -> tends_up g l -> tends_up (fun x => g (a * x + s)) l.
Proof.
  intros Pa A eps P. destruct (A eps P) as (M & HM). exists ((M - s) / a). intros x L. apply HM.
  apply (Rmult_le_compat_l a) in L; [|lra]. replace (a * ((M - s) / a)) with (M - s) in L by (field; lra). lra.
Qed.
Lemma down_scale g l a s : 0 < a -> tends_down g l -> tends_down (fun x => g (a * x + s)) l.
Proof.
  intros Pa A eps P. destruct (A eps P) as (M & HM). exists ((M - s) / a). intros x L. apply HM.
  apply (Rmult_le_compat_l a) in L; [|lra]. replace (a * ((M - s) / a)) with (M - s) in L by (field; lra). lra.
Qed.

(** What increases and is bounded has a limit. *)
Lemma up_bounded g c : (forall x y, x <= y -> g x <= g y) -> (forall x, g x <= c) -> exists l, tends_up g l /\ (forall x, g x <= l) /\ l <= c.
Proof.
  intros I B. destruct (completeness (fun y => exists x, y = g x)) as (l & U & Lub).
  - exists c. intros y (x & ->). apply B.
  - exists (g 0), 0. reflexivity.
  - assert (Up : forall x, g x <= l) by (intros x; apply U; now exists x).
    exists l. split; [|split; [exact Up|apply Lub; intros y (x & ->); apply B]].
    intros eps P. destruct (Classical_Prop.classic (exists x, l - eps < g x)) as [(x & Hx)|NE].
    + exists x. intros y L. specialize (I x y L). specialize (Up y). unfold Rabs. destruct Rcase_abs; lra.
    + exfalso. assert (l <= l - eps); [|lra]. apply Lub. intros y (x & ->).
      destruct (Rle_lt_dec (g x) (l - eps)); [assumption|]. elim NE. now exists x.
Qed.
Lemma down_bounded g c : (forall x y, x <= y -> g x <= g y) -> (forall x, c <= g x) -> exists l, tends_down g l /\ (forall x, l <= g x).
Proof.
  intros I B. destruct (up_bounded (fun x => - g (- x)) (- c)) as (l & A & U & _).
  - intros x y L. specialize (I (- y) (- x) ltac:(lra)). lra.
  - intros x. specialize (B (- x)). lra.
  - exists (- l). split.
    + apply down_up. apply (up_ext (fun x => (-1) * (- g (- x)) + 0 * 0)); [intros; ring|].
      replace (- l) with ((-1) * l + 0 * 0) by ring. apply (up_linear (-1) 0 (fun x => - g (- x)) (fun _ => 0)); [exact A|apply up_const].
    + intros x. specialize (U (- x)). rewrite Ropp_involutive in U. lra.
Qed.

Lemma up_le g h l m : (exists x0, forall x, x0 <= x -> g x <= h x) -> tends_up g l -> tends_up h m -> l <= m.
Proof.
  intros (x0 & C) A B. destruct (Rle_lt_dec l m) as [|L]; [assumption|exfalso]. assert (P : 0 < (l - m) / 2) by lra.
  destruct (A _ P) as (M & HM). destruct (B _ P) as (M' & HM'). set (x := Rmax x0 (Rmax M M')).
  specialize (C x (Rmax_l _ _)). specialize (HM x (Rle_trans _ _ _ (Rmax_l _ _) (Rmax_r _ _))).
  specialize (HM' x (Rle_trans _ _ _ (Rmax_r _ _) (Rmax_r _ _))). unfold Rabs in *. repeat destruct Rcase_abs; lra.
Qed.
Lemma down_le g h l m : (exists x0, forall x, x <= x0 -> g x <= h x) -> tends_down g l -> tends_down h m -> l <= m.
Proof.
  rewrite !down_up. intros (x0 & C). apply up_le. exists (- x0). intros x L. apply C. lra.
Qed.

(** Derivatives. *)
Lemma diff_linear a b f g x f' g' : derivable_pt_lim f x f' -> derivable_pt_lim g x g' -> derivable_pt_lim (fun y => a * f y + b * g y) x (a * f' + b * g').
Proof. intros F G. apply derivable_pt_lim_plus; now apply derivable_pt_lim_scal. Qed.
Lemma diff_affine f a s x f' : derivable_pt_lim f (a * x + s) f' -> derivable_pt_lim (fun y => f (a * y + s)) x (a * f').
Proof.
  intros F. replace (a * f') with (f' * a) by ring. apply (derivable_pt_lim_comp (fun y => a * y + s) f); [|exact F].
  replace a with (a * 1 + 0) at 1 by ring. apply derivable_pt_lim_plus; [|apply derivable_pt_lim_const].
  apply derivable_pt_lim_scal, derivable_pt_lim_id.
Qed.
Lemma rises f f' x y : (forall z, x <= z <= y -> derivable_pt_lim f z (f' z)) -> (forall z, x <= z <= y -> 0 <= f' z) -> x <= y -> f x <= f y.
Proof.
  intros D P L. destruct (Req_dec x y) as [->|NE]; [lra|]. destruct (MVT_cor2 f f' x y ltac:(lra)) as (c & E & B).
  - intros c B. apply D. lra.
  - specialize (P c ltac:(lra)). nra.
Qed.
Lemma diff_eq f x l l' : l = l' -> derivable_pt_lim f x l -> derivable_pt_lim f x l'.
Proof. now intros ->. Qed.

(** A continuous function has an antiderivative. *)
Section Primitive.
  Variable f : R -> R.
  Hypothesis C : forall x, continuity_pt f x.
  Lemma integrable a b : Riemann_integrable f a b.
  Proof.
    destruct (Rle_lt_dec a b) as [H|H].
    - apply continuity_implies_RiemannInt; [exact H|]. intros; apply C.
    - apply RiemannInt_P1. apply continuity_implies_RiemannInt; [lra|]. intros; apply C.
  Qed.
  Lemma primitive_exists : exists F, forall x, derivable_pt_lim F x (f x).
  Proof.
    exists (fun x => RiemannInt (integrable 0 x)). intros x. set (a := - Rabs x - 1). set (b := Rabs x + 1).
    assert (Hx : a < x < b) by (unfold a, b, Rabs; destruct Rcase_abs; lra).
    assert (H0 : a < 0 < b) by (unfold a, b; pose proof (Rabs_pos x); lra).
    assert (h : a <= b) by lra. set (CC := fun (y : R) (_ : a <= y <= b) => C y).
    apply (derivable_pt_lim_locally_ext (fun y => primitive h (FTC_P1 h CC) y - RiemannInt (integrable a 0)) _ x a b); [exact Hx| |].
    - intros z (Z1 & Z2). unfold primitive. destruct (Rle_dec a z) as [R1|]; [|lra]. destruct (Rle_dec z b) as [R2|]; [|lra].
      rewrite <- (RiemannInt_P26 (integrable a 0) (integrable 0 z) (FTC_P1 h CC R1 R2)). ring.
    - replace (f x) with (f x - 0) by ring. apply derivable_pt_lim_minus; [apply RiemannInt_P28; lra|]. apply derivable_pt_lim_const.
  Qed.
End Primitive.

(** Real numbers that are determined can be had. *)
Lemma the_real (P : R -> Prop) : (exists v, P v) -> (forall v w, P v -> P w -> v = w) -> { v | P v }.
Proof.
  intros E U. destruct (completeness (fun y => exists v, P v /\ y <= v)) as (m & B & L).
  - destruct E as (v & Hv). exists v. intros y (w & Hw & Hy). now rewrite (U v w Hv Hw).
  - destruct E as (v & Hv). exists v, v. split; [assumption|lra].
  - exists m. destruct E as (v & Hv). replace m with v; [exact Hv|]. apply Rle_antisym.
    + apply B. exists v. split; [assumption|lra].
    + apply L. intros y (w & Hw & Hy). now rewrite (U v w Hv Hw).
Qed.

Section Normal.
  Variable N : R -> R.
  Hypothesis HN : normal_cdf N.
  Notation mean := (mean_of N).

  Lemma cdf_up : tends_up N 1.
  Proof.
    intros eps P. destruct (nc_tail N HN eps P) as (M & HM). exists (- M). intros x L. specialize (HM (- x) ltac:(lra)).
    rewrite (nc_symmetric N HN) in HM. unfold Rabs in *. repeat destruct Rcase_abs; lra.
  Qed.
  Lemma cdf_down : tends_down N 0.
  Proof. intros eps P. destruct (nc_tail N HN eps P) as (M & HM). exists M. intros x L. rewrite Rminus_0_r. auto. Qed.

  (** The density. *)
  Definition density_of (k : R) : Prop := 0 < k /\ forall x, derivable_pt_lim N x (k * bell x).
  Lemma has_density : exists k, density_of k.
  Proof. destruct (nc_density N HN) as (k & K & D). exists k. split; assumption. Qed.

  Lemma mean_density k g v : density_of k -> mean g v <-> exists G lo hi,
    (forall x, derivable_pt_lim G x (g x * (k * bell x))) /\ tends_down G lo /\ tends_up G hi /\ v = hi - lo.
  Proof.
    intros (K & D). split.
    - intros (N' & G & lo & hi & DN & DG & A & B & E). exists G, lo, hi. split; [|tauto]. intros x.
      now rewrite (uniqueness_limite N x (k * bell x) (N' x) (D x) (DN x)).
    - intros (G & lo & hi & DG & A & B & E). exists (fun x => k * bell x), G, lo, hi. tauto.
  Qed.

  Lemma mean_unique g v w : mean g v -> mean g w -> v = w.
  Proof.
    destruct has_density as (k & D). rewrite !(mean_density k) by exact D.
    intros (G & lo & hi & DG & A & B & ->) (H & lo' & hi' & DH & A' & B' & ->).
    pose proof (same_derivative G H _ DG DH) as E.
    assert (C : forall x, G x = 1 * H x + 1 * (G 0 - H 0)) by (intros x; rewrite (E 0 x); ring).
    assert (lo = 1 * lo' + 1 * (G 0 - H 0)).
    { apply (down_unique G); [exact A|]. apply (down_ext (fun x => 1 * H x + 1 * (G 0 - H 0))); [now symmetry|].
      apply down_linear; [exact A'|]. apply down_up, up_const. }
    assert (hi = 1 * hi' + 1 * (G 0 - H 0)).
    { apply (up_unique G); [exact B|]. apply (up_ext (fun x => 1 * H x + 1 * (G 0 - H 0))); [now symmetry|].
      apply up_linear; [exact B'|]. apply up_const. }
    lra.
  Qed.

  Lemma mean_ext g h v : (forall x, g x = h x) -> mean g v -> mean h v.
  Proof.
    intros E (N' & G & lo & hi & DN & DG & R). exists N', G, lo, hi. split; [exact DN|]. split; [|exact R]. intros x. now rewrite <- E.
  Qed.

  Lemma mean_linear a b g h v w : mean g v -> mean h w -> mean (fun x => a * g x + b * h x) (a * v + b * w).
  Proof.
    destruct has_density as (k & D). rewrite !(mean_density k) by exact D.
    intros (G & lo & hi & DG & A & B & ->) (H & lo' & hi' & DH & A' & B' & ->).
    exists (fun x => a * G x + b * H x), (a * lo + b * lo'), (a * hi + b * hi').
    split; [|split; [now apply down_linear|split; [now apply up_linear|ring]]].
    intros x. eapply diff_eq; [|apply diff_linear; [apply DG|apply DH]]. ring.
  Qed.

  Lemma mean_const c : mean (fun _ => c) c.
  Proof.
    destruct has_density as (k & D). apply (mean_density k _ _ D). exists (fun x => c * N x + 0 * N x), (c * 0 + 0 * 0), (c * 1 + 0 * 1).
    split; [|split; [apply down_linear; apply cdf_down|split; [apply up_linear; apply cdf_up|ring]]].
    intros x. eapply diff_eq; [|apply diff_linear; apply (proj2 D)]. ring.
  Qed.

  Lemma mean_scale a g v : mean g v -> mean (fun x => a * g x) (a * v).
  Proof.
    intros M. apply (mean_ext (fun x => a * g x + 0 * 0)); [intros; ring|]. replace (a * v) with (a * v + 0 * 0) by ring.
    apply (mean_linear a 0 g (fun _ => 0)); [exact M|apply mean_const].
  Qed.
  Lemma mean_plus g h v w : mean g v -> mean h w -> mean (fun x => g x + h x) (v + w).
  Proof.
    intros M M'. apply (mean_ext (fun x => 1 * g x + 1 * h x)); [intros; ring|]. replace (v + w) with (1 * v + 1 * w) by ring.
    now apply mean_linear.
  Qed.

  Lemma mean_nonneg g v : (forall x, 0 <= g x) -> mean g v -> 0 <= v.
  Proof.
    destruct has_density as (k & D). rewrite (mean_density k) by exact D. intros P (G & lo & hi & DG & A & B & ->).
    assert (I : forall x y, x <= y -> G x <= G y).
    { intros x y. apply (rises G (fun x => g x * (k * bell x))); [auto|]. intros z _. apply Rmult_le_pos; [auto|].
      apply Rmult_le_pos; [apply Rlt_le, D|apply Rlt_le, bell_pos]. }
    assert (lo <= G 0). { apply (down_le G (fun _ => G 0) lo); [exists 0; intros; now apply I|exact A|apply down_up, up_const]. }
    assert (G 0 <= hi). { apply (up_le (fun _ => G 0) G _ hi); [exists 0; intros; now apply I|apply up_const|exact B]. }
    lra.
  Qed.
  Lemma mean_mono g h v w : (forall x, g x <= h x) -> mean g v -> mean h w -> v <= w.
  Proof.
    intros L M M'. assert (0 <= 1 * w + (-1) * v); [|lra]. apply (mean_nonneg (fun x => 1 * h x + (-1) * g x)); [|now apply mean_linear].
    intros x. specialize (L x). lra.
  Qed.

  (** The bell vanishes at both ends, also times x. *)
  Lemma bell_up : tends_up (fun x => x * bell x) 0.
  Proof.
    intros eps P. exists (Rmax 1 (8 / eps)). intros x L. rewrite Rminus_0_r.
    pose proof (Rmax_l 1 (8 / eps)). pose proof (Rmax_r 1 (8 / eps)).
    assert (X : 0 < x) by lra. rewrite Rabs_right by (apply Rle_ge, Rmult_le_pos; [lra|apply Rlt_le, bell_pos]).
    assert (Q : 1 + x * x / 2 <= exp (x * x / 2)) by (apply exp_ineq1_le).
    assert (B : bell x = / exp (x * x / 2)) by (unfold bell; now rewrite exp_Ropp). rewrite B.
    apply (Rmult_lt_reg_r (exp (x * x / 2))); [apply exp_pos|]. rewrite Rmult_assoc, Rinv_l by (pose proof (exp_pos (x * x / 2)); lra).
    assert (8 <= eps * x). { apply (Rmult_le_compat_l eps) in H0; [|lra]. replace (eps * (8 / eps)) with 8 in H0 by (field; lra). nra. }
    assert (eps * (1 + x * x / 2) <= eps * exp (x * x / 2)) by (apply Rmult_le_compat_l; lra). nra.
  Qed.
  Lemma bell_down : tends_down (fun x => x * bell x) 0.
  Proof.
    apply down_up. apply (up_ext (fun x => (-1) * (x * bell x) + 0 * 0)); [intros; rewrite bell_even; ring|].
    pose proof (up_linear (-1) 0 (fun x => x * bell x) (fun _ => 0) 0 0 bell_up (up_const 0)) as E.
    replace (-1 * 0 + 0 * 0) with 0 in E by ring. exact E.
  Qed.
  Lemma bell_up0 : tends_up bell 0.
  Proof.
    intros eps P. destruct (bell_up eps P) as (M & HM). exists (Rmax 1 M). intros x L. pose proof (Rmax_l 1 M). pose proof (Rmax_r 1 M).
    specialize (HM x ltac:(lra)). rewrite Rminus_0_r in *. pose proof (bell_pos x).
    rewrite Rabs_right in * by nra. nra.
  Qed.
  Lemma bell_down0 : tends_down bell 0.
  Proof. apply down_up. apply (up_ext bell); [intros; now rewrite bell_even|apply bell_up0]. Qed.

  Lemma mean_id : mean (fun x => x) 0.
  Proof.
    destruct has_density as (k & D). apply (mean_density k _ _ D). exists (fun x => (- k) * bell x + 0 * bell x), ((- k) * 0 + 0 * 0), ((- k) * 0 + 0 * 0).
    split; [|split; [apply down_linear; apply bell_down0|split; [apply up_linear; apply bell_up0|ring]]].
    intros x. eapply diff_eq; [|apply diff_linear; apply bell_derivable]. ring.
  Qed.
  Lemma mean_square : mean (fun x => x * x) 1.
  Proof.
    destruct has_density as (k & D). apply (mean_density k _ _ D).
    exists (fun x => 1 * N x + (- k) * (x * bell x)), (1 * 0 + (- k) * 0), (1 * 1 + (- k) * 0).
    split; [|split; [apply down_linear; [apply cdf_down|apply bell_down]|split; [apply up_linear; [apply cdf_up|apply bell_up]|ring]]].
    intros x. eapply diff_eq; [|apply diff_linear; [apply (proj2 D)|apply (derivable_pt_lim_mult id bell x 1); [apply derivable_pt_lim_id|apply bell_derivable]]].
    unfold id. ring.
  Qed.

  (** Growth is a change of drift. *)
  Lemma mean_shift s g v : mean (fun x => g (x + s)) v -> mean (fun x => exp (s * x - s * s / 2) * g x) v.
  Proof.
    destruct has_density as (k & D). rewrite !(mean_density k) by exact D. intros (G & lo & hi & DG & A & B & E).
    exists (fun x => G (x + - s)), lo, hi. split; [|split; [now apply down_shift|split; [now apply up_shift|exact E]]].
    intros x. apply (derivable_pt_lim_ext (fun y => G (1 * y + - s))); [intros; f_equal; ring|].
    eapply diff_eq; [|apply diff_affine, DG]. replace (1 * x + - s + s) with x by ring.
    unfold bell. replace (- ((1 * x + - s) * (1 * x + - s) / 2)) with ((s * x - s * s / 2) + - (x * x / 2)) by field. rewrite exp_plus. ring.
  Qed.
  Lemma mean_flip g v : mean g v -> mean (fun x => g (- x)) v.
  Proof.
    destruct has_density as (k & D). rewrite !(mean_density k) by exact D. intros (G & lo & hi & DG & A & B & ->).
    exists (fun x => (-1) * G ((-1) * x + 0) + 0 * 0), ((-1) * hi + 0 * 0), ((-1) * lo + 0 * 0).
    assert (E : forall x, (-1) * x + 0 = - x) by (intros; ring).
    split; [|split; [apply (down_linear (-1) 0 (fun x => G ((-1) * x + 0)) (fun _ => 0)); [|apply down_up, up_const]|split; [apply (up_linear (-1) 0 (fun x => G ((-1) * x + 0)) (fun _ => 0)); [|apply up_const]|ring]]].
    - intros x. eapply diff_eq; [|apply (diff_linear (-1) 0 (fun x => G ((-1) * x + 0)) (fun _ => 0)); [apply diff_affine, DG|apply derivable_pt_lim_const]].
      rewrite E, bell_even. ring.
    - apply down_up. apply (up_ext G); [intros; f_equal; ring|exact B].
    - apply (up_ext (fun x => G (- x))); [intros; f_equal; ring|]. now apply down_up.
  Qed.

  Lemma mean_exp s : mean (fun x => exp (s * x - s * s / 2)) 1.
  Proof. apply (mean_ext (fun x => exp (s * x - s * s / 2) * 1)); [intros; ring|]. apply (mean_shift s (fun _ => 1)), mean_const. Qed.

  (** A continuous function of at most quadratic growth has a mean. *)
  Lemma mean_exists_nonneg g a b : (forall x, continuity_pt g x) -> (forall x, 0 <= g x <= a + b * (x * x)) -> exists v, mean g v.
  Proof.
    intros C B. destruct has_density as (k & D).
    destruct (primitive_exists (fun x => g x * (k * bell x))) as (G & DG).
    { intros x. apply continuity_pt_mult; [apply C|]. apply continuity_pt_mult; [now apply derivable_continuous_pt, derivable_pt_const|apply bell_continuous]. }
    assert (M : mean (fun x => a * 1 + b * (x * x)) (a * 1 + b * 1)) by (apply (mean_linear a b (fun _ => 1)); [apply mean_const|apply mean_square]).
    apply (mean_density k _ _ D) in M. destruct M as (H & lo & hi & DH & Lo & Hi & _).
    assert (P : forall x, 0 <= k * bell x) by (intros x; apply Rmult_le_pos; [apply Rlt_le, D|apply Rlt_le, bell_pos]).
    assert (I : forall x y, x <= y -> G x <= G y).
    { intros x y. apply (rises G (fun x => g x * (k * bell x))); [auto|]. intros z _. apply Rmult_le_pos; [apply B|apply P]. }
    assert (I' : forall x y, x <= y -> H x <= H y).
    { intros x y. apply (rises H (fun x => (a * 1 + b * (x * x)) * (k * bell x))); [auto|]. intros z _. apply Rmult_le_pos; [|apply P]. specialize (B z). lra. }
    assert (J : forall x y, x <= y -> H x - G x <= H y - G y).
    { intros x y. apply (rises (fun x => H x - G x) (fun x => (a * 1 + b * (x * x)) * (k * bell x) - g x * (k * bell x))).
      - intros z _. now apply derivable_pt_lim_minus.
      - intros z _. specialize (B z). specialize (P z). nra. }
    assert (HH : forall x, H x <= hi). { intros x. apply (up_le (fun _ => H x) H _ hi); [exists x; intros; now apply I'|apply up_const|exact Hi]. }
    assert (HL : forall x, lo <= H x). { intros x. apply (down_le H (fun _ => H x) lo); [exists x; intros; now apply I'|exact Lo|apply down_up, up_const]. }
    destruct (up_bounded G (G 0 + (hi - H 0)) I) as (u & U & _).
    { intros x. destruct (Rle_lt_dec x 0) as [L|L]; [specialize (I x 0 L); specialize (HH 0); lra|]. specialize (J 0 x ltac:(lra)). specialize (HH x). lra. }
    destruct (down_bounded G (G 0 - (H 0 - lo)) I) as (d & Dn & _).
    { intros x. destruct (Rle_lt_dec 0 x) as [L|L]; [specialize (I 0 x L); specialize (HL 0); lra|]. specialize (J x 0 ltac:(lra)). specialize (HL x). lra. }
    exists (u - d). apply (mean_density k _ _ D). exists G, d, u. tauto.
  Qed.
  Lemma mean_exists g a b : (forall x, continuity_pt g x) -> (forall x, Rabs (g x) <= a + b * (x * x)) -> exists v, mean g v.
  Proof.
    intros C B. destruct (mean_exists_nonneg (fun x => g x + (a * 1 + b * (x * x))) (2 * a) (2 * b)) as (v & M).
    - intros x. apply continuity_pt_plus; [apply C|]. apply derivable_continuous_pt. eexists.
      apply (diff_linear a b (fun _ => 1) (fun x => x * x)); [apply derivable_pt_lim_const|]. apply (derivable_pt_lim_mult id id); apply derivable_pt_lim_id.
    - intros x. specialize (B x). unfold Rabs in B. destruct Rcase_abs in B; lra.
    - exists (1 * v + (-1) * (a * 1 + b * 1)). apply (mean_ext (fun x => 1 * (g x + (a * 1 + b * (x * x))) + (-1) * (a * 1 + b * (x * x)))); [intros; ring|].
      apply mean_linear; [exact M|]. apply (mean_linear a b (fun _ => 1)); [apply mean_const|apply mean_square].
  Qed.
  Lemma mean_exists_at g : (exists v, mean g v) -> { v | mean g v }.
  Proof. intros E. apply the_real; [exact E|]. intros v w. apply mean_unique. Qed.
End Normal.
