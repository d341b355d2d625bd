(** Lemmas about the paths of the Black diffusion model. *)
From Coq Require Import ZArith List String Bool Lia Reals Lra.
From Verif Require Import Prelude Num M_Dates M_Calendar M_Curves M_Fixings M_Forward M_Vol M_Instruments M_Deps M_Risk M_Reports M_MonteCarlo
  S_MonteCarlo L_Num L_Vol.
Import ListNotations.
Open Scope list_scope.
Open Scope R_scope.

Lemma product_app a b : product (a ++ b) = product a * product b.
Proof. unfold product. induction a as [|x a IH]; cbn [app fold_right]; [lra|]. rewrite IH. lra. Qed.

Lemma combine_split {A B} (a b : list A) (c d : list B) : List.length a = List.length c -> combine (a ++ b) (c ++ d) = combine a c ++ combine b d.
Proof.
  revert c. induction a as [|x a IH]; intros [|y c] L; cbn in *; try discriminate; [reflexivity|]. f_equal. apply IH. lia.
Qed.

Lemma take_spec n sigma : forall (point : R) gs p' gs', take_substeps n sigma point gs = Ok (p', gs') ->
  (n <= List.length gs)%nat /\ gs' = skipn n gs /\ p' = point * product (map (fun g => 1 + g * sigma) (firstn n gs)).
Proof.
  induction n as [|n IH]; intros point gs p' gs' E; cbn [take_substeps] in E.
  - injection E as <- <-. cbn. repeat split; [lia|lra].
  - destruct gs as [|g gs]; [discriminate|]. apply IH in E. destruct E as (A & -> & ->). cbn [List.length skipn firstn map]. repeat split; [lia|].
    unfold product. cbn [fold_right]. rnum. change n1 with 1. lra.
Qed.

Lemma grown_leg gs s n devs N : (n <= List.length gs)%nat ->
  grown gs (repeat s n ++ devs) (n + N) = product (map (fun g => 1 + g * s) (firstn n gs)) * grown (skipn n gs) devs N.
Proof.
  intros L. unfold grown. rewrite <- (firstn_skipn n gs) at 1.
  assert (F : List.length (firstn n gs) = n) by (rewrite firstn_length; lia).
  rewrite combine_split by (rewrite F, repeat_length; reflexivity). rewrite firstn_app, combine_length, F, repeat_length, Nat.min_id.
  rewrite firstn_all2 by (rewrite combine_length, F, repeat_length; lia). replace (n + N - n)%nat with N by lia.
  rewrite map_app, product_app. f_equal. f_equal.
  assert (G : forall l k, List.length l = k -> map (fun gs => 1 + fst gs * snd gs) (combine l (repeat s k)) = map (fun g => 1 + g * s) l).
  { clear. induction l as [|x l IH]; intros [|k] F; cbn in *; try discriminate; try reflexivity. f_equal. apply IH. lia. }
  now apply G.
Qed.

(** One path from its legs. *)
Definition legs_devs (sigmas : list R) (subs : list nat) : list R := List.concat (map (fun sn => repeat (fst sn) (snd sn)) (combine sigmas subs)).

Lemma walk_spec_row sigmas : forall subs ms (point : R) gs row, List.length sigmas = List.length ms -> List.length subs = List.length ms ->
  walk_path (combine (combine sigmas subs) ms) point gs = Ok row ->
  row = map (fun j => let m := nth j ms (0, 0) in point * grown gs (legs_devs sigmas subs) (list_sum (firstn (S j) subs)) * fst m + snd m) (seq 0 (List.length ms)).
Proof.
  induction sigmas as [|s sigmas IH]; intros [|n subs] [|[f d] ms] point gs row L1 L2 E; cbn [List.length combine walk_path] in *; try discriminate.
  - cbn. now injection E as <-.
  - inv_bind E. match goal with x : R * list R |- _ => destruct x as [p' gs'] end. inv_bind E. injection E as <-.
    match goal with H : take_substeps _ _ _ _ = Ok _ |- _ => apply take_spec in H; destruct H as (A & -> & ->) end.
    match goal with H : walk_path _ _ _ = Ok _ |- _ => apply IH in H; [|lia..] end. subst.
    cbn [seq map nth fst snd firstn]. f_equal.
    + unfold legs_devs. cbn [combine map List.concat fst snd]. change (list_sum [n]) with (n + 0)%nat. rewrite grown_leg by exact A.
      unfold grown at 1. rewrite firstn_O. cbn. lra.
    + rewrite <- seq_shift, map_map. apply map_ext. intros j. cbn [nth firstn]. unfold legs_devs at 2. cbn [combine map List.concat fst snd].
      change (list_sum (n :: _)) with (n + list_sum (firstn (S j) subs))%nat. fold (legs_devs sigmas subs). rewrite grown_leg by exact A.
      change (match subs with [] => [] | a :: l => a :: firstn j l end) with (firstn (S j) subs). lra.
Qed.

Lemma forall2_length {A B} (P : A -> B -> Prop) l m : Forall2 P l m -> List.length m = List.length l.
Proof. induction 1; cbn; auto. Qed.

(** The marks. *)
Lemma marks_spec nan curve surface obs ms : fetch_marks nan curve surface obs = Ok ms ->
  exists marks, marked nan curve surface obs marks /\
    ms = map (fun m => (mk_forward m - mk_displacement m, mk_variance m, mk_displacement m)) marks.
Proof.
  unfold fetch_marks, marked. revert ms. induction obs as [|o obs IH]; intros ms E; cbn [mapM] in E.
  - injection E as <-. exists []. split; [constructor|reflexivity].
  - inv_bind E. inv_bind E. injection E as <-. match goal with H : mapM _ obs = Ok _ |- _ => destruct (IH _ H) as (marks & M & ->); clear H end.
    match goal with H : bind _ _ = Ok _ |- _ => inv_bind H; inv_bind H; inv_bind H; injection H as <- end.
    match goal with F : forward_at _ _ _ = Ok ?f, V : variance _ _ _ _ = Ok ?v, D : displacement _ _ _ = Ok ?d |- _ => exists (mkMark f v d :: marks) end.
    split; [constructor; [cbn; auto|exact M]|reflexivity].
Qed.

Lemma marks_marked nan curve surface obs marks : marked nan curve surface obs marks ->
  fetch_marks nan curve surface obs = Ok (map (fun m => (mk_forward m - mk_displacement m, mk_variance m, mk_displacement m)) marks).
Proof.
  unfold marked, fetch_marks. induction 1 as [|o m obs marks (F & V & D) M IH]; [reflexivity|]. cbn [mapM map]. rewrite F. cbn [bind]. rewrite V. cbn [bind]. rewrite D.
  cbn [bind]. rewrite IH. reflexivity.
Qed.

Lemma marked_fun nan curve surface obs marks marks' : marked nan curve surface obs marks -> marked nan curve surface obs marks' -> marks' = marks.
Proof.
  unfold marked. intros M. revert marks'. induction M as [|o m obs marks (F & V & D) M IH]; intros marks' M'; inversion M' as [|? m' ? ms' (F' & V' & D') M2]; subst; [reflexivity|].
  f_equal; [|now apply IH]. destruct m as [f v d], m' as [f' v' d']. cbn in *. rewrite F in F'. injection F' as <-. congruence.
Qed.

Lemma sigmas_spec marks : forall before subs sigmas, List.length subs = List.length marks ->
  fetch_sigmas before (map mk_variance marks) subs = Ok sigmas ->
  sigmas = map (fun gn => sqrt (fst gn / INR (snd gn))) (combine (gained before marks) subs) /\ List.length sigmas = List.length marks /\
  Forall2 (fun v n => 0 <= v / INR n) (gained before marks) subs.
Proof.
  induction marks as [|m marks IH]; intros before [|n subs] sigmas L E; cbn [List.length map fetch_sigmas gained combine] in *; try discriminate.
  - injection E as <-. repeat split; constructor.
  - inv_bind E. inv_bind E. injection E as <-. match goal with H : fetch_sigmas _ _ _ = Ok _ |- _ => apply IH in H; [|lia] end.
    match goal with H : _ /\ _ /\ _ |- _ => destruct H as (-> & B & C) end. cbn [List.length map]. rnum. rewrite <- INR_IZR_INZ. repeat split; [lia|].
    constructor; [|exact C]. match goal with H : guard _ _ = Ok _ |- _ => apply guard_ok in H; apply negb_true_iff in H; revert H end.
    rnum. rewrite <- INR_IZR_INZ. rcase; [discriminate|]. intros _. change n0 with 0 in *. lra.
Qed.

Lemma legs_deviations marks subs : legs_devs (map (fun gn => sqrt (fst gn / INR (snd gn))) (combine (gained 0 marks) subs)) subs = deviations marks subs.
Proof.
  unfold legs_devs, deviations. f_equal. generalize (gained 0 marks) as l. intros l. revert subs. induction l as [|g l IH]; intros [|n subs]; try reflexivity.
  cbn [combine map fst snd]. now rewrite IH.
Qed.

(** A path is the growth of what the market says. *)
Lemma fetch_path_spec nan u c obs gaussians subs paths curve surface :
  fetch_path nan u c obs gaussians subs = Ok paths -> List.length subs = List.length obs ->
  ctx_forward_curve c u (last_date obs) = Ok curve -> ctx_vol_surface c u (last_date obs) (Ok curve) = Ok surface ->
  exists marks, marked nan curve surface obs marks /\ Forall2 (fun v n => 0 <= v / INR n) (gained 0 marks) subs /\ paths = map (path_of marks subs) gaussians.
Proof.
  unfold fetch_path. intros E L C S. inv_bind E. inv_bind E. rewrite C in E. cbn [bind] in E. rewrite S in E. cbn [bind] in E. inv_bind E. inv_bind E.
  match goal with H : fetch_marks _ _ _ _ = Ok _ |- _ => apply marks_spec in H; destruct H as (marks & M & ->) end. exists marks. split; [exact M|].
  assert (LM : List.length marks = List.length obs) by (exact (forall2_length _ _ _ M)).
  rewrite map_map in *. cbn [fst snd] in *. change (map (fun x => mk_variance x) marks) with (map mk_variance marks) in *.
  match goal with H : fetch_sigmas _ _ _ = Ok _ |- _ => change n0 with 0 in H; apply sigmas_spec in H; [|lia]; destruct H as (-> & B & G) end. split; [exact G|].
  try rewrite map_map in E. apply mapM_forall2 in E. clear - E B L LM. induction E as [|g row gs rows E _ IH]; [reflexivity|]. cbn [map]. f_equal; [|exact IH].
  apply walk_spec_row in E; [|rewrite B, map_length; reflexivity|rewrite map_length; lia]. rewrite map_length in E. rewrite E. unfold path_of. apply map_ext_in.
  intros j I. apply in_seq in I. cbn zeta. rewrite legs_deviations. change n1 with 1.
  set (F := fun m => (mk_forward m - mk_displacement m, mk_displacement m)).
  assert (NT : nth j (map F marks) (0, 0) = F (nth j marks (mkMark 0 0 0))).
  { rewrite (nth_indep (map F marks) (0, 0) (F (mkMark 0 0 0))) by (rewrite map_length; lia). exact (map_nth F marks (mkMark 0 0 0) j). }
  rewrite NT. unfold F. cbn [fst snd]. lra.
Qed.

(** The number of steps. *)
Lemma ceil_spec x : 0 <= x -> x <= IZR (nceil x) < x + 1.
Proof.
  intros P. unfold nceil. rnum. destruct (Rtrunc_nonneg x P) as [A B]. rcase; [rewrite plus_IZR|]; lra.
Qed.

Lemma ceil_nonneg x : 0 <= x -> (0 <= nceil x)%Z.
Proof. intros P. destruct (ceil_spec x P). apply le_IZR. lra. Qed.

Lemma steps_needed most v : 0 < most -> 0 <= v -> let n := Nat.max 1 (Z.to_nat (nceil (v / most))) in
  (1 <= n)%nat /\ v / INR n <= most /\ ((1 < n)%nat -> most < v / (INR n - 1)).
Proof.
  intros P V. cbn zeta. assert (Q : 0 <= v / most) by (apply Rmult_le_pos; [exact V|left; now apply Rinv_0_lt_compat]).
  destruct (ceil_spec _ Q) as [A B]. pose proof (ceil_nonneg _ Q) as C. set (k := nceil (v / most)) in *.
  assert (VM : v = v / most * most) by (field; lra).
  assert (IK : INR (Z.to_nat k) = IZR k) by (rewrite INR_IZR_INZ, Z2Nat.id by exact C; reflexivity).
  split; [lia|]. assert (NP : 1 <= INR (Nat.max 1 (Z.to_nat k))) by (change 1 with (INR 1) at 1; apply le_INR; lia).
  assert (KN : IZR k <= INR (Nat.max 1 (Z.to_nat k))) by (rewrite <- IK; apply le_INR; lia). split.
  - apply Rmult_le_reg_r with (INR (Nat.max 1 (Z.to_nat k))); [lra|]. unfold Rdiv at 1. rewrite Rmult_assoc, Rinv_l by lra. rewrite Rmult_1_r.
    rewrite VM at 1. rewrite (Rmult_comm (v / most)). apply Rmult_le_compat_l; lra.
  - intros L. assert (E : Nat.max 1 (Z.to_nat k) = Z.to_nat k) by lia. rewrite E, IK in *.
    assert (K1 : 0 < IZR k - 1) by (rewrite <- IK; apply lt_INR in L; change (INR 1) with 1 in L; lra).
    apply Rmult_lt_reg_r with (IZR k - 1); [exact K1|]. unfold Rdiv at 1. rewrite Rmult_assoc, Rinv_l by lra. rewrite Rmult_1_r. rewrite VM at 1.
    rewrite (Rmult_comm (v / most)). apply Rmult_lt_compat_l; lra.
Qed.

Lemma loop_spec nan curve surface most obs marks : 0 < most -> marked nan curve surface obs marks -> forall before subs,
  substep_loop nan curve surface most before obs (map (fun _ => 1%nat) obs) = Ok subs ->
  Forall2 (fun v n => (1 <= n)%nat /\ v / INR n <= most /\ ((1 < n)%nat -> most < v / (INR n - 1))) (gained before marks) subs.
Proof.
  intros P M. induction M as [|o m obs marks (F & V & D) M IH]; intros before subs E; cbn [map substep_loop gained] in E.
  - injection E as <-. constructor.
  - rewrite F in E. cbn [bind] in E. rewrite V in E. cbn [bind] in E. inv_bind E. inv_bind E. injection E as <-. cbn [gained]. constructor; [|now apply IH].
    apply steps_needed; [exact P|]. match goal with H : guard _ _ = Ok _ |- _ => apply guard_ok in H; apply negb_true_iff in H; revert H end.
    rnum. rcase; [discriminate|]. intros _. lra.
Qed.

Lemma substeps_spec nan u c obs most subs curve surface marks : 0 < most ->
  calculate_substepping nan obs c [u] most = Ok subs -> ctx_forward_curve c u (last_date obs) = Ok curve ->
  ctx_vol_surface c u (last_date obs) (Ok curve) = Ok surface -> marked nan curve surface obs marks -> enough_steps most marks subs.
Proof.
  intros P E C S M. unfold calculate_substepping in E. inv_bind E. cbn [foldM] in E. rewrite C in E. cbn [bind] in E. rewrite S in E. cbn [bind] in E. inv_bind E.
  injection E as <-. change n0 with 0 in *. eapply loop_spec; eassumption.
Qed.

Lemma loop_length nan (curve : forward R) surface most obs : forall before subs subs', substep_loop nan curve surface most before obs subs = Ok subs' ->
  List.length subs' = List.length subs /\ ((forall n, In n subs -> (1 <= n)%nat) -> forall n, In n subs' -> (1 <= n)%nat).
Proof.
  induction obs as [|o obs IH]; intros before [|n subs] subs' E; cbn [substep_loop] in E; try (injection E as <-; auto; fail).
  repeat inv_bind E. injection E as <-. match goal with H : substep_loop _ _ _ _ _ _ _ = Ok _ |- _ => apply IH in H; destruct H as [H1 H2] end.
  cbn [List.length]. split; [lia|]. intros A k [<-|I]; [specialize (A n (or_introl eq_refl)); lia|]. apply H2; [|exact I]. intros j J. apply A. now right.
Qed.

Lemma substeps_length nan u (c : pricing_context R) obs most subs : calculate_substepping nan obs c [u] most = Ok subs ->
  List.length subs = List.length obs /\ forall n, In n subs -> (1 <= n)%nat.
Proof.
  intros E. unfold calculate_substepping in E. inv_bind E. cbn [foldM] in E. repeat inv_bind E. injection E as <-.
  match goal with H : bind _ _ = Ok _ |- _ => repeat inv_bind H end.
  match goal with H : substep_loop _ _ _ _ _ _ _ = Ok _ |- _ => apply loop_length in H; destruct H as [H1 H2] end. rewrite map_length in H1. split; [exact H1|].
  apply H2. intros n I. apply in_map_iff in I. destruct I as (? & <- & _). lia.
Qed.

(** What follows about paths. *)
Lemma grown_zero n : forall draws devs, Forall (fun g => g = 0) draws -> grown draws devs n = 1.
Proof.
  unfold grown, product. induction n as [|n IH]; intros [|g draws] [|s devs] Z; try reflexivity. inversion Z as [|? ? -> Z']; subst.
  cbn [combine firstn map fold_right fst snd]. rewrite IH by exact Z'. lra.
Qed.

Lemma map_seq_nth {A B} (F : A -> B) (l : list A) x : map (fun j => F (nth j l x)) (seq 0 (List.length l)) = map F l.
Proof.
  induction l as [|y l IH]; [reflexivity|]. cbn [List.length seq map nth]. f_equal. rewrite <- seq_shift, map_map. exact IH.
Qed.

Lemma path_zero marks steps draws : Forall (fun g => g = 0) draws -> path_of marks steps draws = map mk_forward marks.
Proof.
  intros Z. rewrite <- (map_seq_nth mk_forward marks (mkMark 0 0 0)). unfold path_of. apply map_ext. intros j. cbn zeta. rewrite grown_zero by exact Z. lra.
Qed.

Lemma path_length marks steps draws : List.length (path_of marks steps draws) = List.length marks.
Proof. unfold path_of. now rewrite map_length, seq_length. Qed.

Lemma path_nth marks steps draws j m : nth_error marks j = Some m ->
  nth_error (path_of marks steps draws) j =
  Some ((mk_forward m - mk_displacement m) * grown draws (deviations marks steps) (list_sum (firstn (S j) steps)) + mk_displacement m).
Proof.
  intros E. unfold path_of. assert (L : (j < List.length marks)%nat) by (apply nth_error_Some; congruence).
  rewrite (map_nth_error _ j (seq 0 (List.length marks)) (d := j)).
  - now rewrite (nth_error_nth _ _ _ E).
  - rewrite nth_error_nth' with (d := O) by (rewrite seq_length; exact L). now rewrite seq_nth.
Qed.

Lemma deviations_variances marks marks' steps : map mk_variance marks' = map mk_variance marks -> deviations marks' steps = deviations marks steps.
Proof.
  intros E. unfold deviations. assert (G : forall b, gained b marks' = gained b marks); [|now rewrite G].
  revert marks' E. induction marks as [|m marks IH]; intros [|m' marks'] E b; cbn in *; try discriminate; [reflexivity|]. injection E as E1 E2. rewrite E1. now rewrite IH.
Qed.

Lemma path_scales marks marks' steps draws j m m' v v' : map mk_variance marks' = map mk_variance marks ->
  nth_error marks j = Some m -> nth_error marks' j = Some m' ->
  nth_error (path_of marks steps draws) j = Some v -> nth_error (path_of marks' steps draws) j = Some v' ->
  (v' - mk_displacement m') * (mk_forward m - mk_displacement m) = (v - mk_displacement m) * (mk_forward m' - mk_displacement m').
Proof.
  intros E M M' V V'. rewrite (path_nth _ _ _ _ _ M) in V. rewrite (path_nth _ _ _ _ _ M') in V'. rewrite (deviations_variances _ _ _ E) in V'.
  injection V as <-. injection V' as <-. lra.
Qed.

(** Averages over every choice of signs. *)
Definition total (l : list R) : R := fold_right Rplus 0 l.
Lemma total_app a b : total (a ++ b) = total a + total b.
Proof. unfold total. induction a as [|x a IH]; cbn; [lra|]. rewrite IH. lra. Qed.

Lemma total_scale k l : total (map (Rmult k) l) = k * total l.
Proof. unfold total. induction l as [|x l IH]; cbn; [lra|]. rewrite IH. lra. Qed.

Lemma total_ext {A} (f g : A -> R) l : (forall x, f x = g x) -> total (map f l) = total (map g l).
Proof. intros E. f_equal. now apply map_ext. Qed.

Lemma total_const {A} k (l : list A) : total (map (fun _ => k) l) = INR (List.length l) * k.
Proof. unfold total. induction l as [|x l IH]; cbn [map fold_right List.length]; [cbn; lra|]. rewrite IH, S_INR. lra. Qed.

Lemma total_affine {A} (f : A -> R) a b l : total (map (fun x => a * f x + b) l) = a * total (map f l) + INR (List.length l) * b.
Proof. unfold total. induction l as [|x l IH]; cbn [map fold_right List.length]; [cbn; lra|]. rewrite IH, S_INR. lra. Qed.

Lemma signs_average g : forall devs n, total (map (fun draws => grown draws devs n) (sign_changes g)) = INR (List.length (sign_changes g)).
Proof.
  induction g as [|x g IH]; intros devs n.
  - unfold grown. cbn. destruct n; cbn; lra.
  - cbn [sign_changes]. rewrite map_app, total_app, app_length, !map_length, !map_map, plus_INR.
    destruct n as [|n]; [|destruct devs as [|s devs]].
    + unfold grown. cbn [firstn map]. change (product []) with 1. rewrite !total_const. lra.
    + unfold grown. cbn [combine firstn map]. change (product []) with 1. rewrite !total_const. lra.
    + rewrite (total_ext (fun l => grown (x :: l) (s :: devs) (S n)) (fun l => (1 + x * s) * grown l devs n + 0)) by (intros l; unfold grown, product; cbn; lra).
      rewrite (total_ext (fun l => grown (- x :: l) (s :: devs) (S n)) (fun l => (1 + - x * s) * grown l devs n + 0)) by (intros l; unfold grown, product; cbn; lra).
      rewrite !total_affine, IH. lra.
Qed.

Lemma signs_some g : INR (List.length (sign_changes g)) <> 0.
Proof.
  assert (H : (0 < List.length (sign_changes g))%nat). { induction g; cbn; [lia|]. rewrite app_length, !map_length. lia. }
  apply lt_0_INR in H. lra.
Qed.

Lemma signs_mean marks steps g j m : nth_error marks j = Some m ->
  mean (column j (map (path_of marks steps) (sign_changes g))) = mk_forward m.
Proof.
  intros E. unfold mean, column. rewrite map_map, map_length. fold total.
  change (fold_right Rplus 0 ?l) with (total l).
  rewrite (total_ext _ (fun draws => (mk_forward m - mk_displacement m) * grown draws (deviations marks steps) (list_sum (firstn (S j) steps)) + mk_displacement m)).
  - rewrite total_affine, signs_average. field. apply signs_some.
  - intros draws. apply nth_error_nth. now apply path_nth.
Qed.

(** When there are paths. *)
Lemma take_ok n sigma : forall (point : R) gs, (n <= List.length gs)%nat -> exists p', take_substeps n sigma point gs = Ok (p', skipn n gs).
Proof.
  induction n as [|n IH]; intros point gs L; cbn [take_substeps]; [eauto|]. destruct gs as [|g gs]; cbn [List.length] in L; [lia|]. apply IH. lia.
Qed.

Lemma walk_ok sigmas : forall subs ms (point : R) gs, List.length sigmas = List.length ms -> List.length subs = List.length ms ->
  (list_sum subs <= List.length gs)%nat -> exists row, walk_path (combine (combine sigmas subs) ms) point gs = Ok row.
Proof.
  induction sigmas as [|s sigmas IH]; intros [|n subs] [|[f d] ms] point gs L1 L2 LG; cbn [List.length combine walk_path] in *; try discriminate; [eauto|].
  change (list_sum (n :: subs)) with (n + list_sum subs)%nat in LG. destruct (take_ok n s point gs ltac:(lia)) as (p' & ->). cbn [bind].
  destruct (IH subs ms p' (skipn n gs)) as (row & ->); try lia; [rewrite skipn_length; lia|]. cbn [bind]. eauto.
Qed.

Lemma sigmas_ok marks : forall before subs, Forall2 (fun v n => 0 <= v /\ (1 <= n)%nat) (gained before marks) subs ->
  exists sigmas, fetch_sigmas before (map mk_variance marks) subs = Ok sigmas.
Proof.
  induction marks as [|m marks IH]; intros before subs F; cbn [gained map] in *; inversion F as [|? n ? subs' (V & L) F']; subst; cbn [fetch_sigmas]; [eauto|].
  destruct (IH _ _ F') as (sigmas & E). rnum. rewrite <- INR_IZR_INZ.
  assert (P : 0 <= (mk_variance m - before) / INR n). { apply Rmult_le_pos; [exact V|]. left. apply Rinv_0_lt_compat, lt_0_INR. lia. }
  rcase; [lra|]. cbn [negb guard bind]. rewrite E. cbn [bind]. eauto.
Qed.

Lemma fetch_path_ok nan u c obs gaussians subs curve surface marks : (0 < List.length obs)%nat ->
  ctx_forward_curve c u (last_date obs) = Ok curve -> ctx_vol_surface c u (last_date obs) (Ok curve) = Ok surface ->
  marked nan curve surface obs marks -> Forall2 (fun v n => 0 <= v /\ (1 <= n)%nat) (gained 0 marks) subs ->
  Forall (fun g => List.length g = list_sum subs) gaussians ->
  fetch_path nan u c obs gaussians subs = Ok (map (path_of marks subs) gaussians).
Proof.
  intros LO C S M F G. assert (LM : List.length marks = List.length obs) by exact (forall2_length _ _ _ M).
  assert (LG : forall b, List.length (gained b marks) = List.length marks) by (clear; induction marks as [|m marks IH]; intros b; cbn; auto).
  assert (LS : List.length subs = List.length obs) by (rewrite (forall2_length _ _ _ F), LG; exact LM).
  assert (SS : (List.length obs <= list_sum subs)%nat).
  { rewrite <- LS. clear - F. induction F as [|v n vs ns [_ L] F IH]; [cbn; lia|]. change (list_sum (n :: ns)) with (n + list_sum ns)%nat. cbn [List.length]. lia. }
  assert (X : exists paths, fetch_path nan u c obs gaussians subs = Ok paths).
  { unfold fetch_path. replace (Nat.ltb 0 (List.length obs)) with true by (symmetry; now apply Nat.ltb_lt). cbn [assert_ bind].
    replace (forallb (fun g => Nat.leb (List.length obs) (List.length g)) gaussians) with true
      by (symmetry; rewrite forallb_forall; intros g I; rewrite (proj1 (Forall_forall _ _) G g I); now apply Nat.leb_le).
    cbn [assert_ bind]. rewrite C. cbn [bind]. rewrite S. cbn [bind]. rewrite (marks_marked _ _ _ _ _ M). cbn [bind]. rewrite !map_map. cbn [fst snd].
    change n0 with 0. change (map (fun x => mk_variance x) marks) with (map mk_variance marks). destruct (sigmas_ok marks 0 subs F) as (sigmas & ES). rewrite ES. cbn [bind].
    assert (LSM : List.length subs = List.length marks) by lia. destruct (sigmas_spec _ _ _ _ LSM ES) as (_ & LSG & _). clear - G LSG LS LM. induction G as [|g gs E G IH]; [eexists; reflexivity|]. cbn [mapM].
    destruct (walk_ok sigmas subs (map (fun x => (mk_forward x - mk_displacement x, mk_displacement x)) marks) n1 g) as (row & W);
      [rewrite map_length; exact LSG|rewrite map_length; lia|lia|]. destruct IH as (rows & EI). eexists. rnum. rewrite W. cbn [bind]. rewrite EI. reflexivity. }
  destruct X as (paths & X). rewrite X. f_equal. destruct (fetch_path_spec _ _ _ _ _ _ _ _ _ X LS C S) as (marks' & M' & _ & ->).
  now rewrite (marked_fun _ _ _ _ _ _ M M').
Qed.
