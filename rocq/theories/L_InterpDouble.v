(** Linear interpolation of doubles. *)
From Coq Require Import ZArith List String Bool Lia Reals Lra.
From Coq.Floats Require Import SpecFloat.
From Flocq Require Import Core BinarySingleNaN.
From Verif Require Import Prelude Num M_Search M_Interp S_Interp S_Double L_Double L_DoubleError L_InterpAny.
Import ListNotations.
Open Scope list_scope.
Open Scope R_scope.

Lemma eps12_finite : finite eps12.
Proof. split; vm_compute; reflexivity. Qed.
Lemma eps12_pos : 0 < real eps12 < 1.
Proof.
  destruct (ofZ_exact 1 ltac:(cbn; lia)) as [F1 R1], (ofZ_exact 1000000000000 ltac:(cbn; lia)) as [F2 R2].
  assert (IR : in_range (real (nofZ 1) / real (nofZ 1000000000000))).
  { rewrite R1, R2. apply (bound_in_range _ 0); [lia|]. rewrite Rabs_right by lra. change (bpow radix2 0) with 1. lra. }
  destruct (div_spec (nofZ 1) (nofZ 1000000000000) F1 F2 ltac:(lra) IR) as [F R]. change (ndiv (nofZ 1) (nofZ 1000000000000) : F64) with (eps12 : F64) in R.
  rewrite R, R1, R2. destruct (rnd_error (1 / 1000000000000)) as (e & h & E & H & ->). pose proof uu_small. pose proof tiny_small.
  apply Rabs_le_inv in E. apply Rabs_le_inv in H. lra.
Qed.

Lemma sub_numbers x y t : double x -> double y -> nltb t (nsub y x) = true -> number x /\ number y.
Proof.
  intros X Y L. split; (split; [assumption|]); intros ->.
  - destruct y as [|[]| |], t as [|[]| |]; discriminate.
  - destruct x as [|[]| |], t as [|[]| |]; discriminate.
Qed.

(** ** Abscissae that are doubles *)

Lemma ord_doubles (a b : F64) : number a -> number b -> interp_ord a b = true.
Proof.
  intros A B. cbn [interp_ord interpolable_num]. destruct (Rcompare_spec (place a) (place b)) as [L|E|G].
  - now rewrite (proj2 (ltb_place a b A B) L).
  - rewrite (proj2 (eqb_place a b A B) E). apply orb_true_r.
  - rewrite (proj2 (ltb_place b a B A) G). now rewrite orb_true_r.
Qed.

Lemma cmp_doubles (a b : F64) : number a -> number b -> interp_ord a b = true /\ interp_cmp a b = Rcompare (place a) (place b).
Proof.
  intros A B. split; [now apply ord_doubles|]. cbn [interp_cmp interpolable_num]. destruct (Rcompare_spec (place a) (place b)) as [L|E|G].
  - rewrite (proj2 (ltb_place a b A B) L). reflexivity.
  - destruct (nltb a b) eqn:L; [apply (ltb_place a b A B) in L; lra|]. destruct (nltb b a) eqn:G; [apply (ltb_place b a B A) in G; lra|reflexivity].
  - destruct (nltb a b) eqn:L; [apply (ltb_place a b A B) in L; lra|]. now rewrite (proj2 (ltb_place b a B A) G).
Qed.

Section Doubles.
  Variable pts : list (F64 * F64).
  Hypothesis D : forall p, In p pts -> double (fst p).

  Lemma validate_step (p : F64) (ps : list (F64 * F64)) : validate_from p ps = Ok tt ->
    match ps with [] => True | q :: rest => nltb eps12 (nsub (fst q) p) = true /\ validate_from (fst q) rest = Ok tt end.
  Proof.
    destruct ps as [|q rest]; [easy|]. cbn [validate_from]. change (interp_diff p (fst q)) with (nsub (fst q) p).
    destruct (nltb eps12 (nsub (fst q) p)) eqn:E; [|discriminate]. cbn [negb]. auto.
  Qed.

  Lemma validate_pairs (ps : list (F64 * F64)) : forall p : F64 * F64, validate_from (fst p) ps = Ok tt -> forall i a b,
    nth_error (p :: ps) i = Some a -> nth_error (p :: ps) (S i) = Some b -> nltb eps12 (nsub (fst b) (fst a)) = true.
  Proof.
    induction ps as [|q rest IH]; intros p V i a b Na Nb; [destruct i as [|[|]]; discriminate|].
    apply validate_step in V. destruct V as [L V]. destruct i as [|i].
    - injection Na as <-. injection Nb as <-. exact L.
    - apply (IH q V i a b Na Nb).
  Qed.

  Lemma new_pairs l r (f : linear F64 F64) : linear_new pts l r = Ok f -> f = mkLinear l r pts /\ forall i a b,
    nth_error pts i = Some a -> nth_error pts (S i) = Some b -> nltb eps12 (nsub (fst b) (fst a)) = true.
  Proof.
    unfold linear_new. destruct (validate_abscissae pts) as [[]|m|m] eqn:V; try discriminate. intros E. injection E as <-.
    split; [reflexivity|]. destruct pts as [|p ps]; [discriminate|]. exact (validate_pairs ps p V).
  Qed.

  Lemma new_numbers l r f p : linear_new pts l r = Ok f -> In p pts -> number (fst p) -> forall q, In q pts -> number (fst q).
  Proof.
    intros N Ip Np q Iq. destruct (new_pairs l r f N) as [_ V]. apply In_nth_error in Iq. destruct Iq as (i & Eq).
    destruct (nth_error pts (S i)) as [q'|] eqn:Es.
    - destruct (sub_numbers (fst q) (fst q') eps12) as [A _]; auto; [apply D, (nth_error_In _ _ Eq)|apply D, (nth_error_In _ _ Es)|now apply (V i)].
    - destruct i as [|i].
      + destruct pts as [|a [|b rest]]; [destruct Ip| |discriminate]. cbn in Eq. injection Eq as <-. destruct Ip as [-> |[]]. exact Np.
      + destruct (nth_error pts i) as [q'|] eqn:Ei.
        * destruct (sub_numbers (fst q') (fst q) eps12) as [_ A]; auto; [apply D, (nth_error_In _ _ Ei)|apply D, (nth_error_In _ _ Eq)|now apply (V i)].
        * apply nth_error_None in Ei. assert (H : nth_error pts (S i) <> None) by congruence. apply nth_error_Some in H. lia.
  Qed.

  Lemma new_increasing l r f : linear_new pts l r = Ok f -> forall i a b,
    nth_error pts i = Some a -> nth_error pts (S i) = Some b -> place (fst a) < place (fst b).
  Proof.
    intros N i a b Na Nb. destruct (new_pairs l r f N) as [_ V]. apply (sub_positive _ _ eps12); auto using eps12_finite.
    - apply D, (nth_error_In _ _ Na).
    - apply D, (nth_error_In _ _ Nb).
    - pose proof eps12_pos. lra.
    - now apply (V i).
  Qed.

  Variables (nan : F64) (l r : extrap) (f : linear F64 F64).
  Hypothesis New : linear_new pts l r = Ok f.

  Lemma doubles_at x x' y : double x' -> In (x, y) pts -> neqb x' x = true -> linear_at nan f x' = Ok y.
  Proof.
    intros D' Ip E. destruct (eqb_numbers x' x D' (D _ Ip) E) as [N' N]. apply (eqb_place x' x N' N) in E.
    destruct (new_pairs l r f New) as [-> _]. apply In_nth_error in Ip as H. destruct H as (i & Ei).
    apply (any_at number place cmp_doubles nan pts (new_numbers l r _ _ New Ip N) (new_increasing l r _ New) l r x' i (x, y)); auto.
  Qed.

  Lemma doubles_left x p : double x -> first_point pts p -> nltb x (fst p) = true -> l <> Natural ->
    obeys nan l (snd p) (linear_at nan f x).
  Proof.
    intros Dx Fp L NN. pose proof (nth_error_In _ _ Fp) as Ip. destruct (ltb_numbers x (fst p) Dx (D _ Ip) L) as [Nx Np].
    apply (ltb_place x _ Nx Np) in L. destruct (new_pairs l r f New) as [-> _]. unfold linear_at. cbn [lin_points lin_left lin_right].
    rewrite (any_below number place cmp_doubles nan pts (new_numbers l r _ _ New Ip Np) (new_increasing l r _ New) l r x p); auto. apply any_obeys.
  Qed.

  Lemma doubles_right x p : double x -> last_point pts p -> nltb (fst p) x = true -> l <> Natural ->
    obeys nan r (snd p) (linear_at nan f x).
  Proof.
    intros Dx Fp L NN. pose proof (nth_error_In _ _ Fp) as Ip. destruct (ltb_numbers (fst p) x (D _ Ip) Dx L) as [Np Nx].
    apply (ltb_place _ x Np Nx) in L. destruct (new_pairs l r f New) as [-> _]. unfold linear_at. cbn [lin_points lin_left lin_right].
    rewrite (any_above number place cmp_doubles nan pts (new_numbers l r _ _ New Ip Np) (new_increasing l r _ New) l r x p); auto. apply any_obeys.
  Qed.

  Lemma doubles_between x p q M : modest x -> modest (fst p) -> modest (fst q) -> finite (snd p) -> finite (snd q) ->
    neighbours pts p q -> real (fst p) < real x < real (fst q) ->
    Rabs (real (snd p)) <= M -> Rabs (real (snd q)) <= M -> M <= bpow radix2 1000 ->
    exists y, linear_at nan f x = Ok y /\ finite y /\
      Rabs (real y - (real (snd p) + (real (snd q) - real (snd p)) * ((real x - real (fst p)) / (real (fst q) - real (fst p)))))
        <= bpow radix2 (-49) * M + bpow radix2 (-1073) /\
      (0 <= real (snd p) -> 0 <= real (snd q) -> 0 <= real y) /\
      (real (snd p) <= 0 -> real (snd q) <= 0 -> real y <= 0).
  Proof.
    intros [Fx Bx] [Fp Bp] [Fq Bq] Fy Fy' (i & Np & Nq) In_ By By' BM.
    pose proof (nth_error_In _ _ Np) as Ip.
    destruct (new_pairs l r f New) as [-> V]. specialize (V i p q Np Nq). unfold linear_at. cbn [lin_points lin_left lin_right].
    rewrite (any_between number place cmp_doubles nan pts (new_numbers l r _ _ New Ip (finite_number _ Fp)) (new_increasing l r _ New) l r x i p q); auto using finite_number.
    2: { rewrite !finite_place; auto. }
    unfold linear_interpolate. cbn [interp_diff interpolable_num].
    assert (R2 : forall u v, Rabs u <= bpow radix2 1000 -> Rabs v <= bpow radix2 1000 -> Rabs (u - v) <= bpow radix2 1001).
    { intros u v U W. change 1001%Z with (1 + 1000)%Z. rewrite bpow_plus. change (bpow radix2 1) with 2.
      apply Rabs_le_inv in U. apply Rabs_le_inv in W. apply Rabs_le. lra. }
    destruct (sub_spec (fst q) (fst p) Fq Fp) as [Fd Rd]; [apply (bound_in_range _ 1001); [lia|auto]|].
    destruct (sub_spec x (fst p) Fx Fp) as [Fd0 Rd0]; [apply (bound_in_range _ 1001); [lia|auto]|].
    pose proof eps12_pos as EP. apply (ltb_spec _ _ eps12_finite Fd) in V.
    assert (NA : nltb (nabs (nsub (fst q) (fst p))) eps12 = false).
    { replace (nabs (nsub (fst q) (fst p))) with (nsub (fst q) (fst p)).
      - destruct (nltb _ _) eqn:E; [|reflexivity]. apply (ltb_spec _ _ Fd eps12_finite) in E. lra.
      - destruct (nsub (fst q) (fst p)) as [[]|[]| |[] m e] eqn:E; try reflexivity; exfalso.
        + unfold real at 2 in V. cbn [SF2R] in V. lra.
        + destruct Fd. discriminate.
        + assert (real (S754_finite true m e) <= 0); [|lra]. apply F2R_le_0. cbn. lia. }
    rewrite NA. eexists. split; [reflexivity|].
    apply lerp_spec; auto; try lra.
    - apply rnd_diff_error; now apply finite_format.
    - apply rnd_diff_error; now apply finite_format.
  Qed.
End Doubles.

(** ** Abscissae that are dates *)

Lemma i32_diff a b : i32 a -> i32 b -> finite (nofZ (b - a)) /\ real (nofZ (b - a)) = IZR b - IZR a.
Proof. unfold i32. intros. rewrite <- minus_IZR. apply ofZ_exact. cbn. lia. Qed.

Lemma i32_eps a b : i32 a -> i32 b -> nltb eps12 (nofZ (b - a)) = true <-> (a < b)%Z.
Proof.
  intros A B. destruct (i32_diff a b A B) as [F R]. rewrite (ltb_spec _ _ eps12_finite F), R. pose proof eps12_pos. split; intros H0.
  - apply lt_IZR. lra.
  - assert (1 <= IZR b - IZR a); [|lra]. rewrite <- minus_IZR. apply IZR_le. lia.
Qed.

Lemma cmp_dates (a b : Z) : i32 a -> i32 b -> interp_ord (T := F64) a b = true /\ interp_cmp (T := F64) a b = Rcompare (IZR a) (IZR b).
Proof. intros _ _. split; [reflexivity|]. cbn [interp_cmp interpolable_Z]. now rewrite Rcompare_IZR. Qed.

Section Dates.
  Variable pts : list (Z * F64).
  Hypothesis D : forall p, In p pts -> i32 (fst p).

  Lemma validate_dates (ps : list (Z * F64)) : forall p : Z * F64, (forall q, In q (p :: ps) -> i32 (fst q)) ->
    validate_from (fst p) ps = Ok tt <-> forall a b, neighbours (p :: ps) a b -> (fst a < fst b)%Z.
  Proof.
    induction ps as [|q rest IH]; intros p Dp.
    - split; [|reflexivity]. intros _ a b (i & A & B). destruct i as [|[|]]; discriminate.
    - cbn [validate_from]. change (interp_diff (fst p) (fst q)) with (nofZ (fst q - fst p) : F64).
      pose proof (i32_eps (fst p) (fst q) (Dp p (or_introl eq_refl)) (Dp q (or_intror (or_introl eq_refl)))) as L.
      destruct (nltb eps12 (nofZ (fst q - fst p))).
      + cbn [negb]. rewrite (IH q (fun x I => Dp x (or_intror I))). split; intros H a b (i & A & B).
        * destruct i as [|i]; [injection A as <-; injection B as <-; now apply L|]. apply H. now exists i.
        * apply H. now exists (S i).
      + cbn [negb]. split; [discriminate|]. intros H. assert (X : (fst p < fst q)%Z) by (apply H; now exists 0%nat). apply L in X. discriminate.
  Qed.

  Lemma dates_new l r f : linear_new pts l r = Ok f <->
    pts <> [] /\ (forall p q, neighbours pts p q -> (fst p < fst q)%Z) /\ f = mkLinear l r pts.
  Proof.
    unfold linear_new, validate_abscissae. destruct pts as [|p ps]; [split; [discriminate|now intros [[] _]]|].
    pose proof (validate_dates ps p D) as V. destruct (validate_from (fst p) ps) as [[]|m|m]; cbn [bind].
    - split; [|intros (_ & _ & ->); reflexivity]. intros E. injection E as <-. split; [easy|]. split; [now apply V|reflexivity].
    - split; [discriminate|]. intros (_ & H & _). apply V in H. discriminate.
    - split; [discriminate|]. intros (_ & H & _). apply V in H. discriminate.
  Qed.

  Variables (nan : F64) (l r : extrap) (f : linear F64 Z).
  Hypothesis New : linear_new pts l r = Ok f.

  Lemma dates_increasing : f = mkLinear l r pts /\ forall i a b,
    nth_error pts i = Some a -> nth_error pts (S i) = Some b -> IZR (fst a) < IZR (fst b).
  Proof. apply dates_new in New. destruct New as (_ & H & ->). split; [reflexivity|]. intros i a b A B. apply IZR_lt, H. now exists i. Qed.

  Lemma dates_at x y : In (x, y) pts -> linear_at nan f x = Ok y.
  Proof.
    intros Ip. destruct dates_increasing as [-> M]. apply In_nth_error in Ip as H. destruct H as (i & Ei).
    apply (any_at i32 IZR cmp_dates nan pts D M l r x i (x, y)); auto. apply (D _ Ip).
  Qed.

  Lemma dates_left x p : i32 x -> first_point pts p -> (x < fst p)%Z -> l <> Natural -> obeys nan l (snd p) (linear_at nan f x).
  Proof.
    intros Dx Fp L NN. destruct dates_increasing as [-> M]. unfold linear_at. cbn [lin_points lin_left lin_right].
    rewrite (any_below i32 IZR cmp_dates nan pts D M l r x p); auto using IZR_lt. apply any_obeys.
  Qed.

  Lemma dates_right x p : i32 x -> last_point pts p -> (fst p < x)%Z -> l <> Natural -> obeys nan r (snd p) (linear_at nan f x).
  Proof.
    intros Dx Fp L NN. destruct dates_increasing as [-> M]. unfold linear_at. cbn [lin_points lin_left lin_right].
    rewrite (any_above i32 IZR cmp_dates nan pts D M l r x p); auto using IZR_lt. apply any_obeys.
  Qed.

  Lemma rnd_IZR z : (Z.abs z <= 2 ^ 53)%Z -> rnd (IZR z) = IZR z.
  Proof. intros A. destruct (ofZ_exact z A) as [F R]. rewrite <- R. apply round_generic; [apply valid_rnd_N|]. now apply finite_format. Qed.

  Lemma dates_between x p q M : finite (snd p) -> finite (snd q) ->
    neighbours pts p q -> (fst p < x < fst q)%Z ->
    Rabs (real (snd p)) <= M -> Rabs (real (snd q)) <= M -> M <= bpow radix2 1000 ->
    exists y, linear_at nan f x = Ok y /\ finite y /\
      Rabs (real y - (real (snd p) + (real (snd q) - real (snd p)) * (IZR (x - fst p) / IZR (fst q - fst p))))
        <= bpow radix2 (-49) * M + bpow radix2 (-1073) /\
      (0 <= real (snd p) -> 0 <= real (snd q) -> 0 <= real y) /\
      (real (snd p) <= 0 -> real (snd q) <= 0 -> real y <= 0).
  Proof.
    intros Fy Fy' (i & Np & Nq) [I1 I2] By By' BM. destruct dates_increasing as [-> V].
    pose proof (D _ (nth_error_In _ _ Np)) as Dp. pose proof (D _ (nth_error_In _ _ Nq)) as Dq.
    assert (Dx : i32 x) by (unfold i32 in *; lia).
    unfold linear_at. cbn [lin_points lin_left lin_right].
    rewrite (any_between i32 IZR cmp_dates nan pts D V l r x i p q); auto; [|split; now apply IZR_lt].
    unfold linear_interpolate. change (interp_diff (fst p) (fst q)) with (nofZ (fst q - fst p) : F64). change (interp_diff (fst p) x) with (nofZ (x - fst p) : F64).
    destruct (ofZ_exact (fst q - fst p)) as [Fd Rd]; [unfold i32 in *; cbn; lia|].
    destruct (ofZ_exact (x - fst p)) as [Fd0 Rd0]; [unfold i32 in *; cbn; lia|].
    pose proof eps12_pos as EP.
    assert (P : 1 <= IZR (fst q - fst p)) by (apply IZR_le; lia).
    assert (NA : nltb (nabs (nofZ (fst q - fst p))) eps12 = false).
    { replace (nabs (nofZ (fst q - fst p) : F64)) with (nofZ (fst q - fst p) : F64).
      - destruct (nltb _ _) eqn:E; [|reflexivity]. apply (ltb_spec _ _ Fd eps12_finite) in E. lra.
      - destruct (nofZ (fst q - fst p) : F64) as [[]|[]| |[] m e] eqn:E; try reflexivity; exfalso.
        + unfold real in Rd. cbn [SF2R] in Rd. lra.
        + destruct Fd. discriminate.
        + assert (real (S754_finite true m e) <= 0); [|lra]. apply F2R_le_0. cbn. lia. }
    rewrite NA. eexists. split; [reflexivity|].
    assert (Q0 : rnd (IZR (x - fst p)) = IZR (x - fst p)) by (apply rnd_IZR; unfold i32 in *; cbn; lia).
    assert (Q1 : rnd (IZR (fst q - fst p)) = IZR (fst q - fst p)) by (apply rnd_IZR; unfold i32 in *; cbn; lia).
    apply lerp_spec; auto.
    - apply IZR_le. lia.
    - apply IZR_le. lia.
    - lra.
    - now rewrite Q0.
    - now rewrite Q1.
    - lra.
    - exists 0. rewrite Rabs_R0, Q0. split; [left; apply uu_small|ring].
    - exists 0. rewrite Rabs_R0, Q1. split; [left; apply uu_small|ring].
  Qed.
End Dates.

(** ** Splines *)

Lemma spline_doubles (pts : list (F64 * F64)) : (forall p, In p pts -> double (fst p)) ->
  forall nan l r s, spline_new pts l r = Ok s ->
  (forall x x' y, double x' -> In (x, y) pts -> neqb x' x = true -> spline_at nan s x' = Ok y) /\
  (forall x p, double x -> l <> Natural ->
    (first_point pts p -> nltb x (fst p) = true -> obeys nan l (snd p) (spline_at nan s x)) /\
    (last_point pts p -> nltb (fst p) x = true -> obeys nan r (snd p) (spline_at nan s x))).
Proof.
  intros D nan l r s New. destruct (spline_is_linear pts l r s New) as [L (second & ->)]. split.
  - intros x x' y D' Ip E. destruct (eqb_numbers x' x D' (D _ Ip) E) as [N' N]. apply (eqb_place x' x N' N) in E.
    apply In_nth_error in Ip as H. destruct H as (i & Ei).
    apply (any_spline_at number place cmp_doubles nan pts (new_numbers pts D l r _ _ L Ip N) (new_increasing pts D l r _ L) l r second x' i (x, y)); auto.
  - intros x p Dx NN. split; intros Fp Q; pose proof (nth_error_In _ _ Fp) as Ip.
    + destruct (ltb_numbers x (fst p) Dx (D _ Ip) Q) as [Nx Np]. apply (ltb_place x _ Nx Np) in Q.
      rewrite (any_spline_below number place cmp_doubles nan pts (new_numbers pts D l r _ _ L Ip Np) (new_increasing pts D l r _ L) l r second x p); auto. apply any_obeys.
    + destruct (ltb_numbers (fst p) x (D _ Ip) Dx Q) as [Np Nx]. apply (ltb_place _ x Np Nx) in Q.
      rewrite (any_spline_above number place cmp_doubles nan pts (new_numbers pts D l r _ _ L Ip Np) (new_increasing pts D l r _ L) l r second x p); auto. apply any_obeys.
Qed.

Lemma spline_dates (pts : list (Z * F64)) : (forall p, In p pts -> i32 (fst p)) ->
  forall nan l r s, spline_new pts l r = Ok s ->
  (forall x y, In (x, y) pts -> spline_at nan s x = Ok y) /\
  (forall x p, i32 x -> l <> Natural ->
    (first_point pts p -> (x < fst p)%Z -> obeys nan l (snd p) (spline_at nan s x)) /\
    (last_point pts p -> (fst p < x)%Z -> obeys nan r (snd p) (spline_at nan s x))).
Proof.
  intros D nan l r s New. destruct (spline_is_linear pts l r s New) as [L (second & ->)].
  destruct (dates_increasing pts D l r _ L) as [_ M]. split.
  - intros x y Ip. apply In_nth_error in Ip as H. destruct H as (i & Ei).
    apply (any_spline_at i32 IZR cmp_dates nan pts D M l r second x i (x, y)); auto. apply (D _ Ip).
  - intros x p Dx NN. split; intros Fp Q.
    + rewrite (any_spline_below i32 IZR cmp_dates nan pts D M l r second x p); auto using IZR_lt. apply any_obeys.
    + rewrite (any_spline_above i32 IZR cmp_dates nan pts D M l r second x p); auto using IZR_lt. apply any_obeys.
Qed.

(** ** The ends of a segment *)

Lemma rnd_real x : finite x -> rnd (real x) = real x.
Proof. intros F. apply round_generic; [apply valid_rnd_N|]. now apply finite_format. Qed.
Lemma finite_in_range x : finite x -> in_range (real x).
Proof. intros F. unfold in_range. rewrite rnd_real by exact F. now apply finite_bound. Qed.
Lemma zero_spec : finite n0 /\ real n0 = 0.
Proof. apply (ofZ_exact 0). cbn. lia. Qed.

Lemma lerp_ends y0 y1 : finite y0 -> finite y1 ->
  (finite (lerp y0 y1 n0) /\ real (lerp y0 y1 n0) = real y0) /\ (finite (lerp y0 y1 n1) /\ real (lerp y0 y1 n1) = real y1).
Proof.
  intros F0 F1. destruct one_spec as [Fo Ro], zero_spec as [Fz Rz]. unfold lerp. split.
  - assert (E : finite (nsub n1 n0) /\ real (nsub n1 n0) = 1).
    { destruct (sub_spec n1 n0 Fo Fz) as [F R]; [rewrite Rz, Rminus_0_r; now apply finite_in_range|]. split; [exact F|]. now rewrite R, Ro, Rz, Rminus_0_r, rnd_1. }
    destruct E as [Fs Rs]. set (s := nsub n1 n0) in *. clearbody s.
    destruct (mul_spec y0 s F0 Fs) as [Fa Ra]; [rewrite Rs, Rmult_1_r; now apply finite_in_range|]. rewrite Rs, Rmult_1_r, rnd_real in Ra by exact F0.
    destruct (mul_spec y1 n0 F1 Fz) as [Fb Rb]; [rewrite Rz, Rmult_0_r, <- Rz; now apply finite_in_range|]. rewrite Rz, Rmult_0_r, rnd_0 in Rb.
    destruct (add_spec _ _ Fa Fb) as [F R]; [rewrite Ra, Rb, Rplus_0_r; now apply finite_in_range|]. split; [exact F|]. now rewrite R, Ra, Rb, Rplus_0_r, rnd_real.
  - assert (E : finite (nsub n1 n1) /\ real (nsub n1 n1) = 0).
    { destruct (sub_spec n1 n1 Fo Fo) as [F R]; [rewrite Rminus_eq_0, <- Rz; now apply finite_in_range|]. split; [exact F|]. now rewrite R, Rminus_eq_0, rnd_0. }
    destruct E as [Fs Rs]. set (s := nsub n1 n1) in *. clearbody s.
    destruct (mul_spec y0 s F0 Fs) as [Fa Ra]; [rewrite Rs, Rmult_0_r, <- Rz; now apply finite_in_range|]. rewrite Rs, Rmult_0_r, rnd_0 in Ra.
    destruct (mul_spec y1 n1 F1 Fo) as [Fb Rb]; [rewrite Ro, Rmult_1_r; now apply finite_in_range|]. rewrite Ro, Rmult_1_r, rnd_real in Rb by exact F1.
    destruct (add_spec _ _ Fa Fb) as [F R]; [rewrite Ra, Rb, Rplus_0_l; now apply finite_in_range|]. split; [exact F|]. now rewrite R, Ra, Rb, Rplus_0_l, rnd_real.
Qed.

Lemma lerp_infinite : forall y0 : F64, lerp y0 (S754_infinity false) n0 = F_nan.
Proof. intros y0. unfold lerp. change (nmul (S754_infinity false) n0 : F64) with S754_nan. destruct (nmul y0 _) as [|[]| |]; reflexivity. Qed.

(** ** What rounding breaks *)

Lemma flat_above : exists (f : linear F64 Z) y, linear_new [(0, nofZ 3); (10, nofZ 3)]%Z Flat Flat = Ok f /\
  (forall nan, linear_at nan f 2%Z = Ok y) /\ nltb (nofZ 3) y = true.
Proof. eexists _, _. split; [reflexivity|]. split; [intros nan; vm_compute; reflexivity|]. reflexivity. Qed.

Lemma not_monotone : exists (f : linear F64 F64) x x' y y', linear_new [(nofZ 0, nofZ 3); (nofZ 1, nofZ 4)] Flat Flat = Ok f /\
  nltb x x' = true /\ (forall nan, linear_at nan f x = Ok y) /\ (forall nan, linear_at nan f x' = Ok y') /\ nltb y' y = true.
Proof.
  eexists _, (S754_finite false 0x110b8f55c5b6c6 (-54)), (S754_finite false 0x110b8f55c5b6c7 (-54)), _, _.
  split; [reflexivity|]. split; [reflexivity|]. split; [intros nan; vm_compute; reflexivity|]. split; [intros nan; vm_compute; reflexivity|]. reflexivity.
Qed.
