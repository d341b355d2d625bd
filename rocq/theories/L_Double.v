(** The arithmetic of doubles in the model is that of Flocq's binary floating-point numbers. *)
From Coq Require Import ZArith Reals Lra Lia Bool.
From Coq.Floats Require Import SpecFloat.
From Flocq Require Import Core BinarySingleNaN.
From Verif Require Import Num S_Double.
Open Scope R_scope.

#[local] Instance Hprec : FLX.Prec_gt_0 53 := eq_refl _.
#[local] Instance Hmax : Prec_lt_emax 53 1024 := eq_refl _.

Notation B := (binary_float 53 1024).

(** ** Flocq's interface to the standard library's specification (after Flocq's PrimFloat.v) *)

Lemma round_nearest_even_equiv s m l : round_nearest_even m l = choice_mode mode_NE s m l.
Proof. case l; [reflexivity|intro c]. case c; [|reflexivity..]. now simpl; unfold Round.cond_incr; case Z.even. Qed.

Lemma binary_round_aux_equiv sx mx ex lx :
  SpecFloat.binary_round_aux 53 1024 sx mx ex lx = binary_round_aux 53 1024 mode_NE sx mx ex lx.
Proof.
  unfold SpecFloat.binary_round_aux, binary_round_aux. set (mrse' := shr_fexp _ _ _). case mrse'; intros mrs' e'; simpl.
  now rewrite (round_nearest_even_equiv sx).
Qed.

Lemma binary_round_equiv s m e : SpecFloat.binary_round 53 1024 s m e = binary_round 53 1024 mode_NE s m e.
Proof.
  unfold SpecFloat.binary_round, binary_round, shl_align_fexp. set (mez := shl_align _ _ _). case mez as [mz ez].
  apply binary_round_aux_equiv.
Qed.

Lemma binary_normalize_equiv m e szero :
  SpecFloat.binary_normalize 53 1024 m e szero = B2SF (binary_normalize 53 1024 Hprec Hmax mode_NE m e szero).
Proof. case m as [|p|p]; [now simpl|..]; simpl; rewrite B2SF_SF2B; apply binary_round_equiv. Qed.

Lemma add_equiv (x y : B) : SFadd 53 1024 (B2SF x) (B2SF y) = B2SF (Bplus mode_NE x y).
Proof.
  case x as [sx|sx| |sx mx ex Bx]; case y as [sy|sy| |sy my ey By]; [now (trivial || simpl; case Bool.eqb).. | ].
  apply binary_normalize_equiv.
Qed.

Lemma sub_equiv (x y : B) : SFsub 53 1024 (B2SF x) (B2SF y) = B2SF (Bminus mode_NE x y).
Proof.
  case x as [sx|sx| |sx mx ex Bx]; case y as [sy|sy| |sy my ey By]; [now (trivial || simpl; case Bool.eqb).. | ].
  simpl. unfold Zminus. rewrite <- cond_Zopp_negb. apply binary_normalize_equiv.
Qed.

Lemma mul_equiv (x y : B) : SFmul 53 1024 (B2SF x) (B2SF y) = B2SF (Bmult mode_NE x y).
Proof.
  case x as [sx|sx| |sx mx ex Bx]; case y as [sy|sy| |sy my ey By]; [now trivial.. | ].
  simpl. rewrite B2SF_SF2B. apply binary_round_aux_equiv.
Qed.

Lemma div_equiv (x y : B) : SFdiv 53 1024 (B2SF x) (B2SF y) = B2SF (Bdiv mode_NE x y).
Proof.
  case x as [sx|sx| |sx mx ex Bx]; case y as [sy|sy| |sy my ey By]; [now (trivial || simpl; case Bool.eqb).. | ].
  simpl. rewrite B2SF_SF2B. set (melz := SFdiv_core_binary _ _ _ _ _ _). case melz as [[mz ez] lz].
  apply binary_round_aux_equiv.
Qed.

(** ** The operations, on finite doubles *)

Lemma fexp_eq : SpecFloat.fexp 53 1024 = FLT_exp (-1074) 53.
Proof. reflexivity. Qed.

Lemma finite_B x : finite x -> exists b : B, B2SF b = x /\ is_finite b = true /\ B2R b = real x.
Proof.
  intros [V F]. exists (SF2B x V). split; [apply B2SF_SF2B|]. split; [now rewrite is_finite_SF2B|apply B2R_SF2B].
Qed.

Lemma finite_of_B (b : B) : is_finite b = true -> finite (B2SF b).
Proof. intros F. split; [apply valid_binary_B2SF|now rewrite is_finite_SF_B2SF]. Qed.
Lemma real_of_B (b : B) : real (B2SF b) = B2R b.
Proof. apply SF2R_B2SF. Qed.

Lemma in_range_iff x : in_range x -> Rlt_bool (Rabs (round radix2 (SpecFloat.fexp 53 1024) (round_mode mode_NE) x)) (bpow radix2 1024) = true.
Proof. intros H. apply Rlt_bool_true. exact H. Qed.

Lemma add_spec x y : finite x -> finite y -> in_range (real x + real y) ->
  finite (nadd x y) /\ real (nadd x y) = rnd (real x + real y).
Proof.
  intros Fx Fy R. destruct (finite_B x Fx) as (bx & <- & fx & rx), (finite_B y Fy) as (b & <- & fy & ry).
  change (nadd (B2SF bx) (B2SF b)) with (SFadd 53 1024 (B2SF bx) (B2SF b)). rewrite add_equiv. rewrite <- rx, <- ry in *.
  pose proof (Bplus_correct 53 1024 Hprec Hmax mode_NE bx b fx fy) as H. rewrite (in_range_iff _ R) in H.
  destruct H as (H & F & _). split; [now apply finite_of_B|]. rewrite real_of_B. exact H.
Qed.

Lemma sub_spec x y : finite x -> finite y -> in_range (real x - real y) ->
  finite (nsub x y) /\ real (nsub x y) = rnd (real x - real y).
Proof.
  intros Fx Fy R. destruct (finite_B x Fx) as (bx & <- & fx & rx), (finite_B y Fy) as (b & <- & fy & ry).
  change (nsub (B2SF bx) (B2SF b)) with (SFsub 53 1024 (B2SF bx) (B2SF b)). rewrite sub_equiv. rewrite <- rx, <- ry in *.
  pose proof (Bminus_correct 53 1024 Hprec Hmax mode_NE bx b fx fy) as H. rewrite (in_range_iff _ R) in H.
  destruct H as (H & F & _). split; [now apply finite_of_B|]. rewrite real_of_B. exact H.
Qed.

Lemma mul_spec x y : finite x -> finite y -> in_range (real x * real y) ->
  finite (nmul x y) /\ real (nmul x y) = rnd (real x * real y).
Proof.
  intros Fx Fy R. destruct (finite_B x Fx) as (bx & <- & fx & rx), (finite_B y Fy) as (b & <- & fy & ry).
  change (nmul (B2SF bx) (B2SF b)) with (SFmul 53 1024 (B2SF bx) (B2SF b)). rewrite mul_equiv. rewrite <- rx, <- ry in *.
  pose proof (Bmult_correct 53 1024 Hprec Hmax mode_NE bx b) as H. rewrite (in_range_iff _ R) in H.
  destruct H as (H & F & _). rewrite fx, fy in F. split; [now apply finite_of_B|]. rewrite real_of_B. exact H.
Qed.

Lemma div_spec x y : finite x -> finite y -> real y <> 0 -> in_range (real x / real y) ->
  finite (ndiv x y) /\ real (ndiv x y) = rnd (real x / real y).
Proof.
  intros Fx Fy N R. destruct (finite_B x Fx) as (bx & <- & fx & rx), (finite_B y Fy) as (b & <- & fy & ry).
  change (ndiv (B2SF bx) (B2SF b)) with (SFdiv 53 1024 (B2SF bx) (B2SF b)). rewrite div_equiv. rewrite <- rx, <- ry in *.
  pose proof (Bdiv_correct 53 1024 Hprec Hmax mode_NE bx b N) as H. rewrite (in_range_iff _ R) in H.
  destruct H as (H & F & _). rewrite fx in F. split; [now apply finite_of_B|]. rewrite real_of_B. exact H.
Qed.

(** Comparisons. *)
Lemma compare_spec x y : finite x -> finite y -> SFcompare x y = Some (Rcompare (real x) (real y)).
Proof.
  intros Fx Fy. destruct (finite_B x Fx) as (bx & <- & fx & rx), (finite_B y Fy) as (b & <- & fy & ry).
  rewrite <- rx, <- ry. exact (Bcompare_correct 53 1024 bx b fx fy).
Qed.

Lemma ltb_spec x y : finite x -> finite y -> nltb x y = true <-> real x < real y.
Proof.
  intros Fx Fy. cbn [nltb FNum]. unfold SFltb. rewrite (compare_spec x y Fx Fy).
  destruct (Rcompare_spec (real x) (real y)); split; intros; try lra; try reflexivity; discriminate.
Qed.
Lemma leb_spec x y : finite x -> finite y -> nleb x y = true <-> real x <= real y.
Proof.
  intros Fx Fy. cbn [nleb FNum]. unfold SFleb. rewrite (compare_spec x y Fx Fy).
  destruct (Rcompare_spec (real x) (real y)); split; intros; try lra; try reflexivity; discriminate.
Qed.
Lemma eqb_spec x y : finite x -> finite y -> neqb x y = true <-> real x = real y.
Proof.
  intros Fx Fy. cbn [neqb FNum]. unfold SFeqb. rewrite (compare_spec x y Fx Fy).
  destruct (Rcompare_spec (real x) (real y)); split; intros; try lra; try reflexivity; discriminate.
Qed.

(** Every operation gives a double. *)
Lemma double_B x : double x -> exists b : B, B2SF b = x.
Proof. intros V. exists (SF2B x V). apply B2SF_SF2B. Qed.

Lemma double_add x y : double x -> double y -> double (nadd x y).
Proof. intros X Y. destruct (double_B x X) as (a & <-), (double_B y Y) as (b & <-). cbn [nadd FNum]. rewrite add_equiv. apply valid_binary_B2SF. Qed.
Lemma double_sub x y : double x -> double y -> double (nsub x y).
Proof. intros X Y. destruct (double_B x X) as (a & <-), (double_B y Y) as (b & <-). cbn [nsub FNum]. rewrite sub_equiv. apply valid_binary_B2SF. Qed.
Lemma double_mul x y : double x -> double y -> double (nmul x y).
Proof. intros X Y. destruct (double_B x X) as (a & <-), (double_B y Y) as (b & <-). cbn [nmul FNum]. rewrite mul_equiv. apply valid_binary_B2SF. Qed.
Lemma double_div x y : double x -> double y -> double (ndiv x y).
Proof. intros X Y. destruct (double_B x X) as (a & <-), (double_B y Y) as (b & <-). cbn [ndiv FNum]. rewrite div_equiv. apply valid_binary_B2SF. Qed.
Lemma double_ofZ z : double (nofZ z).
Proof. unfold double. change (nofZ z : F64) with (SpecFloat.binary_normalize 53 1024 z 0 false). rewrite binary_normalize_equiv. apply valid_binary_B2SF. Qed.

(** ** Numbers: doubles other than NaN *)

Lemma finite_number x : finite x -> number x.
Proof. intros [V F]. split; [exact V|]. intros ->. discriminate. Qed.
Lemma finite_place x : finite x -> place x = real x.
Proof. intros [_ F]. destruct x; try reflexivity; discriminate. Qed.
Lemma finite_bound x : finite x -> Rabs (real x) < bpow radix2 1024.
Proof. intros F. destruct (finite_B x F) as (b & <- & _ & <-). apply abs_B2R_lt_emax. Qed.

Lemma number_cases x : number x -> finite x \/ x = S754_infinity false \/ x = S754_infinity true.
Proof. intros [V N]. destruct x as [s|[]| |s m e]; [left; now split|auto|auto|now destruct N|left; now split]. Qed.

Lemma compare_place x y : number x -> number y -> SFcompare x y = Some (Rcompare (place x) (place y)).
Proof.
  intros X Y. assert (P : 0 < bpow radix2 1024) by apply bpow_gt_0.
  destruct (number_cases x X) as [Fx|[-> | ->]], (number_cases y Y) as [Fy|[-> | ->]].
  - rewrite (compare_spec x y Fx Fy), !finite_place; auto.
  - pose proof (finite_bound x Fx) as B. apply Rabs_def2 in B. rewrite (finite_place x Fx). cbn [place]. rewrite Rcompare_Lt by lra. destruct Fx, x; try reflexivity; discriminate.
  - pose proof (finite_bound x Fx) as B. apply Rabs_def2 in B. rewrite (finite_place x Fx). cbn [place]. rewrite Rcompare_Gt by lra. destruct Fx, x; try reflexivity; discriminate.
  - pose proof (finite_bound y Fy) as B. apply Rabs_def2 in B. rewrite (finite_place y Fy). cbn [place]. rewrite Rcompare_Gt by lra. destruct Fy, y; try reflexivity; discriminate.
  - rewrite Rcompare_Eq; reflexivity.
  - cbn [place]. rewrite Rcompare_Gt by lra. reflexivity.
  - pose proof (finite_bound y Fy) as B. apply Rabs_def2 in B. rewrite (finite_place y Fy). cbn [place]. rewrite Rcompare_Lt by lra. destruct Fy, y; try reflexivity; discriminate.
  - cbn [place]. rewrite Rcompare_Lt by lra. reflexivity.
  - rewrite Rcompare_Eq; reflexivity.
Qed.

Lemma ltb_place x y : number x -> number y -> nltb x y = true <-> place x < place y.
Proof.
  intros X Y. cbn [nltb FNum]. unfold SFltb. rewrite (compare_place x y X Y).
  destruct (Rcompare_spec (place x) (place y)); split; intros; try lra; try reflexivity; discriminate.
Qed.
Lemma eqb_place x y : number x -> number y -> neqb x y = true <-> place x = place y.
Proof.
  intros X Y. cbn [neqb FNum]. unfold SFeqb. rewrite (compare_place x y X Y).
  destruct (Rcompare_spec (place x) (place y)); split; intros; try lra; try reflexivity; discriminate.
Qed.

(** A comparison that holds is not with NaN. *)
Lemma ltb_numbers x y : double x -> double y -> nltb x y = true -> number x /\ number y.
Proof. intros X Y L. split; (split; [assumption|]); intros ->; [discriminate|destruct x as [|[]| |]; discriminate]. Qed.
Lemma eqb_numbers x y : double x -> double y -> neqb x y = true -> number x /\ number y.
Proof. intros X Y L. split; (split; [assumption|]); intros ->; [discriminate|destruct x as [|[]| |]; discriminate]. Qed.

(** A positive difference orders its operands. *)
Lemma rnd_le x y : x <= y -> rnd x <= rnd y.
Proof. intros L. apply round_le; [apply FLT_exp_valid; reflexivity|apply valid_rnd_N|exact L]. Qed.
Lemma rnd_0 : rnd 0 = 0.
Proof. apply round_0. apply valid_rnd_N. Qed.

Lemma sub_positive x y t : double x -> double y -> finite t -> 0 <= real t -> nltb t (nsub y x) = true -> place x < place y.
Proof.
  intros X Y Ft T L. assert (P : 0 < bpow radix2 1024) by apply bpow_gt_0.
  assert (Nx : number x). { split; [exact X|]. intros ->. destruct y as [|[]| |], t as [|[]| |]; discriminate. }
  assert (Ny : number y). { split; [exact Y|]. intros ->. destruct x as [|[]| |], t as [|[]| |]; discriminate. }
  destruct (number_cases x Nx) as [Fx|[-> | ->]], (number_cases y Ny) as [Fy|[-> | ->]].
  - rewrite !finite_place by assumption.
    destruct (Rlt_le_dec (real x) (real y)) as [H|H]; [exact H|exfalso].
    destruct (Rlt_dec (Rabs (rnd (real y - real x))) (bpow radix2 1024)) as [R|R].
    + destruct (sub_spec y x Fy Fx R) as [F E]. apply (ltb_spec t _ Ft F) in L. rewrite E in L.
      pose proof (rnd_le (real y - real x) 0 ltac:(lra)). rewrite rnd_0 in *. lra.
    + destruct (finite_B x Fx) as (a & <- & fa & ra), (finite_B y Fy) as (b & <- & fb & rb).
      rewrite <- ra, <- rb in *. cbn [nsub FNum] in L. rewrite sub_equiv in L.
      pose proof (Bminus_correct 53 1024 Hprec Hmax mode_NE b a fb fa) as C.
      rewrite Rlt_bool_false in C by (apply Rnot_lt_le; exact R). destruct C as [C S]. rewrite C in L.
      assert (Bsign b = true).
      { destruct (Bsign b) eqn:Sb; [reflexivity|exfalso]. symmetry in S. apply negb_false_iff in S.
        assert (B2R a <= 0). { destruct a as [[]|[]| |[] m e h]; try discriminate; cbn; try lra. apply F2R_le_0. cbn. lia. }
        assert (0 <= B2R b). { destruct b as [[]|[]| |[] m e h]; try discriminate; cbn; try lra. apply F2R_ge_0. cbn. lia. }
        assert (B2R a = B2R b) by lra. apply R. replace (B2R b - B2R a) with 0 by lra. rewrite rnd_0, Rabs_R0. exact P. }
      rewrite H0 in L. unfold binary_overflow in L. cbn in L. destruct t as [|[]| |]; discriminate.
  - pose proof (finite_bound x Fx) as B. apply Rabs_def2 in B. rewrite (finite_place x Fx). cbn [place]. lra.
  - exfalso. destruct x as [|[]| |[]]; destruct t as [|[]| |]; discriminate.
  - exfalso. destruct y as [|[]| |[]]; destruct t as [|[]| |]; discriminate.
  - exfalso. destruct t as [|[]| |]; discriminate.
  - exfalso. destruct t as [|[]| |]; discriminate.
  - pose proof (finite_bound y Fy) as B. apply Rabs_def2 in B. rewrite (finite_place y Fy). cbn [place]. lra.
  - cbn [place]. lra.
  - exfalso. destruct t as [|[]| |]; discriminate.
Qed.

(** Whole numbers up to 2^53 are exact. *)
Lemma ofZ_exact z : (Z.abs z <= 2 ^ 53)%Z -> finite (nofZ z) /\ real (nofZ z) = IZR z.
Proof.
  intros A. change (nofZ z : F64) with (SpecFloat.binary_normalize 53 1024 z 0 false). rewrite binary_normalize_equiv.
  pose proof (binary_normalize_correct 53 1024 Hprec Hmax mode_NE z 0 false) as C.
  assert (E : F2R (Float radix2 z 0) = IZR z). { unfold F2R. cbn. lra. }
  cbv zeta in C. rewrite E in C.
  assert (G : round radix2 (SpecFloat.fexp 53 1024) (round_mode mode_NE) (IZR z) = IZR z).
  { apply round_generic; [apply valid_rnd_N|]. rewrite fexp_eq. 
    destruct (Z.eq_dec (Z.abs z) (2 ^ 53)) as [e|n].
    - assert (F : generic_format radix2 (FLT_exp (-1074) 53) (bpow radix2 53)).
      { apply generic_format_bpow. unfold FLT_exp. lia. }
      destruct (Z.abs_eq_or_opp z) as [H|H]; rewrite H in e.
      + rewrite e. change (IZR (2 ^ 53)) with (IZR (Zpower radix2 53)). rewrite (IZR_Zpower radix2 53) by lia. exact F.
      + replace z with (- 2 ^ 53)%Z by lia. rewrite opp_IZR. apply generic_format_opp. change (IZR (2 ^ 53)) with (IZR (Zpower radix2 53)). rewrite (IZR_Zpower radix2 53) by lia. exact F.
    - apply generic_format_FLT. exists (Float radix2 z 0); [symmetry; exact E|cbn; lia|cbn; lia]. }
  rewrite G in C. rewrite Rlt_bool_true in C.
  - destruct C as (C & F & _). split; [now apply finite_of_B|]. now rewrite real_of_B.
  - rewrite <- abs_IZR. apply Rle_lt_trans with (IZR (2 ^ 53)); [now apply IZR_le|].
    change (IZR (2 ^ 53)) with (IZR (Zpower radix2 53)). rewrite (IZR_Zpower radix2 53) by lia. apply bpow_lt. lia.
Qed.
