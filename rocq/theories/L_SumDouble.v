(** Rounding errors of sums in order. *)
From Coq Require Import ZArith List Reals Lra Lia Psatz Permutation.
From Coq.Floats Require Import SpecFloat.
From Flocq Require Import Core BinarySingleNaN.
From Verif Require Import Prelude Num S_Double S_Instruments S_SumDouble L_Double L_DoubleError.
Import ListNotations.
Open Scope list_scope.
Open Scope R_scope.

Notation total := (fold_right Rplus 0).
Notation reals l := (map real l).
Notation sizes l := (map (fun x => Rabs (real x)) l).

Lemma sizes_nonneg l : 0 <= total (sizes l).
Proof. induction l; cbn; [lra|]. pose proof (Rabs_pos (real a)). lra. Qed.

Lemma zero_spec : finite (n0 : F64) /\ real n0 = 0.
Proof. apply (ofZ_exact 0). cbn. lia. Qed.

(** Powers of 1 + u stay near 1. *)
Lemma growth_ge n : 1 <= (1 + uu) ^ n.
Proof. pose proof uu_small. apply pow_R1_Rle. lra. Qed.
Lemma growth n : INR n * uu <= / 2 -> (1 + uu) ^ n <= 1 + 2 * INR n * uu.
Proof.
  pose proof uu_small as [U _]. induction n as [|n IH]; intros H.
  - cbn. lra.
  - rewrite S_INR in *. assert (N : INR n * uu <= / 2) by lra. specialize (IH N). pose proof (pos_INR n).
    cbn [pow]. apply Rle_trans with ((1 + uu) * (1 + 2 * INR n * uu)); [apply Rmult_le_compat_l; lra|].
    assert (0 <= INR n * uu) by (apply Rmult_le_pos; lra). nra.
Qed.

Lemma sum_spec : forall l t, finite t -> Forall finite l -> (1 + uu) ^ List.length l * (Rabs (real t) + total (sizes l)) <= bpow radix2 1010 ->
  finite (sum_in_order t l) /\
  Rabs (real (sum_in_order t l) - (real t + total (reals l))) <= ((1 + uu) ^ List.length l - 1) * (Rabs (real t) + total (sizes l)).
Proof.
  pose proof uu_small as [U _]. induction l as [|a l IH]; intros t FT FL B; cbn [sum_in_order map fold_right List.length pow] in *.
  - split; [exact FT|]. rewrite Rplus_0_r, Rminus_eq_0, Rabs_R0. lra.
  - inversion_clear FL as [|? ? FA FL']. pose proof (growth_ge (List.length l)) as G. pose proof (sizes_nonneg l) as SN.
    pose proof (Rabs_pos (real t)) as PT. pose proof (Rabs_pos (real a)) as PA. pose proof (Rabs_triang (real t) (real a)) as TR.
    assert (IR : Rabs (real t + real a) <= bpow radix2 1010).
    { eapply Rle_trans; [|exact B]. apply Rle_trans with (1 * (Rabs (real t) + (Rabs (real a) + total (sizes l)))); [lra|]. apply Rmult_le_compat_r; [lra|]. nra. }
    destruct (add_spec t a FT FA (bound_in_range _ 1010 ltac:(lia) IR)) as [F1 R1].
    destruct (rnd_sum_error (real t) (real a)) as (e & E & X); [now apply finite_format..|]. rewrite X in R1.
    assert (S1 : Rabs (real (nadd t a)) <= (Rabs (real t) + Rabs (real a)) * (1 + uu)).
    { rewrite R1. apply abs_mult_le; [exact TR|]. eapply Rle_trans; [apply Rabs_triang|]. rewrite Rabs_R1. lra. }
    destruct (IH (nadd t a) F1 FL') as [F2 R2].
    { eapply Rle_trans; [|exact B]. rewrite (Rmult_comm (1 + uu)), Rmult_assoc. apply Rmult_le_compat_l; [lra|]. nra. }
    split; [exact F2|].
    replace (real (sum_in_order (nadd t a) l) - (real t + (real a + total (reals l)))) with
      ((real (sum_in_order (nadd t a) l) - (real (nadd t a) + total (reals l))) + (real t + real a) * e) by (rewrite R1; ring).
    eapply Rle_trans; [apply Rabs_triang|].
    assert (D : Rabs ((real t + real a) * e) <= (Rabs (real t) + Rabs (real a)) * uu) by (apply abs_mult_le; assumption).
    set (g := (1 + uu) ^ List.length l) in *. set (A := Rabs (real t) + Rabs (real a)) in *.
    apply Rle_trans with ((g - 1) * (A * (1 + uu) + total (sizes l)) + A * uu).
    + apply Rplus_le_compat; [|exact D]. eapply Rle_trans; [exact R2|]. apply Rmult_le_compat_l; lra.
    + replace (Rabs (real t) + (Rabs (real a) + total (sizes l))) with (A + total (sizes l)) by (unfold A; ring).
      assert (0 <= g * uu * total (sizes l)) by (apply Rmult_le_pos; [apply Rmult_le_pos; lra|exact SN]). lra.
Qed.

Lemma few n : (Z.of_nat n <= 2 ^ 50)%Z -> INR n * uu <= / 8.
Proof.
  intros N. rewrite INR_IZR_INZ. apply IZR_le in N. change (IZR (2 ^ 50)) with 1125899906842624 in N.
  pose proof uu_small as [U V]. apply Rle_trans with (1125899906842624 * / 9007199254740992); [|lra].
  apply Rmult_le_compat; [rewrite <- INR_IZR_INZ; apply pos_INR|lra|exact N|exact V].
Qed.

(** The sum of some doubles from zero. *)
Lemma plain_sum l : Forall finite l -> (Z.of_nat (List.length l) <= 2 ^ 50)%Z -> total (sizes l) <= bpow radix2 1009 ->
  finite (sum_in_order n0 l) /\ Rabs (real (sum_in_order n0 l) - total (reals l)) <= 2 * INR (List.length l) * uu * total (sizes l).
Proof.
  intros FL N B. destruct zero_spec as [F0 R0]. pose proof (few _ N) as U. pose proof (growth (List.length l) ltac:(lra)) as G. pose proof (growth_ge (List.length l)) as G1.
  pose proof (sizes_nonneg l) as SN.
  destruct (sum_spec l n0 F0 FL) as [F E].
  - rewrite R0, Rabs_R0, Rplus_0_l. change 1010%Z with (1 + 1009)%Z. rewrite bpow_plus. apply Rmult_le_compat; [lra|exact SN| |exact B]. change (bpow radix2 1) with 2. lra.
  - split; [exact F|]. rewrite R0, Rabs_R0, !Rplus_0_l in E. eapply Rle_trans; [exact E|]. apply Rmult_le_compat_r; [exact SN|lra].
Qed.

(** Sums of products. *)
Local Notation product q := (nmul (fst q) (snd q)).
Local Notation products l := (map (fun q : F64 * F64 => nmul (fst q) (snd q)) l).

Lemma gross_nonneg l : 0 <= gross_sum l.
Proof. unfold gross_sum. induction l as [|q l IH]; cbn; [lra|]. pose proof (Rabs_pos (real (fst q) * real (snd q))). lra. Qed.

Lemma gross_in l q : In q l -> Rabs (real (fst q) * real (snd q)) <= gross_sum l.
Proof.
  unfold gross_sum. induction l as [|p l IH]; [intros []|]. intros [->|I]; cbn.
  - pose proof (gross_nonneg l). unfold gross_sum in *. lra.
  - specialize (IH I). pose proof (Rabs_pos (real (fst p) * real (snd p))). lra.
Qed.

Lemma product_spec q M : finite (fst q) -> finite (snd q) -> Rabs (real (fst q) * real (snd q)) <= M -> M <= bpow radix2 1000 ->
  finite (product q) /\ Rabs (real (product q) - real (fst q) * real (snd q)) <= uu * Rabs (real (fst q) * real (snd q)) + tiny.
Proof.
  intros A B C D. destruct (mul_spec (fst q) (snd q) A B) as [F R]; [apply (bound_in_range _ 1000); [lia|lra]|]. split; [exact F|].
  destruct (rnd_error (real (fst q) * real (snd q))) as (e & h & E & H & X). rewrite R, X.
  replace (_ * (1 + e) + h - _) with (real (fst q) * real (snd q) * e + h) by ring.
  eapply Rle_trans; [apply Rabs_triang|]. apply Rplus_le_compat; [|exact H]. rewrite Rabs_mult, Rmult_comm. apply Rmult_le_compat_r; [apply Rabs_pos|exact E].
Qed.

Lemma products_spec M : M <= bpow radix2 1000 -> forall l, Forall (fun q => finite (fst q) /\ finite (snd q)) l ->
  (forall q, In q l -> Rabs (real (fst q) * real (snd q)) <= M) ->
  Forall finite (products l) /\
  Rabs (total (reals (products l)) - exact_sum l) <= uu * gross_sum l + INR (List.length l) * tiny /\
  total (sizes (products l)) <= (1 + uu) * gross_sum l + INR (List.length l) * tiny.
Proof.
  intros HM. unfold exact_sum, gross_sum. induction l as [|q l IH]; intros F B.
  - cbn. split; [constructor|]. rewrite Rminus_eq_0, Rabs_R0. lra.
  - inversion_clear F as [|? ? [FA FB] F']. destruct (IH F' (fun p I => B p (or_intror I))) as (H1 & H2 & H3). clear IH.
    destruct (product_spec q M FA FB (B q (or_introl eq_refl)) HM) as [P E]. cbn [List.length]. rewrite S_INR. cbn [map fold_right]. split; [constructor; assumption|]. split.
    + replace (_ + _ - _) with ((real (product q) - real (fst q) * real (snd q)) + (total (reals (products l)) - total (map (fun q => real (fst q) * real (snd q)) l))) by ring.
      eapply Rle_trans; [apply Rabs_triang|]. lra.
    + assert (Rabs (real (product q)) <= Rabs (real (fst q) * real (snd q)) + (uu * Rabs (real (fst q) * real (snd q)) + tiny)).
      { replace (real (product q)) with (real (fst q) * real (snd q) + (real (product q) - real (fst q) * real (snd q))) by ring. eapply Rle_trans; [apply Rabs_triang|]. lra. }
      lra.
Qed.

Lemma bpow_52 : bpow radix2 (-52) = 2 * uu.
Proof. unfold uu. change (-52)%Z with (1 + -53)%Z. rewrite bpow_plus. reflexivity. Qed.
Lemma bpow_1074 : bpow radix2 (-1074) = 2 * tiny.
Proof. unfold tiny. change (-1074)%Z with (1 + -1075)%Z. rewrite bpow_plus. reflexivity. Qed.
Lemma big : 1 <= bpow radix2 1000.
Proof. change 1 with (bpow radix2 0). apply bpow_le. lia. Qed.

Lemma weighted_sum l : addable l -> finite (sum_in_order n0 (products l)) /\
  Rabs (real (sum_in_order n0 (products l)) - exact_sum l) <= sum_error l.
Proof.
  intros (F & N & B). destruct (products_spec (gross_sum l) B l F (gross_in l)) as (P & D & S). pose proof uu_small as [U1 U2]. pose proof tiny_small as [T1 T2].
  pose proof (few _ N) as FW. pose proof (pos_INR (List.length l)) as PN. pose proof (gross_nonneg l) as GN. pose proof big as B1.
  assert (NT : INR (List.length l) * tiny <= / 8) by nra.
  assert (UG : uu * gross_sum l <= gross_sum l) by nra.
  destruct (plain_sum (products l) P) as [F' E].
  - rewrite map_length. exact N.
  - change 1009%Z with (9 + 1000)%Z. rewrite bpow_plus. change (bpow radix2 9) with 512. lra.
  - rewrite map_length in E. split; [exact F'|]. unfold sum_error. rewrite bpow_52, bpow_1074.
    set (n := INR (List.length l)) in *. set (G := gross_sum l) in *.
    replace (real (sum_in_order n0 (products l)) - exact_sum l) with
      ((real (sum_in_order n0 (products l)) - total (reals (products l))) + (total (reals (products l)) - exact_sum l)) by ring.
    eapply Rle_trans; [apply Rabs_triang|].
    assert (E' : 2 * n * uu * total (sizes (products l)) <= 2 * n * uu * ((1 + uu) * G + n * tiny)) by (apply Rmult_le_compat_l; [nra|exact S]).
    assert (X1 : 2 * (n * uu) * (uu * G) <= / 4 * (uu * G)) by (apply Rmult_le_compat_r; [nra|lra]).
    assert (X2 : 2 * (n * uu) * (n * tiny) <= / 4 * (n * tiny)) by (apply Rmult_le_compat_r; [nra|lra]).
    assert (0 <= n * tiny) by nra. assert (0 <= uu * G) by nra. lra.
Qed.

Lemma permuted_sums l l' : Permutation l l' -> exact_sum l = exact_sum l' /\ gross_sum l = gross_sum l'.
Proof. unfold exact_sum, gross_sum. induction 1 as [|q l l' _ [A B]|p q l|l l' l'' _ [A B] _ [C D]]; cbn; split; try lra. Qed.

Lemma weighted_order l l' : addable l -> Permutation l l' ->
  Rabs (real (sum_in_order n0 (products l)) - real (sum_in_order n0 (products l'))) <= 2 * sum_error l.
Proof.
  intros A P. pose proof (Permutation_length P) as LN. destruct (permuted_sums _ _ P) as [E G]. destruct (weighted_sum l A) as [_ X].
  assert (A' : addable l'). { destruct A as (F & N & B). split; [|rewrite <- LN, <- G; auto]. apply Forall_forall. intros q I. apply (proj1 (Forall_forall _ _) F). apply (Permutation_in q (Permutation_sym P) I). }
  destruct (weighted_sum l' A') as [_ Y]. rewrite <- E in Y. assert (SE : sum_error l' = sum_error l) by (unfold sum_error; rewrite LN, G; reflexivity). rewrite SE in Y.
  replace (_ - _) with ((real (sum_in_order n0 (products l)) - exact_sum l) - (real (sum_in_order n0 (products l')) - exact_sum l)) by ring.
  eapply Rle_trans; [apply Rabs_triang|]. rewrite Rabs_Ropp. lra.
Qed.
