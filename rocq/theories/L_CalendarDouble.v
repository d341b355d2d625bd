(** Business-day counts and steps on doubles. *)
From Coq Require Import ZArith List String Bool Lia Reals Lra.
From Coq.Floats Require Import SpecFloat.
From Flocq Require Import Core BinarySingleNaN.
From Verif Require Import Prelude Num L_Num M_Dates M_Interp M_Forward M_Vol M_Calendar S_Calendar L_Calendar L_CalendarCount L_CalendarVol S_Double L_Double L_DoubleError
  L_InterpDouble L_BrentDouble.
Import ListNotations.
Open Scope string_scope.
Open Scope list_scope.
Open Scope R_scope.

Definition fraction (x : F64) : Prop := finite x /\ 0 <= real x <= 1.

Lemma zero_fraction : fraction n0.
Proof. destruct zero_spec as [F R]. split; [exact F|]. rewrite R. lra. Qed.
Lemma one_fraction : fraction n1.
Proof. destruct one_spec as [F R]. split; [exact F|]. rewrite R. lra. Qed.

Lemma weighted_time_bounds w from ff to tf : (forall d, 0 <= w d <= 1) -> 0 <= ff <= 1 -> 0 <= tf <= 1 -> (from <= to)%Z ->
  - 1 <= weighted_time w from ff to tf <= IZR (to - from + 1).
Proof.
  intros W F T L. unfold weighted_time. destruct (Z.ltb_spec to from); [lia|].
  pose proof (sum_days_bounds w from (Z.to_nat (to - from + 1)) W) as SB. rewrite INR_IZR_INZ, Z2Nat.id in SB by lia.
  pose proof (W from) as Wf. pose proof (W to) as Wt.
  assert (0 <= w from * ff <= w from) by nra. assert (0 <= w to * (1 - tf) <= w to) by nra.
  split; [|lra].
  destruct (Z.eq_dec from to) as [->|N].
  - replace (Z.to_nat (to - to + 1)) with 1%nat by lia. cbn [sum_days]. nra.
  - replace (Z.to_nat (to - from + 1)) with (S (Z.to_nat (to - from))) by lia. rewrite sum_days_last.
    replace (from + Z.of_nat (Z.to_nat (to - from)))%Z with to by lia.
    replace (Z.to_nat (to - from)) with (S (Z.to_nat (to - from - 1))) by lia. cbn [sum_days].
    pose proof (sum_days_bounds w (from + 1) (Z.to_nat (to - from - 1)) W). lra.
Qed.

(** What the counts of plain calendars compute, on doubles and on real numbers. *)
Definition added (x : F64) (y : R) (ff tf : F64) : Prop :=
  exists z fa ta, x = nadd (nofZ z) (nsub ta fa) /\ y = IZR z + (real ta - real fa) /\ (fa = n0 \/ fa = ff) /\ (ta = n1 \/ ta = tf).

Lemma wk_both from (ff : F64) to tf x : wk_count from ff to tf = Ok x ->
  exists y, wk_count from (real ff) to (real tf) = Ok y /\ ((x = n0 /\ y = 0) \/ added x y ff tf).
Proof.
  unfold wk_count. intros H. apply bind_ok in H. destruct H as (a & -> & H). apply bind_ok in H. destruct H as (a0 & -> & H). cbn [bind].
  destruct (a0 <? a)%Z; [injection H as <-; eauto|]. apply bind_ok in H. destruct H as (a1 & -> & H).
  apply bind_ok in H. destruct H as (a2 & -> & H). apply bind_ok in H. destruct H as (a3 & -> & H). cbn [bind]. injection H as <-.
  eexists. split; [reflexivity|]. right. exists a1, (if a2 then n0 else ff), (if a3 then n1 else tf).
  split; [reflexivity|]. split; [|destruct a2, a3; auto].
  destruct zero_spec as [_ Z0], one_spec as [_ O1]. rnum. destruct a2, a3; rewrite ?Z0, ?O1; reflexivity.
Qed.

Lemma hol_both hols from (ff : F64) to tf x : hol_count hols from ff to tf = Ok x ->
  exists y, hol_count hols from (real ff) to (real tf) = Ok y /\ ((x = n0 /\ y = 0) \/ added x y ff tf).
Proof.
  unfold hol_count. intros H. apply bind_ok in H. destruct H as (a & -> & H). apply bind_ok in H. destruct H as (a0 & -> & H). cbn [bind].
  destruct (a0 <? a)%Z; [injection H as <-; eauto|]. apply bind_ok in H. destruct H as (a1 & -> & H).
  apply bind_ok in H. destruct H as (a2 & -> & H). apply bind_ok in H. destruct H as (a3 & -> & H). cbn [bind]. injection H as <-.
  eexists. split; [reflexivity|]. right. eexists _, (if a2 then n0 else ff), (if a3 then n1 else tf).
  split; [reflexivity|]. split; [|destruct a2, a3; auto].
  destruct zero_spec as [_ Z0], one_spec as [_ O1]. rnum. destruct a2, a3; rewrite ?Z0, ?O1; reflexivity.
Qed.

(** Sums and differences of doubles whose exact result is at most 2^60. *)
Lemma small_in_range x : Rabs x <= bpow radix2 60 -> in_range x.
Proof. apply bound_in_range. lia. Qed.

Lemma add_err a b : finite a -> finite b -> Rabs (real a + real b) <= bpow radix2 60 ->
  finite (nadd a b) /\ Rabs (real (nadd a b) - (real a + real b)) <= uu * Rabs (real a + real b).
Proof.
  intros A B L. destruct (add_spec a b A B (small_in_range _ L)) as [F R]. split; [exact F|]. rewrite R.
  destruct (rnd_sum_error (real a) (real b) (finite_format a A) (finite_format b B)) as (e & E & ->).
  replace ((real a + real b) * (1 + e) - (real a + real b)) with (e * (real a + real b)) by ring.
  rewrite Rabs_mult. apply Rmult_le_compat_r; [apply Rabs_pos|exact E].
Qed.
Lemma sub_err a b : finite a -> finite b -> Rabs (real a - real b) <= bpow radix2 60 ->
  finite (nsub a b) /\ Rabs (real (nsub a b) - (real a - real b)) <= uu * Rabs (real a - real b).
Proof.
  intros A B L. destruct (sub_spec a b A B (small_in_range _ L)) as [F R]. split; [exact F|]. rewrite R.
  destruct (rnd_diff_error (real a) (real b) (finite_format a A) (finite_format b B)) as (e & E & ->).
  replace ((real a - real b) * (1 + e) - (real a - real b)) with (e * (real a - real b)) by ring.
  rewrite Rabs_mult. apply Rmult_le_compat_r; [apply Rabs_pos|exact E].
Qed.
Lemma mul_err a b : finite a -> finite b -> Rabs (real a * real b) <= bpow radix2 60 ->
  finite (nmul a b) /\ Rabs (real (nmul a b) - real a * real b) <= uu * Rabs (real a * real b) + tiny.
Proof.
  intros A B L. destruct (mul_spec a b A B (small_in_range _ L)) as [F R]. split; [exact F|]. rewrite R.
  destruct (rnd_error (real a * real b)) as (e & h & E & H & ->).
  replace (real a * real b * (1 + e) + h - real a * real b) with (e * (real a * real b) + h) by ring.
  eapply Rle_trans; [apply Rabs_triang|]. apply Rplus_le_compat; [|exact H].
  rewrite Rabs_mult. apply Rmult_le_compat_r; [apply Rabs_pos|exact E].
Qed.

Lemma abs_lt a b : Rabs (a - b) <= 0 -> a = b.
Proof. intros H. pose proof (Rabs_pos (a - b)). assert (Z : Rabs (a - b) = 0) by lra. destruct (Req_dec (a - b) 0); [lra|]. now apply Rabs_no_R0 in H1. Qed.

Lemma big : bpow radix2 60 = 1152921504606846976.
Proof. cbn. lra. Qed.

(** The whole days between two fractional days, all counted. *)
Lemma all_days_err n ff tf : fraction ff -> fraction tf -> (0 <= n < 2 ^ 40)%Z ->
  let x := nsub (nadd (nofZ n) tf) ff in
  finite x /\ Rabs (real x - (IZR n + real tf - real ff)) <= 3 * uu * (IZR n + 1).
Proof.
  intros [Ff Bf] [Ft Bt] L x. destruct (ofZ_exact n ltac:(lia)) as [Fn Rn]. pose proof uu_small as [U1 U2].
  assert (N : 0 <= IZR n <= 1099511627776) by (split; apply IZR_le; lia).
  destruct (add_err (nofZ n) tf Fn Ft) as [F1 E1]; [rewrite Rn, big; rewrite Rabs_right; lra|].
  rewrite Rn in E1. rewrite (Rabs_right (IZR n + real tf)) in E1 by lra. apply Rabs_le_inv in E1.
  set (s := nadd (nofZ n) tf) in *.
  assert (S1 : uu * (IZR n + real tf) <= uu * (IZR n + 1)) by nra.
  assert (S2 : uu * (IZR n + 1) <= 1) by nra.
  assert (S3 : Rabs (real s - real ff) <= IZR n + 2) by (apply Rabs_le; lra).
  destruct (sub_err s ff F1 Ff) as [F2 E2]; [rewrite big; lra|].
  split; [exact F2|]. fold x in E2.
  assert (S4 : uu * Rabs (real s - real ff) <= uu * (2 * (IZR n + 1))) by (apply Rmult_le_compat_l; lra).
  apply Rabs_le_inv in E2. apply Rabs_le. lra.
Qed.

Lemma added_err x y ff tf M : fraction ff -> fraction tf -> added x y ff tf -> Rabs y <= M -> 1 <= M -> M <= bpow radix2 41 ->
  finite x /\ Rabs (real x - y) <= 3 * uu * M.
Proof.
  intros Hf Ht (z & fa & ta & -> & -> & Ca & Cb) B M1 M2. pose proof uu_small as [U1 U2].
  assert (Fa : fraction fa) by (destruct Ca as [-> | ->]; [apply zero_fraction|exact Hf]).
  assert (Ta : fraction ta) by (destruct Cb as [-> | ->]; [apply one_fraction|exact Ht]).
  destruct Fa as [Ff Bf], Ta as [Ft Bt]. assert (B41 : bpow radix2 41 = 2199023255552) by (cbn; lra). rewrite B41 in M2.
  apply Rabs_le_inv in B.
  assert (Zb : (Z.abs z <= 2 ^ 53)%Z).
  { apply Z.abs_le. split; apply le_IZR; [change (IZR (- 2 ^ 53)) with (-9007199254740992)|change (IZR (2 ^ 53)) with 9007199254740992]; lra. }
  destruct (ofZ_exact z Zb) as [Fz Rz].
  destruct (sub_err ta fa Ft Ff) as [F1 E1]; [rewrite big; apply Rabs_le; lra|].
  assert (A1 : Rabs (real ta - real fa) <= 1) by (apply Rabs_le; lra).
  assert (E1' : Rabs (real (nsub ta fa) - (real ta - real fa)) <= uu) by nra.
  set (d := nsub ta fa) in *. apply Rabs_le_inv in E1'.
  assert (A2 : Rabs (real (nofZ z : F64) + real d) <= M + uu) by (rewrite Rz; apply Rabs_le; lra).
  destruct (add_err (nofZ z) d Fz F1) as [F2 E2]; [rewrite big; lra|].
  split; [exact F2|].
  assert (A3 : uu * Rabs (real (nofZ z : F64) + real d) <= uu * (2 * M)) by (apply Rmult_le_compat_l; lra).
  assert (A4 : uu <= uu * M) by nra.
  rewrite Rz in *. apply Rabs_le_inv in E2. apply Rabs_le. lra.
Qed.

Definition span (from to : Z) : R := IZR (to - from + 1).

(** One level of weighting. *)
Lemma weigh_err b w a B A M E : finite b -> finite w -> finite a -> 0 <= real w <= 1 ->
  Rabs (real b - B) <= E -> Rabs (real a - A) <= 3 * uu * M -> Rabs B <= M -> Rabs A <= M -> 1 <= M -> M <= bpow radix2 41 ->
  E <= 10000 * uu * M ->
  let x := nadd (nmul b (nsub n1 w)) (nmul a w) in
  finite x /\ Rabs (real x - (B * (1 - real w) + A * real w)) <= E + 9 * uu * M.
Proof.
  intros Fb Fw Fa W EB EA BB BA M1 M2 EM x. pose proof uu_small as [U1 U2]. pose proof tiny_small as [T1 T2].
  assert (B41 : bpow radix2 41 = 2199023255552) by (cbn; lra). rewrite B41 in M2.
  destruct one_spec as [F1 R1]. set (V := real w) in *.
  assert (Dr : Rabs (real (n1 : F64) - real w) <= 1) by (rewrite R1; fold V; apply Rabs_le; lra).
  destruct (sub_spec n1 w F1 Fw) as [Fc Rc]; [apply small_in_range; rewrite big; lra|].
  destruct (sub_err n1 w F1 Fw) as [_ Ec]; [rewrite big; lra|].
  assert (C01 : 0 <= real (nsub n1 w) <= 1) by (rewrite Rc; apply rnd_unit; rewrite R1; fold V; lra).
  assert (Ec' : Rabs (real (nsub n1 w) - (1 - V)) <= uu).
  { rewrite R1 in Ec, Dr. fold V in Ec, Dr. eapply Rle_trans; [exact Ec|]. nra. }
  clear Ec Dr Rc. set (c := nsub n1 w) in *. assert (Me : uu * M <= / 4000) by nra.
  assert (Eb : Rabs (real b) <= M + E).
  { replace (real b) with ((real b - B) + B) by ring. eapply Rle_trans; [apply Rabs_triang|]. lra. }
  assert (Ea : Rabs (real a) <= M + 3 * uu * M).
  { replace (real a) with ((real a - A) + A) by ring. eapply Rle_trans; [apply Rabs_triang|]. lra. }
  assert (E0 : 0 <= E) by (pose proof (Rabs_pos (real b - B)); lra).
  assert (Pb : Rabs (real b * real c) <= (M + E) * 1) by (apply abs_mult_le; [exact Eb|rewrite Rabs_right; lra]).
  assert (Pa : Rabs (real a * real w) <= (M + 3 * uu * M) * 1) by (apply abs_mult_le; [exact Ea|fold V; rewrite Rabs_right; lra]).
  destruct (mul_err b c Fb Fc) as [Fp Ep]; [rewrite big; lra|].
  destruct (mul_err a w Fa Fw) as [Fq Eq]; [rewrite big; lra|].
  assert (Ep' : Rabs (real (nmul b c) - real b * real c) <= uu * (M + E) + tiny) by (eapply Rle_trans; [exact Ep|]; nra).
  assert (Eq' : Rabs (real (nmul a w) - real a * V) <= uu * (M + 3 * uu * M) + tiny) by (eapply Rle_trans; [exact Eq|]; fold V; fold V in Pa; nra).
  clear Ep Eq. set (p := nmul b c) in *. set (q := nmul a w) in *.
  assert (Cb : Rabs (real b * real c - B * (1 - V)) <= E + M * uu).
  { replace (real b * real c - B * (1 - V)) with ((real b - B) * real c + B * (real c - (1 - V))) by ring.
    eapply Rle_trans; [apply Rabs_triang|].
    assert (Rabs ((real b - B) * real c) <= E * 1) by (apply abs_mult_le; [exact EB|rewrite Rabs_right; lra]).
    assert (Rabs (B * (real c - (1 - V))) <= M * uu) by (apply abs_mult_le; assumption). lra. }
  assert (Ca : Rabs (real a * V - A * V) <= 3 * uu * M * 1).
  { replace (real a * V - A * V) with ((real a - A) * V) by ring. apply abs_mult_le; [exact EA|rewrite Rabs_right; lra]. }
  assert (Cv : Rabs (B * (1 - V) + A * V) <= M).
  { apply Rabs_le_inv in BB. apply Rabs_le_inv in BA. apply Rabs_le. nra. }
  set (Y := B * (1 - V) + A * V) in *.
  assert (U : 3 * uu * M * uu <= uu * M / 1000) by nra.
  assert (UE : uu * E <= uu * M / 1000) by nra.
  assert (D1 : Rabs (real p + real q - Y) <= E + (6 + 3 / 100) * (uu * M)).
  { replace (real p + real q - Y) with ((real p - real b * real c) + (real b * real c - B * (1 - V)) + ((real q - real a * V) + (real a * V - A * V))) by (unfold Y; ring).
    eapply Rle_trans; [apply Rabs_triang|].
    eapply Rle_trans; [apply Rplus_le_compat; apply Rabs_triang|]. nra. }
  assert (D2 : Rabs (real p + real q) <= M + (E + (6 + 3 / 100) * (uu * M))).
  { replace (real p + real q) with ((real p + real q - Y) + Y) by ring. eapply Rle_trans; [apply Rabs_triang|]. lra. }
  destruct (add_err p q Fp Fq) as [Fx Ex]; [rewrite big; lra|]. split; [exact Fx|]. fold x in Ex.
  replace (real x - Y) with ((real x - (real p + real q)) + (real p + real q - Y)) by ring.
  eapply Rle_trans; [apply Rabs_triang|].
  assert (uu * Rabs (real p + real q) <= uu * (M + (E + (6 + 3 / 100) * (uu * M)))) by (apply Rmult_le_compat_l; lra).
  nra.
Qed.

Definition level (c : calendar F64) : R := 3 + 9 * INR (nesting c).

Lemma span_bounds from to : (from <= to)%Z -> (to - from < 2 ^ 40)%Z -> 1 <= span from to /\ span from to <= bpow radix2 41.
Proof.
  intros L H. unfold span. split; [apply IZR_le; lia|]. change (bpow radix2 41) with (IZR (2 ^ 41)). apply IZR_le. lia.
Qed.

Lemma unit_abs x M : - 1 <= x <= M -> 1 <= M -> Rabs x <= M.
Proof. intros. apply Rabs_le. lra. Qed.

Lemma both_err x y ff tf from to c : fraction ff -> fraction tf -> (to - from < 2 ^ 40)%Z -> proper c ->
  (x = n0 /\ y = 0) \/ added x y ff tf -> y = weighted_time (weight c) from (real ff) to (real tf) ->
  finite x /\ ((to < from)%Z -> real x = 0) /\
  ((from <= to)%Z -> Rabs (real x - weighted_time (weight c) from (real ff) to (real tf)) <= 3 * uu * span from to).
Proof.
  intros Hf Ht L P [[-> Y0]|A] Y.
  - destruct zero_spec as [F0 R0]. split; [exact F0|]. split; [intros _; exact R0|]. intros Le. rewrite R0, <- Y, Y0.
    destruct (span_bounds from to Le L) as [S _]. rewrite Rminus_0_r, Rabs_R0. pose proof uu_small. nra.
  - destruct (Z.lt_ge_cases to from) as [G|G].
    + rewrite weighted_time_empty in Y by exact G. subst y. destruct A as (z & fa & ta & -> & Z0 & Ca & Cb).
      assert (A0 : added (nadd (nofZ z) (nsub ta fa)) 0 ff tf) by (exists z, fa, ta; auto).
      destruct (added_err _ _ _ _ 1 Hf Ht A0) as [F E]; [rewrite Rabs_R0; lra|lra|cbn; lra|].
      split; [exact F|]. split; [intros _|lia].
      (* the exact value 0 is z + (ta - fa), so ta - fa is a whole number *)
      assert (Fa : fraction fa) by (destruct Ca as [-> | ->]; [apply zero_fraction|exact Hf]).
      assert (Ta : fraction ta) by (destruct Cb as [-> | ->]; [apply one_fraction|exact Ht]).
      destruct Fa as [Ff Bf], Ta as [Ft Bt].
      assert (Zs : (-1 <= z <= 1)%Z) by (split; apply le_IZR; cbn; lra).
      assert (D : real ta - real fa = IZR (- z)) by (rewrite opp_IZR; lra).
      destruct (sub_spec ta fa Ft Ff) as [Fd Rd]; [apply small_in_range; rewrite big; apply Rabs_le; lra|].
      destruct (ofZ_exact z ltac:(lia)) as [Fz Rz]. destruct (ofZ_exact (- z) ltac:(lia)) as [Fm Rm].
      assert (Rd' : real (nsub ta fa) = IZR (- z)) by (rewrite Rd, D, <- Rm; now apply rnd_real).
      destruct (add_spec (nofZ z) (nsub ta fa) Fz Fd) as [Fs Rs]; [apply small_in_range; rewrite Rz, Rd', opp_IZR, big; apply Rabs_le; lra|].
      rewrite Rs, Rz, Rd', opp_IZR. replace (IZR z + - IZR z) with 0 by ring. apply rnd_0.
    + destruct (span_bounds from to G L) as [S1 S2].
      assert (B : Rabs y <= span from to).
      { apply unit_abs; [|exact S1]. rewrite Y. apply weighted_time_bounds; [now apply weight_bounds|apply Hf|apply Ht|exact G]. }
      destruct (added_err x y ff tf (span from to) Hf Ht A B S1 S2) as [F E]. split; [exact F|]. split; [lia|]. intros _. now rewrite <- Y.
Qed.

(** The error of a count. *)
Lemma count_err c : finite_weights c -> proper (exact c) -> (nesting c <= 1000)%nat -> forall from ff to tf x,
  fraction ff -> fraction tf -> (to - from < 2 ^ 40)%Z ->
  count_business_days c from ff to tf = Ok x ->
  finite x /\ ((to < from)%Z -> real x = 0) /\
  ((from <= to)%Z -> Rabs (real x - weighted_time (weight (exact c)) from (real ff) to (real tf)) <= level c * uu * span from to).
Proof.
  destruct zero_spec as [F0 R0].
  induction c as [| |name hols|name inner IH w]; intros FW P NS from ff to tf x Hf Ht L H; cbn [count_business_days] in H.
  - unfold level. cbn [nesting INR exact]. replace (3 + 9 * 0) with 3 by ring. unfold every_count in H. destruct (Z.ltb_spec to from).
    + injection H as <-. split; [exact F0|]. split; [auto|lia].
    + injection H as <-. destruct (all_days_err (to - from) ff tf Hf Ht ltac:(lia)) as [F E]. split; [exact F|]. split; [lia|]. intros _.
      pose proof (every_count_eq from (real ff) to (real tf)) as Q. unfold every_count in Q. destruct (Z.ltb_spec to from); [lia|]. injection Q as Q.
      change (weight EveryDay) with (weight_of (fun _ : Z => true) 0). rewrite <- Q. rnum. unfold span. rewrite plus_IZR. exact E.
  - unfold level. cbn [nesting INR exact]. replace (3 + 9 * 0) with 3 by ring.
    destruct (wk_both _ _ _ _ _ H) as (y & Y & C). apply wk_count_sound in Y. eapply both_err; eauto.
  - unfold level. cbn [nesting INR exact]. replace (3 + 9 * 0) with 3 by ring.
    destruct (hol_both _ _ _ _ _ _ H) as (y & Y & C). apply hol_count_sound in Y; [|exact P]. eapply both_err; eauto.
  - destruct FW as [Fw FW], P as [P W]. cbn [exact] in P, W. cbn [nesting] in NS. unfold vol_count in H. destruct (Z.ltb_spec to from).
    + injection H as <-. split; [exact F0|]. split; [auto|lia].
    + apply bind_ok in H. destruct H as (b & Hb & H). injection H as <-.
      destruct (IH FW P ltac:(lia) from ff to tf b Hf Ht L Hb) as (Fb & _ & Eb). specialize (Eb H0).
      destruct (all_days_err (to - from) ff tf Hf Ht ltac:(lia)) as [Fa Ea]. cbv zeta in Fa, Ea.
      destruct (span_bounds from to H0 L) as [S1 S2].
      assert (SP : IZR (to - from) + 1 = span from to) by (unfold span; now rewrite plus_IZR). rewrite SP in Ea.
      assert (BB : Rabs (weighted_time (weight (exact inner)) from (real ff) to (real tf)) <= span from to).
      { apply unit_abs; [|exact S1]. apply weighted_time_bounds; [now apply weight_bounds|apply Hf|apply Ht|exact H0]. }
      assert (BA : Rabs (IZR (to - from) + real tf - real ff) <= span from to).
      { destruct Hf as [_ Hf], Ht as [_ Ht]. assert (0 <= IZR (to - from)) by (apply IZR_le; lia). apply Rabs_le. lra. }
      assert (LB : level inner <= 10000).
      { unfold level. assert (NI : (nesting inner <= 999)%nat) by lia. apply le_INR in NI. replace (INR 999) with 999 in NI by (rewrite INR_IZR_INZ; reflexivity). lra. }
      assert (LE : level inner * uu * span from to <= 10000 * uu * span from to).
      { pose proof uu_small. apply Rmult_le_compat_r; [lra|]. nra. }
      destruct (weigh_err b w _ _ _ (span from to) _ Fb Fw Fa W Eb Ea BB BA S1 S2 LE) as [F E].
      split; [exact F|]. split; [lia|]. intros _.
      change (weight (exact (VolCal name inner w))) with (fun d => weight (exact inner) d * (1 - real w) + real w).
      rewrite weighted_time_affine by exact H0.
      eapply Rle_trans; [exact E|]. unfold level. cbn [nesting]. rewrite S_INR. right. ring.
Qed.

(** ** Whole days are counted exactly *)

Definition whole (x : F64) : Prop := finite x /\ (real x = 0 \/ real x = 1).

Lemma rnd_whole n : (Z.abs n <= 2 ^ 53)%Z -> rnd (IZR n) = IZR n.
Proof. intros L. destruct (ofZ_exact n L) as [F R]. rewrite <- R. now apply rnd_real. Qed.

Lemma whole_range n : (Z.abs n <= 2 ^ 53)%Z -> in_range (IZR n).
Proof. intros L. apply small_in_range. rewrite <- abs_IZR, big. apply (IZR_le _ 1152921504606846976). lia. Qed.

Lemma add_whole a b m n : finite a -> finite b -> real a = IZR m -> real b = IZR n -> (Z.abs (m + n) <= 2 ^ 53)%Z ->
  finite (nadd a b) /\ real (nadd a b) = IZR (m + n).
Proof.
  intros A B Ra Rb L. destruct (add_spec a b A B) as [F R]; [rewrite Ra, Rb, <- plus_IZR; now apply whole_range|].
  split; [exact F|]. rewrite R, Ra, Rb, <- plus_IZR. now apply rnd_whole.
Qed.
Lemma sub_whole a b m n : finite a -> finite b -> real a = IZR m -> real b = IZR n -> (Z.abs (m - n) <= 2 ^ 53)%Z ->
  finite (nsub a b) /\ real (nsub a b) = IZR (m - n).
Proof.
  intros A B Ra Rb L. destruct (sub_spec a b A B) as [F R]; [rewrite Ra, Rb, <- minus_IZR; now apply whole_range|].
  split; [exact F|]. rewrite R, Ra, Rb, <- minus_IZR. now apply rnd_whole.
Qed.

Lemma whole_Z x : whole x -> exists k, (0 <= k <= 1)%Z /\ real x = IZR k.
Proof. intros [_ [R|R]]; [exists 0%Z|exists 1%Z]; split; auto; lia. Qed.
Lemma whole_fraction x : whole x -> fraction x.
Proof. intros [F R]. split; [exact F|]. lra. Qed.

Lemma count_whole c : plain c -> orderly c -> forall from ff to tf x,
  whole ff -> whole tf -> (to - from < 2 ^ 40)%Z ->
  count_business_days c from ff to tf = Ok x ->
  finite x /\ real x = weighted_time (weight_of (business_of c) 0) from (real ff) to (real tf).
Proof.
  intros PL P from ff to tf x Hf Ht L H.
  assert (PE : proper (exact c)) by (destruct c; auto; destruct PL).
  assert (FWc : finite_weights c) by (destruct c; auto; destruct PL).
  assert (NSc : (nesting c <= 1000)%nat) by (destruct c; cbn; lia || destruct PL).
  assert (WE : weight (exact c) = weight_of (business_of c) 0) by (destruct c; reflexivity || destruct PL).
  destruct (count_err c FWc PE NSc from ff to tf x (whole_fraction _ Hf) (whole_fraction _ Ht) L H) as (F & Z0 & E). split; [exact F|].
  destruct (Z.lt_ge_cases to from) as [G|G]; [rewrite Z0, weighted_time_empty by exact G; reflexivity|].
  destruct (whole_Z _ Hf) as (kf & Kf & Rf), (whole_Z _ Ht) as (kt & Kt & Rt).
  rewrite WE in E. specialize (E G).
  assert (BD : Rabs (weighted_time (weight_of (business_of c) 0) from (real ff) to (real tf)) <= IZR (2 ^ 41)).
  { destruct (span_bounds from to G L) as [S1 S2]. eapply Rle_trans; [apply unit_abs; [|exact S1]|exact S2]. rewrite <- WE.
    apply weighted_time_bounds; [now apply weight_bounds|rewrite Rf|rewrite Rt|exact G]; (split; [apply (IZR_le 0)|apply (IZR_le _ 1)]; lia). }
  assert (X : added x (weighted_time (weight_of (business_of c) 0) from (real ff) to (real tf)) ff tf ->
     real x = weighted_time (weight_of (business_of c) 0) from (real ff) to (real tf)).
  { intros (z & fa & ta & -> & Y & Ca & Cb). rewrite Y in *.
    assert (Fa : whole fa) by (destruct Ca as [-> | ->]; [split; [apply zero_spec|left; apply zero_spec]|exact Hf]).
    assert (Ta : whole ta) by (destruct Cb as [-> | ->]; [split; [apply one_spec|right; apply one_spec]|exact Ht]).
    destruct (whole_Z _ Fa) as (ka & Ka & Ra), (whole_Z _ Ta) as (kb & Kb & Rb).
    rewrite Ra, Rb, <- minus_IZR, <- plus_IZR, <- abs_IZR in BD. apply le_IZR in BD.
    destruct (sub_whole ta fa kb ka (proj1 Ta) (proj1 Fa) Rb Ra ltac:(lia)) as [Fd Rd].
    destruct (ofZ_exact z ltac:(lia)) as [Fz Rz].
    destruct (add_whole (nofZ z) (nsub ta fa) z (kb - ka) Fz Fd Rz Rd ltac:(lia)) as [_ ->].
    rewrite Ra, Rb, plus_IZR, minus_IZR. reflexivity. }
  destruct c as [| |name hols|name inner w]; [| | |destruct PL]; cbn [count_business_days] in H.
  - unfold every_count in H. destruct (Z.ltb_spec to from); [lia|]. injection H as <-.
    pose proof (every_count_eq from (real ff) to (real tf)) as Q. unfold every_count in Q. destruct (Z.ltb_spec to from); [lia|]. injection Q as Q.
    cbn [business_of]. rewrite <- Q.
    destruct (ofZ_exact (to - from) ltac:(lia)) as [Fn Rn].
    destruct (add_whole (nofZ (to - from)) tf (to - from) kt Fn (proj1 Ht) Rn Rt ltac:(lia)) as [F1 R1].
    destruct (sub_whole (nadd (nofZ (to - from)) tf) ff (to - from + kt) kf F1 (proj1 Hf) R1 Rf ltac:(lia)) as [_ RX].
    match goal with |- real ?t = _ => change t with (nsub (nadd (nofZ (to - from)) tf) ff : F64) end. rewrite RX.
    rnum. rewrite Rf, Rt, <- plus_IZR, <- minus_IZR. reflexivity.
  - destruct (wk_both _ _ _ _ _ H) as (y & Y & C). apply wk_count_sound in Y. cbn [business_of] in *. destruct C as [[-> Y0]|C].
    + rewrite (proj2 zero_spec), <- Y, Y0. reflexivity.
    + rewrite <- Y in X |- *. apply X. exact C.
  - destruct (hol_both _ _ _ _ _ _ H) as (y & Y & C). apply hol_count_sound in Y; [|exact P]. cbn [business_of] in *. destruct C as [[-> Y0]|C].
    + rewrite (proj2 zero_spec), <- Y, Y0. reflexivity.
    + rewrite <- Y in X |- *. apply X. exact C.
Qed.

(** ** Steps *)

Lemma opp_spec (x : F64) : finite x -> finite (nopp x) /\ real (nopp x) = - real x.
Proof.
  intros F. destruct (finite_B x F) as (b & <- & Fb & Rb).
  cbn [nopp FNum]. replace (SFopp (B2SF b)) with (B2SF (Bopp b)) by (destruct b; reflexivity). rewrite <- Rb.
  split; [apply finite_of_B; now rewrite is_finite_Bopp|]. rewrite real_of_B. apply B2R_Bopp.
Qed.

Lemma trunc_spec (x : F64) : finite x -> 0 <= real x -> IZR (ntrunc x) <= real x < IZR (ntrunc x) + 1.
Proof.
  intros [_ F] P. destruct x as [s|s| |s m e]; try discriminate; cbn [ntrunc FNum F_trunc].
  - cbn. lra.
  - destruct s.
    + exfalso. unfold real, SF2R in P. apply (Rlt_irrefl 0). eapply Rle_lt_trans; [exact P|]. apply F2R_lt_0. reflexivity.
    + unfold real, SF2R, F2R, cond_Zopp. cbn [Fnum Fexp]. destruct (Z.leb_spec 0 e) as [L|L].
      * rewrite mult_IZR. change (2 ^ e)%Z with (Zpower radix2 e). rewrite IZR_Zpower by exact L. lra.
      * assert (K : (0 < 2 ^ (- e))%Z) by (apply Z.pow_pos_nonneg; lia).
        assert (B : bpow radix2 e * IZR (2 ^ (- e)) = 1).
        { change (2 ^ (- e))%Z with (Zpower radix2 (- e)). rewrite IZR_Zpower by lia. rewrite <- bpow_plus. replace (e + - e)%Z with 0%Z by lia. reflexivity. }
        pose proof (Z.div_mod (Zpos m) (2 ^ (- e)) ltac:(lia)) as DM. pose proof (Z.mod_pos_bound (Zpos m) _ K) as MB.
        set (q := (Zpos m / 2 ^ (- e))%Z) in *. set (r := (Zpos m mod 2 ^ (- e))%Z) in *. set (k := (2 ^ (- e))%Z) in *.
        assert (Em : IZR (Zpos m) = IZR k * IZR q + IZR r) by (rewrite DM at 1; now rewrite plus_IZR, mult_IZR).
        assert (R0 : 0 <= IZR r < IZR k) by (split; [apply IZR_le|apply IZR_lt]; lia).
        assert (Kp : 0 < IZR k) by (apply (IZR_lt 0); lia). assert (Bp : 0 < bpow radix2 e) by apply bpow_gt_0.
        rewrite Em. replace ((IZR k * IZR q + IZR r) * bpow radix2 e) with (IZR q * (bpow radix2 e * IZR k) + IZR r * bpow radix2 e) by ring.
        rewrite B. assert (0 <= IZR r * bpow radix2 e < 1) by (split; [nra|]; rewrite <- B; nra). lra.
Qed.

Lemma tiny12 : finite (M_Calendar.tiny : F64) /\ 0 < real M_Calendar.tiny <= / 100000000.
Proof.
  split; [split; reflexivity|]. unfold M_Calendar.tiny, nlit.
  destruct (ofZ_exact 1 ltac:(cbn; lia)) as [F1 R1], (ofZ_exact 1000000000000 ltac:(cbn; lia)) as [F2 R2].
  assert (IR : in_range (real (nofZ 1) / real (nofZ 1000000000000))).
  { rewrite R1, R2. apply (bound_in_range _ 0); [lia|]. rewrite Rabs_right by lra. change (bpow radix2 0) with 1. lra. }
  destruct (div_spec (nofZ 1) (nofZ 1000000000000) F1 F2 ltac:(lra) IR) as [F R].
  rewrite R, R1, R2. destruct (rnd_error (1 / 1000000000000)) as (e & h & E & H & ->). pose proof uu_small. pose proof tiny_small.
  apply Rabs_le_inv in E. apply Rabs_le_inv in H. lra.
Qed.

Section Steps.
  Variable c : calendar F64.
  Hypothesis FW : finite_weights c.
  Hypothesis P : proper (exact c).
  Hypothesis NS : (nesting c <= 1000)%nat.
  Variable fwd : bool.
  Variable from : date.
  Variable total : F64.
  Hypothesis Ft : finite total.
  Hypothesis Bt : 0 <= real total <= 1048576.
  Let dir := dir_of fwd.
  Let D := distance (weight (exact c)) dir from.
  Let count := count_business_days c.
  Let eta (k : nat) : R := (level c + 2) * uu * (INR k + 1) + uu * real total.

  Lemma level_bounds : 3 <= level c <= 9003.
  Proof.
    unfold level. pose proof (pos_INR (nesting c)). pose proof NS as N1. apply le_INR in N1.
    replace (INR 1000) with 1000 in N1 by (rewrite INR_IZR_INZ; reflexivity). lra.
  Qed.

  Lemma D_mono a b : (a <= b)%nat -> D a <= D b <= D a + IZR (Z.of_nat b - Z.of_nat a).
  Proof. intros L. apply distance_step; [now apply weight_bounds|exact L]. Qed.

  Lemma D_bounds k : 0 <= D k <= INR k.
  Proof. pose proof (D_mono 0 k ltac:(lia)) as H. replace (Z.of_nat k - Z.of_nat 0)%Z with (Z.of_nat k) in H by lia. rewrite <- INR_IZR_INZ in H. assert (D0 : D 0 = 0) by reflexivity. lra. Qed.

  Lemma taken_err k x : (Z.of_nat k < 2 ^ 40)%Z ->
    (if fwd then count from n0 (from + dir * Z.of_nat k)%Z n0 else count (from + dir * Z.of_nat k)%Z n1 from n1) = Ok x ->
    finite x /\ Rabs (real x - D k) <= level c * uu * (INR k + 1).
  Proof.
    intros L E. unfold D, dir, dir_of, count in *. destruct fwd.
    - destruct (count_err c FW P NS from n0 (from + 1 * Z.of_nat k)%Z n0 x zero_fraction zero_fraction ltac:(lia) E) as (F & _ & B). split; [exact F|].
      specialize (B ltac:(lia)). rewrite (proj2 zero_spec), distance_forward in B. unfold span in B.
      replace (from + 1 * Z.of_nat k - from + 1)%Z with (Z.of_nat k + 1)%Z in B by lia. rewrite plus_IZR, <- INR_IZR_INZ in B. exact B.
    - destruct (count_err c FW P NS (from + -1 * Z.of_nat k)%Z n1 from n1 x one_fraction one_fraction ltac:(lia) E) as (F & _ & B). split; [exact F|].
      specialize (B ltac:(lia)). rewrite (proj2 one_spec), distance_backward in B. unfold span in B.
      replace (from - (from + -1 * Z.of_nat k) + 1)%Z with (Z.of_nat k + 1)%Z in B by lia. rewrite plus_IZR, <- INR_IZR_INZ in B. exact B.
  Qed.

  Lemma eta_small k : (Z.of_nat k <= 76547388580)%Z -> 0 <= eta k <= / 10.
  Proof.
    intros L. unfold eta. pose proof level_bounds as [L1 L2]. pose proof uu_small as [U1 U2]. pose proof (pos_INR k) as K0.
    assert (K : INR k <= 76547388580) by (rewrite INR_IZR_INZ; now apply IZR_le).
    assert (A : 0 <= (level c + 2) * uu <= 9005 * / 9007199254740992) by (split; [nra|]; apply Rmult_le_compat; lra).
    assert (B : 0 <= (level c + 2) * uu * (INR k + 1) <= 9005 * / 9007199254740992 * 76547388581) by (split; [nra|]; apply Rmult_le_compat; lra).
    assert (C : 0 <= uu * real total <= / 9007199254740992 * 1048576) by (split; [nra|]; apply Rmult_le_compat; lra). lra.
  Qed.

  Lemma needed_err k x : (Z.of_nat k <= 76547388580)%Z -> finite x -> Rabs (real x - D k) <= level c * uu * (INR k + 1) ->
    finite (nsub total x) /\ Rabs (real (nsub total x) - (real total - D k)) <= eta k.
  Proof.
    intros L Fx E. pose proof (eta_small k L) as ES. unfold eta in *. pose proof level_bounds as [L1 L2]. pose proof uu_small as [U1 U2]. pose proof (pos_INR k) as K0.
    assert (K : INR k <= 76547388580) by (rewrite INR_IZR_INZ; now apply IZR_le). pose proof (D_bounds k) as DB.
    set (Ek := level c * uu * (INR k + 1)) in *.
    assert (U3 : 0 <= uu * (INR k + 1)) by nra. assert (U4 : 0 <= uu * real total) by nra.
    assert (Split : (level c + 2) * uu * (INR k + 1) = Ek + 2 * (uu * (INR k + 1))) by (unfold Ek; ring).
    assert (E0 : 0 <= Ek) by (unfold Ek; rewrite Rmult_assoc; apply Rmult_le_pos; lra).
    assert (E1 : 0 <= Ek <= 1) by lra. apply Rabs_le_inv in E.
    assert (A : Rabs (real total - real x) <= real total + (INR k + 1)) by (apply Rabs_le; lra).
    destruct (sub_err total x Ft Fx) as [F B]; [rewrite big; lra|]. split; [exact F|].
    assert (uu * Rabs (real total - real x) <= uu * (real total + (INR k + 1))) by (apply Rmult_le_compat_l; lra).
    apply Rabs_le_inv in B. apply Rabs_le. fold Ek.
    rewrite Split. rewrite Rmult_plus_distr_l in H. lra.
  Qed.

  (** The value of [steps_needed] at the k-th day. *)
  Definition measured (k : nat) (n : F64) : Prop := finite n /\ Rabs (real n - (real total - D k)) <= eta k.

  Definition ended_double (k p : nat) (nk np : F64) : Prop :=
    (p < k)%nat /\ (Z.of_nat k <= 76547388580)%Z /\ measured k nk /\ measured p np /\ real nk <= 0 < real np /\
    (k = S p \/ (2 <= Z.of_nat k - Z.of_nat p)%Z /\ IZR (Z.of_nat k - Z.of_nat p) <= real np + / 1000).

  Lemma jump_double n k : measured k n -> 0 < real n -> (Z.of_nat k <= 76547388580)%Z ->
    let m := Z.max (ntrunc (nadd n M_Calendar.tiny)) 1 in
    (1 <= m <= 1048580)%Z /\ (m = 1%Z \/ (2 <= m)%Z /\ IZR m <= real n + / 1000).
  Proof.
    intros [F E] Pn L m. destruct tiny12 as [Ft12 [T1 T2]]. pose proof (eta_small k L) as ES. pose proof (D_bounds k) as DB. apply Rabs_le_inv in E.
    pose proof uu_small as [U1 U2].
    assert (N : real n <= 1048577) by lra.
    destruct (add_err n M_Calendar.tiny F Ft12) as [Fs Es]; [rewrite big, Rabs_right; lra|]. rewrite (Rabs_right (real n + real M_Calendar.tiny)) in Es by lra. apply Rabs_le_inv in Es.
    assert (uu * (real n + real M_Calendar.tiny) <= / 1000000) by nra.
    assert (S0 : 0 <= real (nadd n M_Calendar.tiny)) by nra.
    destruct (trunc_spec _ Fs S0) as [Tr _]. set (t := ntrunc (nadd n M_Calendar.tiny)) in *.
    assert (Tb : (t <= 1048580)%Z) by (apply le_IZR; lra).
    unfold m. destruct (Z.max_spec t 1) as [[Lt ->]|[Lt ->]]; [split; [lia|now left]|]. split; [lia|].
    destruct (Z.eq_dec t 1); [now left|]. right. split; [lia|lra].
  Qed.

  Lemma loop_double : forall fuel k needed prev ps d' needed' prev' ps', (Z.of_nat k <= (73001 - Z.of_nat fuel) * 1048580)%Z -> (fuel <= day_fuel)%nat ->
    measured k needed ->
    (real needed <= 0 -> exists p, prev = (from + dir * Z.of_nat p)%Z /\ ended_double k p needed ps) ->
    vol_step_loop fuel count from total fwd (from + dir * Z.of_nat k)%Z needed prev ps = Ok (d', needed', prev', ps') ->
    exists k p, d' = (from + dir * Z.of_nat k)%Z /\ prev' = (from + dir * Z.of_nat p)%Z /\ ended_double k p needed' ps'.
  Proof.
    destruct zero_spec as [F0 R0]. pose proof day_fuel_eq as DF.
    induction fuel as [|fuel IH]; intros k needed prev ps d' needed' prev' ps' Hk Hf Hn Hend H; [discriminate|].
    cbn [vol_step_loop] in H. destruct (nltb n0 needed) eqn:Pos.
    - apply (ltb_spec n0 needed F0 (proj1 Hn)) in Pos. rewrite R0 in Pos.
      assert (Lk : (Z.of_nat k <= 76547388580)%Z) by lia.
      destruct (jump_double needed k Hn Pos Lk) as [M1 M2].
      set (m := Z.max (ntrunc (nadd needed M_Calendar.tiny)) 1) in *.
      assert (Ed : (from + dir * Z.of_nat k + m * (if fwd then 1 else -1) = from + dir * Z.of_nat (k + Z.to_nat m))%Z).
      { change (if fwd then 1 else -1)%Z with dir. rewrite Nat2Z.inj_add, Z2Nat.id by lia. ring. }
      rewrite Ed in H. inv_bind H. inv_bind H.
      assert (Lm : (Z.of_nat (k + Z.to_nat m) <= 76547388580)%Z) by lia.
      destruct (taken_err (k + Z.to_nat m) _ ltac:(lia) E) as [Fa Ea]. pose proof (needed_err _ _ Lm Fa Ea) as Hm.
      eapply (IH (k + Z.to_nat m)%nat); [lia|lia|exact Hm|intros Le|exact H].
      exists k. split; [reflexivity|]. split; [lia|]. split; [exact Lm|]. split; [exact Hm|]. split; [exact Hn|]. split; [lra|].
      destruct M2 as [M2|[M2 M3]]; [left; lia|]. right.
      replace (Z.of_nat (k + Z.to_nat m) - Z.of_nat k)%Z with m by lia. auto.
    - injection H as <- <- <- <-. assert (Neg : real needed <= 0).
      { apply Rnot_lt_le. intros K. rewrite <- R0 in K. apply (ltb_spec n0 needed F0 (proj1 Hn)) in K. congruence. }
      destruct (Hend Neg) as (p & -> & En). exists k, p. auto.
  Qed.

  Lemma ended_near k p nk np : ended_double k p nk np ->
    let r := if nltb nk n0 && nltb np (nopp nk) then p else k in
    forall j, Rabs (D r - real total) <= Rabs (D j - real total) + 4 * (level c + 2) * uu * (INR r + 1 + real total).
  Proof.
    intros (Lt & Lk & [Fk Ek] & [Fp Ep] & Cross & Step) r j. destruct zero_spec as [F0 R0]. destruct (opp_spec nk Fk) as [Fo Ro].
    pose proof (eta_small k Lk) as ES.
    assert (EP : eta p <= eta k).
    { unfold eta. pose proof level_bounds. pose proof uu_small. apply lt_INR in Lt. apply Rplus_le_compat_r. apply Rmult_le_compat_l; [nra|lra]. }
    apply Rabs_le_inv in Ek. apply Rabs_le_inv in Ep.
    assert (Small : forall x, 0 <= x -> Rabs x = x) by (intros; apply Rabs_pos_eq; assumption).
    assert (Tol : k = S p \/ r = k -> 2 * eta k <= 4 * (level c + 2) * uu * (INR r + 1 + real total)).
    { intros C. assert (Kr : INR k <= INR r + 1).
      { rewrite <- S_INR. apply le_INR. destruct C as [C|C]; [unfold r; destruct (_ && _); lia|lia]. }
      unfold eta. pose proof level_bounds as [L1 L2]. pose proof uu_small as [U1 U2]. pose proof (pos_INR r) as R1.
      set (l := (level c + 2) * uu). assert (U3 : uu <= l) by (unfold l; nra).
      assert (A : 2 * (l * (INR k + 1)) <= 2 * (l * (2 * (INR r + 1)))) by nra.
      assert (B : 2 * (uu * real total) <= 4 * (l * real total)) by nra.
      replace (4 * (level c + 2) * uu * (INR r + 1 + real total)) with (4 * (l * (INR r + 1)) + 4 * (l * real total)) by (unfold l; ring). lra. }
    assert (Dec : (r = p /\ real np < - real nk) \/ (r = k /\ - real nk <= real np)).
    { unfold r. destruct (nltb nk n0) eqn:X.
      - destruct (nltb np (nopp nk)) eqn:Y; cbn [andb].
        + left. split; [reflexivity|]. apply (ltb_spec np (nopp nk) Fp Fo) in Y. lra.
        + right. split; [reflexivity|]. apply Rnot_lt_le. intros K. rewrite <- Ro in K. apply (ltb_spec np (nopp nk) Fp Fo) in K. congruence.
      - right. split; [reflexivity|]. assert (~ real nk < 0) by (intros K; rewrite <- R0 in K; apply (ltb_spec nk n0 Fk F0) in K; congruence). lra. }
    destruct Step as [Sk|[M2 M3]].
    - specialize (Tol (or_introl Sk)). eapply Rle_trans; [|apply Rplus_le_compat_l; exact Tol].
      assert (Rr : Rabs (D r - real total) <= real np + eta k /\ Rabs (D r - real total) <= - real nk + eta k).
      { destruct Dec as [[-> Q]|[-> Q]]; split; apply Rabs_le; lra. }
      destruct (Nat.le_gt_cases j p) as [L|G].
      + pose proof (D_mono j p L). pose proof (Rle_abs (- (D j - real total))) as RA. rewrite Rabs_Ropp in RA. lra.
      + pose proof (D_mono k j ltac:(lia)). pose proof (Rle_abs (D j - real total)). lra.
    - pose proof (D_mono p k ltac:(lia)) as Mpk.
      assert (R2 : 2 <= IZR (Z.of_nat k - Z.of_nat p)) by (apply IZR_le; exact M2).
      destruct Dec as [[_ Q]|[Er Q]]; [lra|]. specialize (Tol (or_intror Er)). eapply Rle_trans; [|apply Rplus_le_compat_l; exact Tol].
      rewrite Er. destruct (Nat.le_gt_cases k j) as [L|G].
      + pose proof (D_mono k j L). pose proof (Rle_abs (D j - real total)). assert (Rabs (D k - real total) <= D k - real total + 2 * eta k) by (apply Rabs_le; lra). lra.
      + assert (B : D j <= D p + IZR (Z.of_nat k - Z.of_nat p) - 1).
        { destruct (Nat.le_gt_cases j p) as [L|G'].
          - pose proof (D_mono j p L). lra.
          - pose proof (D_mono p j ltac:(lia)).
            assert (IZR (Z.of_nat j - Z.of_nat p) <= IZR (Z.of_nat k - Z.of_nat p - 1)) by (apply IZR_le; lia).
            rewrite (minus_IZR (Z.of_nat k - Z.of_nat p) 1) in H0. lra. }
        pose proof (Rle_abs (- (D j - real total))) as RA. rewrite Rabs_Ropp in RA.
        assert (Rabs (D k - real total) <= / 2) by (apply Rabs_le; lra). lra.
  Qed.
End Steps.

Lemma step_near name inner w from x fwd r : let c := VolCal name inner w in
  finite_weights c -> proper (exact c) -> (nesting c <= 1000)%nat -> finite x -> Rabs (real x) <= 1048576 ->
  nleb (nlit 1 1000000000000) w = true ->
  step_partial c from x fwd = Ok r ->
  exists k : nat, r = (from + dir_of fwd * Z.of_nat k)%Z /\
    forall j, Rabs (distance (weight (exact c)) (dir_of fwd) from k - Rabs (real x))
      <= Rabs (distance (weight (exact c)) (dir_of fwd) from j - Rabs (real x)) + 4 * (level c + 2) * uu * (INR k + 1 + Rabs (real x)).
Proof.
  intros c FW P NS Fx Bx Hw H. unfold c in H. cbn [step_partial] in H. unfold vol_step_partial in H.
  assert (HW : nltb w M_Calendar.tiny = false).
  { destruct tiny12 as [F12 _]. assert (Fw : finite w) by apply FW. apply (leb_spec _ w F12 Fw) in Hw.
    destruct (nltb w M_Calendar.tiny) eqn:E; [|reflexivity]. apply (ltb_spec w _ Fw F12) in E. unfold M_Calendar.tiny in *. lra. }
  rewrite HW in H. inv_bind H. inv_bind H. destruct a0 as [[[d needed] prev] ps].
  destruct (abs_spec x Fx) as [Fa Ra]. rewrite <- Ra in *. set (t := nabs x) in *.
  assert (Bt : 0 <= real t <= 1048576) by (split; [rewrite Ra; apply Rabs_pos|exact Bx]).
  change (vol_count w (count_business_days inner)) with (count_business_days c) in E0.
  destruct zero_spec as [F0 R0].
  destruct (Rlt_dec 0 (real t)) as [Px|Nx].
  - assert (E0' : vol_step_loop day_fuel (count_business_days c) from t fwd (from + dir_of fwd * Z.of_nat 0)%Z t from t = Ok (d, needed, prev, ps)).
    { replace (from + dir_of fwd * Z.of_nat 0)%Z with from by lia. exact E0. }
    apply (loop_double c FW P NS fwd from t Fa Bt) in E0'.
    + destruct E0' as (k & p & -> & -> & En). pose proof (ended_near c P NS fwd from t Bt k p needed ps En) as N. cbv zeta in N.
      destruct (nltb needed n0 && nltb ps (nopp needed)); injection H as <-; eauto.
    + rewrite day_fuel_eq. lia.
    + lia.
    + split; [exact Fa|]. cbn [distance]. replace (real t - (real t - 0)) with 0 by ring. rewrite Rabs_R0.
      apply (eta_small c NS t Bt). lia.
    + intros. lra.
  - assert (T0 : real t = 0) by lra. assert (Z0 : nltb n0 t = false).
    { destruct (nltb n0 t) eqn:E1; [|reflexivity]. apply (ltb_spec n0 t F0 Fa) in E1. lra. }
    assert (Hf : exists f, day_fuel = S f) by (pose proof day_fuel_eq; destruct day_fuel; [cbn in *; lia|eauto]).
    destruct Hf as [f Hf]. rewrite Hf in E0. cbn [vol_step_loop] in E0. rewrite Z0 in E0. injection E0 as <- <- <- <-.
    assert (r = from) by (destruct (_ && _); now injection H). subst r. exists O. split; [lia|]. intros j. cbn [distance].
    rewrite T0. replace (0 - 0) with 0 by ring. rewrite Rabs_R0. pose proof (Rabs_pos (distance (weight (exact c)) (dir_of fwd) from j - 0)).
    pose proof (level_bounds c NS). pose proof uu_small. cbn [INR]. nra.
Qed.

(** ** The panic of the steps *)

Lemma bind_panic {A B} (r : res A) (f : A -> res B) m : bind r f = Panic m -> r = Panic m \/ exists a, r = Ok a /\ f a = Panic m.
Proof. destruct r; cbn; intros H; [eauto|discriminate|left; congruence]. Qed.

Definition elsewhere {A} (r : res A) : Prop := r <> Panic "steps_needed >= -1.0".
Lemma elsewhere_ok {A} (a : A) : elsewhere (Ok a).
Proof. unfold elsewhere. discriminate. Qed.
Lemma elsewhere_bind {A B} (r : res A) (f : A -> res B) : elsewhere r -> (forall a, elsewhere (f a)) -> elsewhere (bind r f).
Proof. intros R F H. apply bind_panic in H. destruct H as [H|(a & _ & H)]; [now apply R in H|now apply F in H]. Qed.

Lemma day_of_week_elsewhere d : elsewhere (day_of_week d).
Proof. unfold day_of_week. unfold elsewhere. destruct is_valid; discriminate. Qed.
Lemma wk_is_holiday_elsewhere d : elsewhere (wk_is_holiday d).
Proof. apply elsewhere_bind; [apply day_of_week_elsewhere|intros; apply elsewhere_ok]. Qed.
Lemma hol_is_holiday_elsewhere hols d : elsewhere (hol_is_holiday hols d).
Proof. apply elsewhere_bind; [apply day_of_week_elsewhere|intros a; destruct (4 <? a)%Z; apply elsewhere_ok]. Qed.
Lemma slip_weekday_elsewhere d f : elsewhere (slip_to_next_weekday d f).
Proof. apply elsewhere_bind; [apply day_of_week_elsewhere|intros a; destruct (a <? 5)%Z, f; apply elsewhere_ok]. Qed.
Lemma slip_elsewhere n hols : forall d s, elsewhere (slip_to_next n hols d s).
Proof.
  induction n as [|n IH]; intros d s; [unfold elsewhere; discriminate|]. cbn [slip_to_next].
  apply elsewhere_bind; [apply hol_is_holiday_elsewhere|intros []; [apply IH|apply elsewhere_ok]].
Qed.
Lemma week_days_elsewhere a b : elsewhere (week_days_between a b).
Proof.
  unfold week_days_between. apply elsewhere_bind; [apply day_of_week_elsewhere|intros].
  apply elsewhere_bind; [apply day_of_week_elsewhere|intros; apply elsewhere_ok].
Qed.
Lemma count_elsewhere {T} {NT : Num T} (c : calendar T) : forall from ff to tf, elsewhere (count_business_days c from ff to tf).
Proof.
  induction c as [| |name hols|name inner IH w]; intros from ff to tf; cbn [count_business_days].
  - unfold every_count. destruct (to <? from)%Z; apply elsewhere_ok.
  - unfold wk_count. apply elsewhere_bind; [apply slip_weekday_elsewhere|intros a]. apply elsewhere_bind; [apply slip_weekday_elsewhere|intros b].
    destruct (b <? a)%Z; [apply elsewhere_ok|]. apply elsewhere_bind; [apply week_days_elsewhere|intros].
    apply elsewhere_bind; [apply wk_is_holiday_elsewhere|intros]. apply elsewhere_bind; [apply wk_is_holiday_elsewhere|intros; apply elsewhere_ok].
  - unfold hol_count. apply elsewhere_bind; [apply slip_elsewhere|intros a]. apply elsewhere_bind; [apply slip_elsewhere|intros b].
    destruct (b <? a)%Z; [apply elsewhere_ok|]. apply elsewhere_bind; [apply week_days_elsewhere|intros].
    apply elsewhere_bind; [apply hol_is_holiday_elsewhere|intros]. apply elsewhere_bind; [apply hol_is_holiday_elsewhere|intros; apply elsewhere_ok].
  - unfold vol_count. destruct (to <? from)%Z; [apply elsewhere_ok|]. apply elsewhere_bind; [apply IH|intros; apply elsewhere_ok].
Qed.

Section Cause.
  Variable c : calendar F64.
  Hypothesis FW : finite_weights c.
  Hypothesis P : proper (exact c).
  Hypothesis NS : (nesting c <= 1000)%nat.
  Variable fwd : bool.
  Variable from : date.
  Variable total : F64.
  Hypothesis Ft : finite total.
  Hypothesis Bt : 0 <= real total <= 1048576.
  Let dir := dir_of fwd.
  Let D := distance (weight (exact c)) dir from.

  Lemma loop_cause : forall fuel k needed prev ps, (Z.of_nat k <= (73001 - Z.of_nat fuel) * 1048580)%Z -> (fuel <= day_fuel)%nat ->
    measured c fwd from total k needed ->
    vol_step_loop fuel (count_business_days c) from total fwd (from + dir * Z.of_nat k)%Z needed prev ps = Panic "steps_needed >= -1.0" ->
    exists k, Rabs (D k - real total) <= 4 * (level c + 2) * uu * (INR k + 1 + real total).
  Proof.
    destruct zero_spec as [F0 R0]. destruct one_spec as [F1 R1]. pose proof day_fuel_eq as DF. destruct (opp_spec n1 F1) as [Fo Ro].
    induction fuel as [|fuel IH]; intros k needed prev ps Hk Hf Hn H; [discriminate|].
    cbn [vol_step_loop] in H. destruct (nltb n0 needed) eqn:Pos; [|discriminate].
    apply (ltb_spec n0 needed F0 (proj1 Hn)) in Pos. rewrite R0 in Pos.
    assert (Lk : (Z.of_nat k <= 76547388580)%Z) by lia.
    destruct (jump_double c P NS fwd from total Bt needed k Hn Pos Lk) as [M1 M2].
    set (m := Z.max (ntrunc (nadd needed M_Calendar.tiny)) 1) in *.
    assert (Ed : (from + dir * Z.of_nat k + m * (if fwd then 1 else -1) = from + dir * Z.of_nat (k + Z.to_nat m))%Z).
    { change (if fwd then 1 else -1)%Z with dir. rewrite Nat2Z.inj_add, Z2Nat.id by lia. ring. }
    rewrite Ed in H. apply bind_panic in H. destruct H as [H|(a & E & H)].
    { exfalso. destruct fwd; now apply count_elsewhere in H. }
    assert (Lm : (Z.of_nat (k + Z.to_nat m) <= 76547388580)%Z) by lia.
    destruct (taken_err c FW P NS fwd from total (k + Z.to_nat m)%nat _ ltac:(lia) E) as [Fa Ea].
    pose proof (needed_err c P NS fwd from total Ft Bt _ _ Lm Fa Ea) as Hm.
    apply bind_panic in H. destruct H as [H|(u & _ & H)].
    - assert (Hl : ~ - 1 <= real (nsub total a)).
      { intros K. assert (K1 : real (nopp n1) <= real (nsub total a)) by (rewrite Ro, R1; lra). clear K. rename K1 into K. apply (leb_spec _ _ Fo (proj1 Hm)) in K. rewrite K in H. discriminate. }
      exists k. destruct Hm as [_ Em], Hn as [_ En]. apply Rabs_le_inv in Em. apply Rabs_le_inv in En. fold dir D in Em, En.
      pose proof (D_mono c P fwd from k (k + Z.to_nat m) ltac:(lia)) as DM. fold dir D in DM.
      replace (Z.of_nat (k + Z.to_nat m) - Z.of_nat k)%Z with m in DM by lia.
      pose proof (eta_small c NS total Bt k Lk) as S1. pose proof (eta_small c NS total Bt _ Lm) as S2.
      pose proof (level_bounds c NS) as [L1 L2]. pose proof uu_small as [U1 U2]. pose proof (pos_INR k) as K0.
      destruct M2 as [M2|[M2 M3]].
      + assert (Km : (k + Z.to_nat m)%nat = S k) by lia. rewrite Km, M2, S_INR in *.
        set (l := (level c + 2) * uu) in *. assert (U3 : uu <= l) by (unfold l; nra).
        assert (A : 0 <= l * (INR k + 1)) by nra. assert (A' : l <= l * (INR k + 1)) by nra. assert (B : uu * real total <= l * real total) by nra.
        assert (B0 : 0 <= uu * real total) by nra.
        replace (4 * (level c + 2) * uu * (INR k + 1 + real total)) with (4 * (l * (INR k + 1)) + 4 * (l * real total)) by (unfold l; ring).
        apply Rabs_le. lra.
      + exfalso. lra.
    - eapply (IH (k + Z.to_nat m)%nat); [lia|lia|exact Hm|exact H].
  Qed.
End Cause.

Lemma step_panic_cause name inner w from x fwd : let c := VolCal name inner w in
  finite_weights c -> proper (exact c) -> (nesting c <= 1000)%nat -> finite x -> Rabs (real x) <= 1048576 ->
  nleb (nlit 1 1000000000000) w = true ->
  step_partial c from x fwd = Panic "steps_needed >= -1.0" ->
  exists k : nat, Rabs (distance (weight (exact c)) (dir_of fwd) from k - Rabs (real x)) <= 4 * (level c + 2) * uu * (INR k + 1 + Rabs (real x)).
Proof.
  intros c FW P NS Fx Bx Hw H. unfold c in H. cbn [step_partial] in H. unfold vol_step_partial in H.
  assert (HW : nltb w M_Calendar.tiny = false).
  { destruct tiny12 as [F12 _]. assert (Fw : finite w) by apply FW. apply (leb_spec _ w F12 Fw) in Hw.
    destruct (nltb w M_Calendar.tiny) eqn:E; [|reflexivity]. apply (ltb_spec w _ Fw F12) in E. unfold M_Calendar.tiny in *. lra. }
  rewrite HW in H. apply bind_panic in H. destruct H as [H|(u & _ & H)]; [destruct (_ || _); discriminate|].
  apply bind_panic in H. destruct H as [H|([[[d needed] prev] ps] & _ & H)]; [|destruct (_ && _); discriminate].
  destruct (abs_spec x Fx) as [Fa Ra]. rewrite <- Ra in *. set (t := nabs x) in *.
  assert (Bt : 0 <= real t <= 1048576) by (split; [rewrite Ra; apply Rabs_pos|exact Bx]).
  change (vol_count w (count_business_days inner)) with (count_business_days c) in H.
  assert (H' : vol_step_loop day_fuel (count_business_days c) from t fwd (from + dir_of fwd * Z.of_nat 0)%Z t from t = Panic "steps_needed >= -1.0").
  { replace (from + dir_of fwd * Z.of_nat 0)%Z with from by lia. exact H. }
  eapply (loop_cause c FW P NS fwd from t Fa Bt); [| | |exact H'].
  - rewrite day_fuel_eq. lia.
  - lia.
  - split; [exact Fa|]. cbn [distance]. replace (real t - (real t - 0)) with 0 by ring. rewrite Rabs_R0.
    apply (eta_small c NS t Bt). lia.
Qed.

(** ** In the words of the properties *)

Lemma count_near c from ff to tf x : finite_weights c -> proper (exact c) -> (nesting c <= 1000)%nat ->
  finite ff -> 0 <= real ff <= 1 -> finite tf -> 0 <= real tf <= 1 -> (from <= to < from + 2 ^ 40)%Z ->
  count_business_days c from ff to tf = Ok x ->
  finite x /\ Rabs (real x - weighted_time (weight (exact c)) from (real ff) to (real tf))
    <= (3 + 9 * INR (nesting c)) * bpow radix2 (-53) * IZR (to - from + 1).
Proof.
  intros FW P NS Ff Bf Ft Bt L H. destruct (count_err c FW P NS from ff to tf x (conj Ff Bf) (conj Ft Bt) ltac:(lia) H) as (F & _ & E).
  split; [exact F|]. apply E. lia.
Qed.

Lemma count_wholes (c : calendar F64) from ff to tf x : plain c -> orderly c ->
  finite ff -> (real ff = 0 \/ real ff = 1) -> finite tf -> (real tf = 0 \/ real tf = 1) -> (to < from + 2 ^ 40)%Z ->
  count_business_days c from ff to tf = Ok x ->
  finite x /\ real x = weighted_time (weight_of (business_of c) 0) from (real ff) to (real tf).
Proof. intros PL O Ff Bf Ft Bt L H. exact (count_whole c PL O from ff to tf x (conj Ff Bf) (conj Ft Bt) ltac:(lia) H). Qed.

Lemma step_nearly name inner w from x fwd r : let c := VolCal name inner w in
  finite_weights c -> proper (exact c) -> (nesting c <= 1000)%nat -> finite x -> Rabs (real x) <= 1048576 ->
  nleb (nlit 1 1000000000000) w = true ->
  step_partial c from x fwd = Ok r ->
  exists k : nat, r = (from + dir_of fwd * Z.of_nat k)%Z /\
    forall j, Rabs (distance (weight (exact c)) (dir_of fwd) from k - Rabs (real x))
      <= Rabs (distance (weight (exact c)) (dir_of fwd) from j - Rabs (real x))
         + (20 + 36 * INR (nesting c)) * bpow radix2 (-53) * (INR k + 1 + Rabs (real x)).
Proof.
  intros c FW P NS Fx Bx Hw H. destruct (step_near name inner w from x fwd r FW P NS Fx Bx Hw H) as (k & -> & N). exists k. split; [reflexivity|].
  intros j. eapply Rle_trans; [apply (N j)|]. unfold level, uu. fold c. right. ring.
Qed.

Lemma step_panics_near name inner w from x fwd : let c := VolCal name inner w in
  finite_weights c -> proper (exact c) -> (nesting c <= 1000)%nat -> finite x -> Rabs (real x) <= 1048576 ->
  nleb (nlit 1 1000000000000) w = true ->
  step_partial c from x fwd = Panic "steps_needed >= -1.0" ->
  exists k : nat, Rabs (distance (weight (exact c)) (dir_of fwd) from k - Rabs (real x))
    <= (20 + 36 * INR (nesting c)) * bpow radix2 (-53) * (INR k + 1 + Rabs (real x)).
Proof.
  intros c FW P NS Fx Bx Hw H. destruct (step_panic_cause name inner w from x fwd FW P NS Fx Bx Hw H) as (k & N). exists k.
  eapply Rle_trans; [apply N|]. unfold level, uu. fold c. right. ring.
Qed.

(** A weekday calendar with a holiday weight of 0.3. *)
Definition three_tenths : calendar F64 := VolCal "V" Weekday (nlit 3 10).

Lemma count_is_no_step : exists x, count_business_days three_tenths 11%Z n0 27%Z (nlit 6 10) = Ok x /\
  step_partial three_tenths 7%Z x true = Panic "steps_needed >= -1.0".
Proof. eexists. split; [reflexivity|]. vm_compute. reflexivity. Qed.

Lemma lit_real p q : (Z.abs p <= 1000)%Z -> (0 < q <= 1000)%Z -> (0 <= p <= q)%Z ->
  finite (nlit p q) /\ real (nlit p q) = rnd (IZR p / IZR q) /\ 0 <= real (nlit p q) <= 1.
Proof.
  intros Lp Lq PQ. unfold nlit. destruct (ofZ_exact p ltac:(lia)) as [F1 R1], (ofZ_exact q ltac:(lia)) as [F2 R2].
  assert (Q : 0 < IZR q) by (apply IZR_lt; lia). assert (P0 : 0 <= IZR p <= IZR q) by (split; apply IZR_le; lia).
  assert (U : 0 <= IZR p / IZR q <= 1).
  { split; [apply Rmult_le_pos; [lra|left; now apply Rinv_0_lt_compat]|]. apply (Rmult_le_reg_r (IZR q)); [exact Q|]. unfold Rdiv. rewrite Rmult_assoc, Rinv_l; lra. }
  assert (IR : in_range (real (nofZ p) / real (nofZ q))).
  { rewrite R1, R2. apply (bound_in_range _ 0); [lia|]. rewrite Rabs_right by lra. change (bpow radix2 0) with 1. lra. }
  destruct (div_spec (nofZ p) (nofZ q) F1 F2 ltac:(lra) IR) as [F R]. split; [exact F|]. rewrite R, R1, R2. split; [reflexivity|]. now apply rnd_unit.
Qed.

Lemma three_tenths_proper : finite_weights three_tenths /\ proper (exact three_tenths) /\ nleb (nlit 1 1000000000000) (nlit 3 10 : F64) = true.
Proof.
  destruct (lit_real 3 10) as (F & _ & B); [lia..|]. split; [split; [exact F|exact I]|]. split; [split; [exact I|exact B]|]. vm_compute. reflexivity.
Qed.

(** A surface with one flat smile, based on a Thursday; the forward volatility from a Monday to a Wednesday in sixteen days. *)
Lemma forward_variance_panics (TR : Trans F64) : exists (f : linear F64 Z) v,
  linear_new [(0, nofZ 100); (1000, nofZ 100)]%Z Flat Flat = Ok f /\
  vbp_new F_nan [(mkDDF 100%Z n0, FlatSmile (nlit 1 4))] three_tenths (mkDDF 7%Z n0) f f NoCashDivs = Ok v /\
  forall strikes, forward_variances F_nan (VolByProbability v) (mkDDF 11%Z n0) (mkDDF 27%Z (nlit 6 10)) strikes = Panic "steps_needed >= -1.0".
Proof. eexists _, _. split; [vm_compute; reflexivity|]. split; [vm_compute; reflexivity|]. intros strikes. vm_compute. reflexivity. Qed.

Lemma rolled_surface_panics (TR : Trans F64) : exists s,
  time_modify RollingExpiryDynamics (FlatVolSurface (nlit 1 4) three_tenths (mkDDF 7%Z n0)) 25%Z = Ok s /\
  forall nan ks, volatilities nan s (mkDDF 26%Z n0) ks = Panic "steps_needed >= -1.0".
Proof. eexists. split; [vm_compute; reflexivity|]. intros nan ks. vm_compute. reflexivity. Qed.
