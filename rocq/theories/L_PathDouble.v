(** Rounding errors along Monte-Carlo paths. *)
From Coq Require Import ZArith List String Reals Lra Lia Psatz.
From Coq.Floats Require Import SpecFloat.
From Flocq Require Import Core BinarySingleNaN.
From Verif Require L_PriceDouble L_Vol.
From Verif Require Import Prelude Num L_Num M_Dates M_Calendar M_Curves M_Fixings M_Forward M_Vol M_Instruments M_Deps M_Risk M_Reports M_MonteCarlo
  S_Double S_Instruments S_MonteCarlo S_SumDouble S_PathDouble L_Double L_DoubleError L_SumDouble L_Paths.
Import ListNotations.
Open Scope list_scope.
Open Scope R_scope.

Lemma growth_of c n : 0 <= c -> INR n * c <= / 2 -> (1 + c) ^ n <= 1 + 2 * INR n * c.
Proof.
  intros C. induction n as [|n IH]; intros H.
  - cbn. lra.
  - rewrite S_INR in *. specialize (IH ltac:(lra)). pose proof (pos_INR n).
    cbn [pow]. apply Rle_trans with ((1 + c) * (1 + 2 * INR n * c)); [apply Rmult_le_compat_l; lra|].
    assert (0 <= INR n * c) by (apply Rmult_le_pos; lra). nra.
Qed.

Definition rate : R := 1 + 9 * uu.
Lemma rate_ge n : 1 <= rate ^ n.
Proof. apply pow_R1_Rle. unfold rate. pose proof uu_small. lra. Qed.
Lemma rate_le n : (Z.of_nat n <= 2 ^ 41)%Z -> rate ^ n <= 1 + 18 * INR n * uu /\ INR n * uu <= / 4000.
Proof.
  intros N. pose proof uu_small as [U V]. assert (B : INR n * uu <= / 4000).
  { rewrite INR_IZR_INZ. apply IZR_le in N. change (IZR (2 ^ 41)) with 2199023255552 in N.
    apply Rle_trans with (2199023255552 * / 9007199254740992); [|lra]. apply Rmult_le_compat; [rewrite <- INR_IZR_INZ; apply pos_INR|lra|exact N|exact V]. }
  split; [|exact B]. unfold rate. eapply Rle_trans; [apply growth_of; lra|]. right. ring.
Qed.

(** The standard deviation of a step. *)
Lemma sigma_double (var prev : F64) n : of_size 400 var -> of_size 400 prev -> let g := real var - real prev in (g = 0 \/ bpow radix2 (-900) <= g) ->
  (1 <= n)%nat -> (Z.of_nat n <= 2 ^ 40)%Z ->
  let q := ndiv (nsub var prev) (nofZ (Z.of_nat n)) in
  finite (nsqrt q) /\ Rabs (real (nsqrt q) - sqrt (g / INR n)) <= 4 * uu * sqrt (g / INR n) /\ sqrt (g / INR n) <= bpow radix2 401.
Proof.
  intros [FV BV] [FP BP] g HG N1 N2 q. pose proof uu_small as [U1 U2]. pose proof tiny_small as [T1 T2].
  assert (GB : Rabs g <= bpow radix2 401).
  { unfold g, Rminus. change 401%Z with (1 + 400)%Z. rewrite bpow_plus. change (bpow radix2 1) with 2. eapply Rle_trans; [apply Rabs_triang|]. rewrite Rabs_Ropp. lra. }
  destruct (sub_spec var prev FV FP (bound_in_range _ 401 ltac:(lia) GB)) as [FD RD]. fold g in RD.
  destruct (rnd_diff_error (real var) (real prev)) as (e1 & E1 & X1); [now apply finite_format..|]. fold g in X1. rewrite X1 in RD.
  destruct (ofZ_exact (Z.of_nat n)) as [FN RN]; [rewrite Z.abs_eq by lia; lia|]. rewrite <- INR_IZR_INZ in RN.
  assert (NP : 1 <= INR n) by (change 1 with (INR 1); now apply le_INR).
  assert (NB : INR n <= bpow radix2 40) by (rewrite INR_IZR_INZ; change (bpow radix2 40) with (IZR (2 ^ 40)); now apply IZR_le).
  assert (INV : 0 < / INR n <= 1) by (split; [apply Rinv_0_lt_compat; lra|rewrite <- Rinv_1; apply Rinv_le_contravar; lra]).
  assert (G0 : 0 <= g) by (destruct HG as [->|H]; [lra|pose proof (bpow_gt_0 radix2 (-900)); lra]). rewrite (Rabs_right g) in GB by lra.
  apply Rabs_le_inv in E1.
  assert (QR : 0 <= real (nsub var prev) / INR n <= bpow radix2 402).
  { rewrite RD. change 402%Z with (1 + 401)%Z. rewrite bpow_plus. change (bpow radix2 1) with 2. unfold Rdiv. split; [apply Rmult_le_pos; nra|].
    apply Rle_trans with (g * (1 + e1) * 1); [apply Rmult_le_compat_l; nra|]. nra. }
  destruct (div_spec (nsub var prev) (nofZ (Z.of_nat n)) FD FN) as [FQ RQ]; [rewrite RN; lra|rewrite RN; apply (bound_in_range _ 402); [lia|rewrite Rabs_right; lra]|].
  fold q in FQ, RQ. rewrite RN in RQ.
  assert (Q0 : 0 <= real q) by (rewrite RQ, <- rnd_0; apply rnd_le; lra).
  destruct (L_PriceDouble.sqrt_real q FQ Q0) as [FS RS]. split; [exact FS|].
  assert (GN : 0 <= g / INR n <= bpow radix2 401) by (unfold Rdiv; split; [apply Rmult_le_pos; lra|apply Rle_trans with (g * 1); [apply Rmult_le_compat_l; lra|lra]]).
  assert (SB : sqrt (g / INR n) <= bpow radix2 401).
  { assert (1 <= bpow radix2 401) by (change 1 with (bpow radix2 0); apply bpow_le; lia). apply Rsqr_incr_0_var; [|lra]. rewrite Rsqr_sqrt by lra. unfold Rsqr. nra. }
  split; [|exact SB]. destruct HG as [Z|H].
  - rewrite Z in *. assert (R0 : real q = 0) by (rewrite RQ, RD; replace (0 * (1 + e1) / INR n) with 0 by (field; lra); apply rnd_0).
    rewrite RS, R0. replace (0 / INR n) with 0 by (field; lra). rewrite sqrt_0, rnd_0, Rminus_0_r, Rabs_R0. lra.
  - set (y := g / INR n) in *. assert (YL : bpow radix2 (-940) <= y).
    { unfold y, Rdiv. change (-940)%Z with (-900 + -40)%Z. rewrite bpow_plus. apply Rmult_le_compat; [apply bpow_ge_0..|exact H|]. change (bpow radix2 (-40)) with (/ bpow radix2 40). apply Rinv_le_contravar; lra. }
    assert (Y0 : 0 < y) by (pose proof (bpow_gt_0 radix2 (-940)); lra).
    assert (TY : tiny <= / 100 * (uu * y)).
    { apply Rle_trans with (bpow radix2 (-10) * (uu * bpow radix2 (-940))); [unfold tiny, uu; rewrite <- !bpow_plus; apply bpow_le; lia|].
      change (bpow radix2 (-10)) with (/ 1024). apply Rmult_le_compat; [lra|apply Rmult_le_pos; [lra|apply bpow_ge_0]|lra|apply Rmult_le_compat_l; lra]. }
    destruct (rnd_error (real (nsub var prev) / INR n)) as (e2 & h2 & E2 & H2 & X2). rewrite X2, RD in RQ.
    assert (DQ : Rabs (real q - y) <= 22 / 10 * (uu * y)).
    { rewrite RQ. replace (g * (1 + e1) / INR n * (1 + e2) + h2 - y) with (y * (e1 + e2 + e1 * e2) + h2) by (unfold y; field; lra).
      eapply Rle_trans; [apply Rabs_triang|]. apply Rabs_le_inv in E2.
      assert (Rabs (y * (e1 + e2 + e1 * e2)) <= y * (21 / 10 * uu)). { rewrite Rabs_mult, (Rabs_right y) by lra. apply Rmult_le_compat_l; [lra|]. apply Rabs_le. nra. }
      assert (0 <= uu * y) by nra. lra. }
    set (r := sqrt y) in *. assert (R2 : r * r = y) by (apply sqrt_sqrt; lra). assert (R0 : 0 < r) by (apply sqrt_lt_R0; lra).
    set (s := sqrt (real q)) in *. assert (S2 : s * s = real q) by (apply sqrt_sqrt; lra). assert (S0 : 0 <= s) by apply sqrt_pos.
    assert (DS : Rabs (s - r) <= 22 / 10 * (uu * r)).
    { apply (Rmult_le_reg_r r); [exact R0|]. apply Rle_trans with (Rabs (s - r) * (s + r)).
      - apply Rmult_le_compat_l; [apply Rabs_pos|lra].
      - rewrite <- (Rabs_right (s + r)) by lra. rewrite <- Rabs_mult. replace ((s - r) * (s + r)) with (real q - y) by (rewrite <- R2, <- S2; ring).
        eapply Rle_trans; [exact DQ|]. rewrite <- R2. right. ring. }
    destruct (rnd_error s) as (e3 & h3 & E3 & H3 & X3). rewrite RS, X3. apply Rabs_le_inv in DS, E3.
    assert (RL : bpow radix2 (-470) <= r).
    { apply Rsqr_incr_0_var; [|lra]. unfold Rsqr. rewrite R2, <- bpow_plus. exact YL. }
    assert (TR : tiny <= / 100 * (uu * r)).
    { apply Rle_trans with (bpow radix2 (-10) * (uu * bpow radix2 (-470))); [unfold tiny, uu; rewrite <- !bpow_plus; apply bpow_le; lia|].
      change (bpow radix2 (-10)) with (/ 1024). apply Rmult_le_compat; [lra|apply Rmult_le_pos; [lra|apply bpow_ge_0]|lra|apply Rmult_le_compat_l; lra]. }
    apply Rabs_le_inv in H3. assert (UR : 0 <= uu * r) by nra. assert (SR : 0 <= s <= 11 / 10 * r) by nra.
    assert (- (11 / 10 * (uu * r)) <= s * e3 <= 11 / 10 * (uu * r)) by nra. apply Rabs_le. lra.
Qed.

(** One step. *)
Definition near (p' : F64) (p m : R) (k : nat) : Prop := finite p' /\ 1 <= m /\ Rabs p <= m /\ Rabs (real p' - p) <= (rate ^ k - 1) * m.

Lemma near_bound p' p m k : near p' p m k -> Rabs (real p') <= rate ^ k * m.
Proof. intros (_ & M & P & D). replace (real p') with (p + (real p' - p)) by ring. eapply Rle_trans; [apply Rabs_triang|]. lra. Qed.

Lemma step_near p' p m k (g s' : F64) s : near p' p m k -> finite g -> finite s' -> 0 <= s -> Rabs (real s' - s) <= 4 * uu * s ->
  (Z.of_nat k <= 2 ^ 41)%Z -> m * (1 + Rabs (real g) * s) <= bpow radix2 500 ->
  near (nmul p' (nadd n1 (nmul g s'))) (p * (1 + real g * s)) (m * (1 + Rabs (real g) * s)) (S k).
Proof.
  intros NP FG FS S0 DS K B. pose proof (near_bound _ _ _ _ NP) as PB. destruct NP as (FP & M & P & D). pose proof uu_small as [U1 U2]. pose proof tiny_small as [T1 T2].
  destruct (rate_le k K) as [R1 R2]. pose proof (rate_ge k) as R3. destruct one_spec as [F1 RR1].
  pose proof (Rabs_pos (real g)) as G0. set (gs := Rabs (real g) * s) in *. assert (GS : 0 <= gs) by (unfold gs; nra).
  assert (GB : gs <= bpow radix2 500) by nra. assert (BIG : 1 <= bpow radix2 500) by (change 1 with (bpow radix2 0); apply bpow_le; lia).
  assert (DG : Rabs (real g * real s' - real g * s) <= 4 * uu * gs).
  { replace (real g * real s' - real g * s) with (real g * (real s' - s)) by ring. rewrite Rabs_mult. unfold gs. replace (4 * uu * (Rabs (real g) * s)) with (Rabs (real g) * (4 * uu * s)) by ring. apply Rmult_le_compat_l; lra. }
  assert (AG : Rabs (real g * s) = gs) by (unfold gs; rewrite Rabs_mult, (Rabs_right s); lra).
  assert (UG : 0 <= uu * gs) by nra.
  assert (PBG : Rabs (real g * real s') <= gs + 4 * uu * gs) by (replace (real g * real s') with (real g * s + (real g * real s' - real g * s)) by ring; eapply Rle_trans; [apply Rabs_triang|]; lra).
  destruct (mul_spec g s' FG FS) as [FM RM].
  { apply (bound_in_range _ 501); [lia|]. change 501%Z with (1 + 500)%Z. rewrite bpow_plus. change (bpow radix2 1) with 2. nra. }
  destruct (rnd_error (real g * real s')) as (e1 & h1 & E1 & H1 & X1). rewrite X1 in RM.
  assert (D1 : Rabs (real (nmul g s') - real g * s) <= 51 / 10 * (uu * gs) + tiny).
  { rewrite RM. replace (real g * real s' * (1 + e1) + h1 - real g * s) with ((real g * real s' - real g * s) + real g * real s' * e1 + h1) by ring.
    eapply Rle_trans; [apply Rabs_triang|]. apply Rplus_le_compat; [|exact H1]. eapply Rle_trans; [apply Rabs_triang|].
    assert (Rabs (real g * real s' * e1) <= (gs + 4 * uu * gs) * uu) by (apply abs_mult_le; assumption). nra. }
  assert (AM : Rabs (real (nmul g s')) <= gs + 51 / 10 * (uu * gs) + tiny) by (replace (real (nmul g s')) with (real g * s + (real (nmul g s') - real g * s)) by ring; eapply Rle_trans; [apply Rabs_triang|]; lra).
  assert (AS : Rabs (1 + real (nmul g s')) <= 1 + gs + 51 / 10 * (uu * gs) + tiny) by (eapply Rle_trans; [apply Rabs_triang|]; rewrite Rabs_R1; lra).
  destruct (add_spec n1 (nmul g s') F1 FM) as [FA RA].
  { rewrite RR1. apply (bound_in_range _ 502); [lia|]. change 502%Z with (2 + 500)%Z. rewrite bpow_plus. change (bpow radix2 2) with 4. nra. }
  destruct (rnd_sum_error (real n1) (real (nmul g s'))) as (e2 & E2 & X2); [now apply finite_format..|]. rewrite X2, RR1 in RA.
  set (f := 1 + real g * s) in *. set (mf := 1 + gs) in *. set (f' := nadd n1 (nmul g s')) in *.
  assert (MF : 1 <= mf) by (unfold mf; lra).
  assert (DF : Rabs (real f' - f) <= 7 * uu * mf).
  { rewrite RA. replace ((1 + real (nmul g s')) * (1 + e2) - f) with ((real (nmul g s') - real g * s) + (1 + real (nmul g s')) * e2) by (unfold f; ring).
    eapply Rle_trans; [apply Rabs_triang|]. assert (Rabs ((1 + real (nmul g s')) * e2) <= (1 + gs + 51 / 10 * (uu * gs) + tiny) * uu) by (apply abs_mult_le; assumption).
    assert ((51 / 10 * (uu * gs) + tiny) * uu <= / 10 * (uu * gs) + tiny) by nra. unfold mf. lra. }
  assert (FB : Rabs f <= mf) by (unfold f, mf; eapply Rle_trans; [apply Rabs_triang|]; rewrite Rabs_R1; lra).
  assert (FB' : Rabs (real f') <= mf * (1 + 7 * uu)) by (replace (real f') with (f + (real f' - f)) by ring; eapply Rle_trans; [apply Rabs_triang|]; lra).
  clearbody f mf f'. clear - FP FA FB FB' DF MF M P D PB B R1 R2 R3 U1 U2 T1 T2 BIG.
  set (A := rate ^ k) in *. assert (A2 : A <= 2) by (assert (0 <= INR k * uu) by (pose proof (pos_INR k); nra); lra).
  assert (MM : 1 <= m * mf) by nra.
  assert (PF : Rabs (real p' * real f') <= A * (m * mf) * (1 + 7 * uu)).
  { replace (A * (m * mf) * (1 + 7 * uu)) with ((A * m) * (mf * (1 + 7 * uu))) by ring. apply abs_mult_le; assumption. }
  destruct (mul_spec p' f' FP FA) as [FR RR].
  { apply (bound_in_range _ 502); [lia|]. change 502%Z with (2 + 500)%Z. rewrite bpow_plus. change (bpow radix2 2) with 4. eapply Rle_trans; [exact PF|].
    apply Rle_trans with (2 * (m * mf) * (1 + 7 * uu)); [apply Rmult_le_compat_r; [lra|]; apply Rmult_le_compat_r; lra|]. nra. }
  split; [exact FR|]. split; [exact MM|]. split; [apply abs_mult_le; assumption|].
  destruct (rnd_error (real p' * real f')) as (e & h & E & H & X). rewrite RR, X.
  replace (real p' * real f' * (1 + e) + h - p * f) with ((real p' - p) * real f' + p * (real f' - f) + real p' * real f' * e + h) by ring.
  assert (I1 : Rabs ((real p' - p) * real f') <= ((A - 1) * m) * (mf * (1 + 7 * uu))) by (apply abs_mult_le; assumption).
  assert (I2 : Rabs (p * (real f' - f)) <= m * (7 * uu * mf)) by (apply abs_mult_le; assumption).
  assert (I3 : Rabs (real p' * real f' * e) <= A * (m * mf) * (1 + 7 * uu) * uu) by (apply abs_mult_le; assumption).
  eapply Rle_trans; [apply Rabs_triang|]. apply Rle_trans with (((A - 1) * m) * (mf * (1 + 7 * uu)) + m * (7 * uu * mf) + A * (m * mf) * (1 + 7 * uu) * uu + tiny).
  - apply Rplus_le_compat; [|exact H]. eapply Rle_trans; [apply Rabs_triang|]. apply Rplus_le_compat; [|exact I3]. eapply Rle_trans; [apply Rabs_triang|]. lra.
  - cbn [pow]. fold A. set (Q := m * mf) in *. replace ((A - 1) * m * (mf * (1 + 7 * uu)) + m * (7 * uu * mf) + A * Q * (1 + 7 * uu) * uu + tiny) with (Q * (A * (1 + 7 * uu) * (1 + uu) - 1) + tiny) by (unfold Q; ring).
    assert (TU : tiny <= / 1000 * (uu * Q)) by nra. replace ((rate * A - 1) * Q) with (Q * (A * rate - 1)) by ring. unfold rate.
    assert (A * (1 + 7 * uu) * (1 + uu) + / 2 * uu <= A * (1 + 9 * uu)) by nra. nra.
Qed.

(** Several steps. *)
Lemma product_ge1 l : Forall (fun x => 1 <= x) l -> 1 <= product l.
Proof. unfold product. induction 1 as [|x l H _ IH]; cbn [fold_right]; [lra|]. nra. Qed.

Lemma sway_ge1 gs devs n : Forall (fun d => 0 <= d) devs -> 1 <= grown (map Rabs gs) devs n.
Proof.
  intros D. unfold grown. apply product_ge1. apply Forall_forall. intros x I. apply in_map_iff in I. destruct I as ([g d] & <- & I). cbn [fst snd].
  assert (J : In (g, d) (combine (map Rabs gs) devs)). { rewrite <- (firstn_skipn n (combine (map Rabs gs) devs)). apply in_or_app. now left. }
  pose proof (in_combine_r _ _ _ _ J) as J2. apply in_combine_l in J. apply in_map_iff in J. destruct J as (g0 & <- & _). pose proof (Rabs_pos g0). apply (proj1 (Forall_forall _ _) D) in J2. nra.
Qed.

Lemma take_double n s' s : finite s' -> 0 <= s -> Rabs (real s' - s) <= 4 * uu * s -> forall p' p m k gs q' rest,
  take_substeps n s' p' gs = Ok (q', rest) -> near p' p m k -> Forall finite gs -> (Z.of_nat (k + n) <= 2 ^ 41)%Z ->
  m * product (map (fun g => 1 + g * s) (firstn n (map Rabs (map real gs)))) <= bpow radix2 500 ->
  (n <= List.length gs)%nat /\ rest = skipn n gs /\
  near q' (p * product (map (fun g => 1 + g * s) (firstn n (map real gs)))) (m * product (map (fun g => 1 + g * s) (firstn n (map Rabs (map real gs))))) (k + n).
Proof.
  intros FS S0 DS. induction n as [|n IH]; intros p' p m k gs q' rest E NP FG K B; cbn [take_substeps] in E.
  - injection E as <- <-. split; [lia|]. split; [reflexivity|]. rewrite Nat.add_0_r. cbn [firstn map product fold_right]. unfold product. cbn. now rewrite !Rmult_1_r.
  - destruct gs as [|g gs]; [discriminate|]. inversion_clear FG as [|? ? Fg FG']. cbn [firstn map] in *. unfold product in *. cbn [fold_right] in *. rewrite <- Rmult_assoc in B.
    assert (G1 : 1 <= fold_right Rmult 1 (map (fun g => 1 + g * s) (firstn n (map Rabs (map real gs))))).
    { apply product_ge1. apply Forall_forall. intros x I. apply in_map_iff in I. destruct I as (y & <- & I).
      assert (J : In y (map Rabs (map real gs))). { rewrite <- (firstn_skipn n (map Rabs (map real gs))). apply in_or_app. now left. }
      apply in_map_iff in J. destruct J as (z & <- & _). pose proof (Rabs_pos z). nra. }
    assert (MP : 0 <= m * (1 + Rabs (real g) * s)). { destruct NP as (_ & M & _). pose proof (Rabs_pos (real g)). apply Rmult_le_pos; [lra|nra]. }
    assert (ST : near (nmul p' (nadd n1 (nmul g s'))) (p * (1 + real g * s)) (m * (1 + Rabs (real g) * s)) (S k)).
    { apply step_near; auto; [lia|]. eapply Rle_trans; [|exact B]. nra. }
    destruct (IH _ _ _ _ _ _ _ E ST FG' ltac:(lia) B) as (L & -> & NQ). split; [cbn [List.length]; lia|]. split; [reflexivity|].
    rewrite <- !Rmult_assoc. replace (k + S n)%nat with (S k + n)%nat by lia. exact NQ.
Qed.

(** An observation. *)
Lemma observe_double p' p m k (f' d' : F64) f : near p' p m k -> finite f' -> Rabs (real f' - f) <= uu * Rabs f -> finite d' -> Rabs f <= bpow radix2 401 -> Rabs (real d') <= bpow radix2 400 ->
  (Z.of_nat k <= 2 ^ 40)%Z -> m <= bpow radix2 500 ->
  let x := nadd (nmul p' f') d' in
  finite x /\ Rabs (real x - (p * f + real d')) <= 9 * (INR k + 2) * bpow radix2 (-52) * (m * Rabs f) + bpow radix2 (-53) * Rabs (real d') + bpow radix2 (-1074).
Proof.
  intros NP FF DF FD FB DB K MB. cbv zeta. pose proof (near_bound _ _ _ _ NP) as PB. destruct NP as (FP & M & P & D). pose proof uu_small as [U1 U2]. pose proof tiny_small as [T1 T2].
  destruct (rate_le (S k)) as [R1 R2]; [lia|]. rewrite S_INR in *. pose proof (rate_ge k) as R3. pose proof (pos_INR k) as KP. cbn [pow] in R1. set (A := rate ^ k) in *.
  assert (A2 : A <= 2) by (unfold rate in R1; nra).
  pose proof (Rabs_pos f) as F0. set (af := Rabs f) in *. set (Q := m * af) in *. assert (Q0 : 0 <= Q) by (unfold Q; nra).
  assert (QB : Q <= bpow radix2 901) by (unfold Q; change 901%Z with (500 + 401)%Z; rewrite bpow_plus; apply Rmult_le_compat; lra).
  assert (B1 : 1 <= bpow radix2 901) by (change 1 with (bpow radix2 0); apply bpow_le; lia).
  assert (DB' : Rabs (real d') <= bpow radix2 901) by (eapply Rle_trans; [exact DB|apply bpow_le; lia]).
  assert (FA : Rabs (real f') <= af * (1 + uu)) by (replace (real f') with (f + (real f' - f)) by ring; eapply Rle_trans; [apply Rabs_triang|]; fold af; lra).
  assert (PF : Rabs (real p' * real f') <= A * Q * (1 + uu)) by (replace (A * Q * (1 + uu)) with ((A * m) * (af * (1 + uu))) by (unfold Q; ring); apply abs_mult_le; assumption).
  destruct (mul_spec p' f' FP FF) as [FM RM].
  { apply (bound_in_range _ 903); [lia|]. change 903%Z with (2 + 901)%Z. rewrite bpow_plus. change (bpow radix2 2) with 4. eapply Rle_trans; [exact PF|].
    assert (A * Q <= 2 * Q) by (apply Rmult_le_compat_r; lra). apply Rle_trans with (2 * Q * 2); [apply Rmult_le_compat; [apply Rmult_le_pos|..]|]; lra. }
  destruct (rnd_error (real p' * real f')) as (e & h & E & H & X). rewrite X in RM.
  assert (DM : Rabs (real (nmul p' f') - p * f) <= 18 * (INR k + 1) * uu * Q + tiny).
  { rewrite RM. replace (real p' * real f' * (1 + e) + h - p * f) with ((real p' - p) * real f' + p * (real f' - f) + real p' * real f' * e + h) by ring.
    assert (I1 : Rabs ((real p' - p) * real f') <= ((A - 1) * m) * (af * (1 + uu))) by (apply abs_mult_le; assumption).
    assert (I2 : Rabs (p * (real f' - f)) <= m * (uu * af)) by (apply abs_mult_le; assumption).
    assert (I3 : Rabs (real p' * real f' * e) <= A * Q * (1 + uu) * uu) by (apply abs_mult_le; assumption).
    eapply Rle_trans; [apply Rabs_triang|]. apply Rplus_le_compat; [|exact H]. apply Rle_trans with (((A - 1) * m) * (af * (1 + uu)) + m * (uu * af) + A * Q * (1 + uu) * uu).
    - eapply Rle_trans; [apply Rabs_triang|]. apply Rplus_le_compat; [|exact I3]. eapply Rle_trans; [apply Rabs_triang|]. lra.
    - replace ((A - 1) * m * (af * (1 + uu)) + m * (uu * af) + A * Q * (1 + uu) * uu) with ((A * (1 + uu) * (1 + uu) - 1) * Q) by (unfold Q; ring).
      apply Rmult_le_compat_r; [exact Q0|]. unfold rate in R1. nra. }
  assert (PQ : Rabs (p * f) <= Q) by (unfold Q, af; apply abs_mult_le; lra).
  assert (K18 : 18 * (INR k + 1) * uu * Q <= / 100 * Q) by (apply Rmult_le_compat_r; lra).
  assert (AM : Rabs (real (nmul p' f')) <= 11 / 10 * Q + tiny) by (replace (real (nmul p' f')) with (p * f + (real (nmul p' f') - p * f)) by ring; eapply Rle_trans; [apply Rabs_triang|]; lra).
  assert (AZ : Rabs (real (nmul p' f') + real d') <= 11 / 10 * Q + tiny + Rabs (real d')) by (eapply Rle_trans; [apply Rabs_triang|]; lra).
  destruct (add_spec (nmul p' f') d' FM FD) as [FX RX].
  { apply (bound_in_range _ 903); [lia|]. change 903%Z with (2 + 901)%Z. rewrite bpow_plus. change (bpow radix2 2) with 4. lra. }
  destruct (rnd_sum_error (real (nmul p' f')) (real d')) as (e2 & E2 & X2); [now apply finite_format..|]. split; [exact FX|]. rewrite RX, X2.
  replace ((real (nmul p' f') + real d') * (1 + e2) - (p * f + real d')) with ((real (nmul p' f') - p * f) + (real (nmul p' f') + real d') * e2) by ring.
  eapply Rle_trans; [apply Rabs_triang|]. assert (I4 : Rabs ((real (nmul p' f') + real d') * e2) <= (11 / 10 * Q + tiny + Rabs (real d')) * uu) by (apply abs_mult_le; assumption).
  rewrite bpow_52, bpow_1074. change (bpow radix2 (-53)) with uu. assert (0 <= uu * Q) by nra. assert (tiny * uu <= tiny) by nra. lra.
Qed.

Lemma grown_first gs s n devs : (n <= List.length gs)%nat -> grown gs (repeat s n ++ devs) n = product (map (fun g => 1 + g * s) (firstn n gs)).
Proof. intros L. replace n with (n + 0)%nat at 2 by lia. rewrite grown_leg by exact L. unfold grown. cbn. lra. Qed.

(** A walk, leg by leg. *)
Definition leg_close (a : F64 * F64) (b : R * R) : Prop :=
  finite (fst a) /\ Rabs (real (fst a) - fst b) <= uu * Rabs (fst b) /\ finite (snd a) /\ real (snd a) = snd b /\ Rabs (fst b) <= bpow radix2 401 /\ Rabs (snd b) <= bpow radix2 400.
Definition dev_close (s' : F64) (s : R) : Prop := finite s' /\ 0 <= s /\ Rabs (real s' - s) <= 4 * uu * s.

Lemma devs_nonneg sigmas' sigmas subs : Forall2 dev_close sigmas' sigmas -> Forall (fun d => 0 <= d) (legs_devs sigmas subs).
Proof.
  intros F. unfold legs_devs. apply Forall_forall. intros x I. apply in_concat in I. destruct I as (l & I & J). apply in_map_iff in I. destruct I as ([s n] & <- & I). cbn [fst snd] in J.
  apply repeat_spec in J. subst x. apply in_combine_l in I. clear - F I. induction F as [|a b l m H _ IH]; [destruct I|]. destruct I as [->|I]; [exact (proj1 (proj2 H))|auto].
Qed.

Lemma walk_double sigmas' sigmas : Forall2 dev_close sigmas' sigmas -> forall subs ms' ms p' p m k gs row,
  List.length sigmas = List.length ms -> List.length subs = List.length ms -> Forall2 leg_close ms' ms ->
  walk_path (combine (combine sigmas' subs) ms') p' gs = Ok row -> near p' p m k -> Forall finite gs -> (Z.of_nat (k + list_sum subs) <= 2 ^ 40)%Z ->
  m * sway (map real gs) (legs_devs sigmas subs) (list_sum subs) <= bpow radix2 500 ->
  List.length row = List.length ms /\ forall j, (j < List.length ms)%nat -> exists x, nth_error row j = Some x /\ finite x /\
    let fd := nth j ms (0, 0) in let n := list_sum (firstn (S j) subs) in
    Rabs (real x - (p * grown (map real gs) (legs_devs sigmas subs) n * fst fd + snd fd)) <=
      9 * (INR (k + n) + 2) * bpow radix2 (-52) * (m * sway (map real gs) (legs_devs sigmas subs) n * Rabs (fst fd)) + bpow radix2 (-53) * Rabs (snd fd) + bpow radix2 (-1074).
Proof.
  unfold sway. induction 1 as [|s' s sigmas' sigmas (FS & S0 & DS) F IH]; intros [|n subs] ms' ms p' p m k gs row L1 L2 FM E NP FG K B; cbn [List.length] in *; try lia.
  - destruct ms; [|discriminate]. inversion FM; subst. cbn in E. injection E as <-. split; [reflexivity|]. intros j J. cbn in J. lia.
  - destruct ms as [|[f d] ms]; [discriminate|]. inversion FM as [|[f' d'] ? ms'0 ? (F1 & F2 & F3 & F4 & F5 & F6) FM']; subst. cbn [fst snd combine walk_path List.length] in *.
    apply bind_ok in E. destruct E as ([q' rest] & ET & E). apply bind_ok in E. destruct E as (row' & EW & E). injection E as <-.
    pose proof (devs_nonneg _ _ subs F) as DN. change (list_sum (n :: subs)) with (n + list_sum subs)%nat in *.
    assert (LD : legs_devs (s :: sigmas) (n :: subs) = repeat s n ++ legs_devs sigmas subs) by reflexivity. rewrite LD in *.
    assert (LG : (n <= List.length gs)%nat).
    { clear - ET. revert p' gs ET. induction n as [|n IHn]; intros p' gs ET; [lia|]. destruct gs; [discriminate|]. apply IHn in ET. cbn [List.length]. lia. }
    rewrite grown_leg in B by (rewrite !map_length; exact LG).
    set (G1 := product (map (fun g => 1 + g * s) (firstn n (map Rabs (map real gs))))) in *.
    assert (SW : 1 <= grown (skipn n (map Rabs (map real gs))) (legs_devs sigmas subs) (list_sum subs)) by (rewrite skipn_map; apply sway_ge1; exact DN).
    assert (G1P : 1 <= G1).
    { apply product_ge1. apply Forall_forall. intros x I. apply in_map_iff in I. destruct I as (y & <- & I).
      assert (J : In y (map Rabs (map real gs))). { rewrite <- (firstn_skipn n (map Rabs (map real gs))). apply in_or_app. now left. }
      apply in_map_iff in J. destruct J as (z & <- & _). pose proof (Rabs_pos z). nra. }
    assert (M0 : 1 <= m) by (destruct NP as (_ & M & _); exact M).
    assert (B1 : m * G1 <= bpow radix2 500) by (rewrite <- Rmult_assoc in B; eapply Rle_trans; [|exact B]; apply Rle_trans with (m * G1 * 1); [lra|]; apply Rmult_le_compat_l; [apply Rmult_le_pos; lra|exact SW]).
    destruct (take_double n s' s FS S0 DS p' p m k gs q' rest ET NP FG ltac:(lia) B1) as (_ & -> & NQ). fold G1 in NQ.
    assert (RS : map real (skipn n gs) = skipn n (map real gs)) by (symmetry; apply skipn_map).
    assert (FG' : Forall finite (skipn n gs)). { apply Forall_forall. intros x I. apply (proj1 (Forall_forall _ _) FG). rewrite <- (firstn_skipn n gs). apply in_or_app. now right. }
    destruct (IH subs ms'0 ms q' _ _ (k + n)%nat (skipn n gs) row' ltac:(lia) ltac:(lia) FM' EW NQ FG') as [LR HJ].
    { lia. } { rewrite RS, <- skipn_map, Rmult_assoc. exact B. }
    split; [cbn [List.length]; lia|]. intros [|j] J.
    + cbn [nth_error nth firstn]. eexists. split; [reflexivity|]. change (list_sum [n]) with (n + 0)%nat. rewrite Nat.add_0_r, !grown_first by (rewrite ?map_length; exact LG). fold G1. cbn [fst snd].
      subst d. apply (observe_double q' _ _ (k + n) f' d' f NQ F1 F2 F3 F5 F6); [lia|exact B1].
    + cbn [nth_error nth]. destruct (HJ j ltac:(cbn in J; lia)) as (x & X1 & X2 & X3). exists x. split; [exact X1|]. split; [exact X2|].
      change (firstn (S (S j)) (n :: subs)) with (n :: firstn (S j) subs). change (list_sum (n :: ?l)) with (n + list_sum l)%nat. cbv zeta in *.
      rewrite RS, <- skipn_map in X3. rewrite !grown_leg by (rewrite ?map_length; exact LG). fold G1. rewrite Nat.add_assoc, <- !Rmult_assoc. rewrite <- !Rmult_assoc in X3. exact X3.
Qed.

(** The marks and the deviations. *)
Lemma quotes_spec (TR : Trans F64) nan curve surface obs ms : fetch_marks nan curve surface obs = Ok ms ->
  exists quotes, quoted nan curve surface obs quotes /\ ms = map (fun q => (nsub (fst (fst q)) (snd q), snd (fst q), snd q)) quotes.
Proof.
  unfold fetch_marks, quoted. revert ms. induction obs as [|o obs IH]; intros ms E; cbn [mapM] in E.
  - injection E as <-. exists []. split; [constructor|reflexivity].
  - inv_bind E. inv_bind E. injection E as <-. match goal with H : mapM _ obs = Ok _ |- _ => destruct (IH _ H) as (quotes & M & ->); clear H end.
    match goal with H : bind _ _ = Ok _ |- _ => inv_bind H; inv_bind H; inv_bind H; injection H as <- end.
    match goal with F : forward_at _ _ _ = Ok ?f, V : variance _ _ _ _ = Ok ?v, D : displacement _ _ _ = Ok ?d |- _ => exists ((f, v, d) :: quotes) end.
    split; [constructor; [cbn; auto|exact M]|reflexivity].
Qed.

Lemma size_sum (subs : list nat) n : In n subs -> (n <= list_sum subs)%nat.
Proof. induction subs as [|a l IH]; [intros []|]. intros [->|I]; change (list_sum (?a :: ?b)) with (a + list_sum b)%nat; [lia|]. specialize (IH I). lia. Qed.

Lemma sigmas_double quotes : forall prev subs sigmas', List.length subs = List.length quotes -> of_size 400 prev ->
  Forall (fun q => of_size 400 (fst (fst q)) /\ of_size 400 (snd (fst q)) /\ of_size 400 (snd q)) quotes ->
  Forall (fun g => g = 0 \/ bpow radix2 (-900) <= g) (gained (real prev) (map exact_mark quotes)) ->
  Forall (fun n => (1 <= n)%nat) subs -> (Z.of_nat (list_sum subs) <= 2 ^ 40)%Z ->
  fetch_sigmas prev (map (fun q => snd (fst q)) quotes) subs = Ok sigmas' ->
  Forall2 dev_close sigmas' (map (fun gn => sqrt (fst gn / INR (snd gn))) (combine (gained (real prev) (map exact_mark quotes)) subs)).
Proof.
  induction quotes as [|[[f v] d] quotes IH]; intros prev [|n subs] sigmas' L HP HQ HG HN HS E; cbn [List.length] in L; try discriminate.
  - injection E as <-. constructor.
  - cbn [map fetch_sigmas fst snd gained combine exact_mark mk_variance] in *. inv_bind E. inv_bind E. injection E as <-.
    inversion_clear HQ as [|? ? (Q1 & Q2 & Q3) HQ']. inversion_clear HG as [|? ? G HG']. inversion_clear HN as [|? ? N1 HN'].
    change (list_sum (n :: subs)) with (n + list_sum subs)%nat in HS. constructor.
    + destruct (sigma_double v prev n Q2 HP G N1) as (A & B & C); [lia|]. split; [exact A|]. split; [apply sqrt_pos|exact B].
    + apply IH; auto; try lia.
Qed.

Lemma leg_double q : of_size 400 (fst (fst q)) /\ of_size 400 (snd (fst q)) /\ of_size 400 (snd q) ->
  leg_close (nsub (fst (fst q)) (snd q), snd q) (mk_forward (exact_mark q) - mk_displacement (exact_mark q), mk_displacement (exact_mark q)).
Proof.
  destruct q as [[f v] d]. cbn [fst snd exact_mark mk_forward mk_displacement]. intros ([FF BF] & _ & [FD BD]).
  assert (B : Rabs (real f - real d) <= bpow radix2 401).
  { unfold Rminus. change 401%Z with (1 + 400)%Z. rewrite bpow_plus. change (bpow radix2 1) with 2. eapply Rle_trans; [apply Rabs_triang|]. rewrite Rabs_Ropp. lra. }
  destruct (sub_spec f d FF FD (bound_in_range _ 401 ltac:(lia) B)) as [F R]. split; [exact F|]. cbn [fst snd]. split; [|auto].
  destruct (rnd_diff_error (real f) (real d)) as (e & E & X); [now apply finite_format..|]. rewrite R, X.
  replace ((real f - real d) * (1 + e) - (real f - real d)) with (e * (real f - real d)) by ring. rewrite Rabs_mult. apply Rmult_le_compat_r; [apply Rabs_pos|exact E].
Qed.

Lemma n1_near : near n1 1 1 0.
Proof. destruct one_spec as [F R]. split; [exact F|]. rewrite R. cbn [pow]. rewrite Rabs_R1, Rminus_eq_0, Rabs_R0. lra. Qed.

(** The paths of an asset. *)
Lemma fetch_double (TR : Trans F64) nan u c obs gaussians subs paths curve surface :
  fetch_path nan u c obs gaussians subs = Ok paths -> List.length subs = List.length obs ->
  ctx_forward_curve c u (last_date obs) = Ok curve -> ctx_vol_surface c u (last_date obs) (Ok curve) = Ok surface ->
  exists quotes, quoted nan curve surface obs quotes /\
    (ordinary_quotes quotes -> Forall (fun n => (1 <= n)%nat) subs -> (Z.of_nat (list_sum subs) <= 2 ^ 40)%Z ->
     Forall2 (rows_close quotes subs) gaussians paths).
Proof.
  unfold fetch_path. intros E L C S. inv_bind E. inv_bind E. rewrite C in E. cbn [bind] in E. rewrite S in E. cbn [bind] in E. inv_bind E. inv_bind E.
  match goal with H : fetch_marks _ _ _ _ = Ok _ |- _ => apply quotes_spec in H; destruct H as (quotes & Q & ->) end. exists quotes. split; [exact Q|].
  intros [O1 O2] N1 NS. assert (LQ : List.length quotes = List.length obs) by exact (forall2_length _ _ _ Q).
  rewrite map_map in *. cbn [fst snd] in *. try rewrite map_map in E. destruct zero_spec as [F0 R0].
  match goal with H : fetch_sigmas _ _ _ = Ok _ |- _ => rename H into ES end.
  assert (Z0 : of_size 400 n0) by (split; [exact F0|rewrite R0, Rabs_R0; apply bpow_ge_0]).
  assert (O2' : Forall (fun g => g = 0 \/ bpow radix2 (-900) <= g) (gained (real n0) (map exact_mark quotes))) by (rewrite R0; exact O2).
  pose proof (sigmas_double quotes n0 subs _ (eq_trans L (eq_sym LQ)) Z0 O1 O2' N1 NS ES) as ES'. clear ES. rename ES' into ES.
  rewrite R0 in ES. apply L_Vol.mapM_forall2 in E.
  assert (G : forall gs rows, Forall2 (fun g row => walk_path (combine (combine a2 subs) (map (fun x => (nsub (fst (fst x)) (snd x), snd x)) quotes)) n1 g = Ok row) gs rows -> Forall2 (rows_close quotes subs) gs rows).
  { clear - ES O1 N1 NS L LQ. induction 1 as [|g row gs rows W _ IH]; constructor; [|exact IH]. clear IH. intros FG B. set (marks := map exact_mark quotes) in *.
    set (ms := map (fun m => (mk_forward m - mk_displacement m, mk_displacement m)) marks).
    assert (LM : List.length marks = List.length quotes) by (unfold marks; apply map_length).
    assert (LG : forall b l, List.length (gained b l) = List.length l) by (intros b l; revert b; induction l as [|x l IH]; intros b; cbn; [reflexivity|now rewrite IH]).
    pose proof (walk_double _ _ ES subs (map (fun x => (nsub (fst (fst x)) (snd x), snd x)) quotes) ms n1 1 1 0%nat g row) as H. fold marks in H. rewrite legs_deviations in H. rewrite Rmult_1_l in H.
    assert (HM : List.length ms = List.length quotes) by (unfold ms; now rewrite map_length).
    destruct H as [H1 H2].
    - rewrite map_length, combine_length, LG, HM, LM. lia.
    - rewrite HM. lia.
    - unfold ms, marks. rewrite map_map. clear - O1. induction O1 as [|q l H _ IH]; constructor; [now apply leg_double|exact IH].
    - exact W.
    - exact n1_near.
    - exact FG.
    - exact NS.
    - exact B.
    - rewrite HM in *. split; [exact H1|]. intros j J. destruct (H2 j J) as (x & X1 & X2 & X3). exists x. split; [exact X1|]. split; [exact X2|].
      set (F := fun m => (mk_forward m - mk_displacement m, mk_displacement m)) in *.
      assert (NT : nth j ms (0, 0) = F (nth j marks (mkMark 0 0 0))).
      { unfold ms. rewrite (nth_indep _ (0, 0) (F (mkMark 0 0 0))) by (rewrite map_length; lia). exact (map_nth F marks (mkMark 0 0 0) j). }
      cbv zeta in X3. rewrite NT in X3. unfold F in X3. cbn [fst snd] in X3. rewrite !Rmult_1_l in X3. change (0 + ?n)%nat with n in X3.
      unfold path_error. fold marks. cbv zeta. unfold path_of.
      match goal with |- context [map ?h0 (seq 0 (List.length marks))] => set (h := h0) end.
      assert (NP : nth j (map h (seq 0 (List.length marks))) 0 = h j).
      { rewrite (nth_indep _ 0 (h 0%nat)) by (rewrite map_length, seq_length; lia). rewrite map_nth, seq_nth by lia. reflexivity. }
      rewrite NP. unfold h. cbv zeta. set (m := nth j marks (mkMark 0 0 0)) in *. set (n := list_sum (firstn (Datatypes.S j) subs)) in *.
      rewrite (Rmult_comm (mk_forward m - mk_displacement m)), (Rmult_comm (Rabs (mk_forward m - mk_displacement m))). exact X3. }
  apply G. exact E.
Qed.
