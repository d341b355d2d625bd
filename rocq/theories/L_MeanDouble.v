(** Sums over portfolios and averages over paths, on doubles. *)
From Coq Require Import ZArith List String Reals Lra Lia Psatz Permutation.
From Coq.Floats Require Import SpecFloat.
From Flocq Require Import Core BinarySingleNaN.
From Verif Require L_Pricing.
From Verif Require Import Prelude Num L_Num M_Dates M_Calendar M_Curves M_Fixings M_Forward M_Vol M_Instruments M_Deps M_Risk M_Reports M_MonteCarlo
  S_Double S_Instruments S_MonteCarlo S_SumDouble L_Double L_DoubleError L_SumDouble.
Import ListNotations.
Open Scope list_scope.
Open Scope R_scope.

(** Any arithmetic. *)
Tactic Notation "step" hyp(H) "as" ident(a) ident(E) := apply bind_ok in H; destruct H as (a & E & H).

Section Any.
  Context {T : Type} {N : Num T} {TR : Trans T}.
  Variable nan : T.
  Variable cdf : T -> T.
  Variable visit : smap (instrument T * list (ddf T)) -> smap (instrument T * list (ddf T)).

  Lemma holdings_sum c now l : forall t x, foldM (fun total (h : T * instrument T) => let* y := price nan cdf c (snd h) now in Ok (nadd total (nmul (fst h) y))) t l = Ok x ->
    exists ps, Forall2 (fun h p => price nan cdf c (snd h) now = Ok p) l ps /\ x = sum_in_order t (map (fun q => nmul (fst q) (snd q)) (combine (map fst l) ps)).
  Proof.
    induction l as [|h l IH]; intros t x E; cbn [foldM] in E.
    - injection E as <-. exists []. split; [constructor|reflexivity].
    - step E as a Ha. step Ha as b Hb. injection Ha as <-. destruct (IH _ _ E) as (ps & F & ->). eexists (_ :: ps). split; [constructor; eassumption|reflexivity].
  Qed.

  Lemma self_sum sp x : self_price nan cdf sp = Ok x -> let c := prefetch_context nan (sp_context sp) in
    exists ps, Forall2 (fun h p => price nan cdf c (snd h) (mkDT (ctx_spot_date c) Open_) = Ok p) (sp_instruments sp) ps /\
      x = sum_in_order n0 (map (fun q => nmul (fst q) (snd q)) (combine (map fst (sp_instruments sp)) ps)).
  Proof. intros E. exact (holdings_sum _ _ _ _ _ E). Qed.

  Lemma nsum_in_order (l : list T) : nsum l = sum_in_order n0 l.
  Proof. unfold nsum. generalize (n0 : T). induction l as [|a l IH]; intros t; cbn; [reflexivity|apply IH]. Qed.

  Lemma made_flows draws w v k f md mp : mc_pricer_new nan visit draws [(w, ISpotEuropean v k)] f md = Ok mp ->
    mp_instruments mp = [(w, ISpotEuropean v k)] /\ bd_flows (mp_model mp) = [expiry_flow v] /\ bd_n_paths (mp_model mp) = df_n_paths f /\ (0 < df_n_paths f)%nat.
  Proof.
    unfold mc_pricer_new. intros E. step E as a Ha. destruct a as [deps t]. step E as a0 Ha0. step E as a1 Ha1. injection E as <-. cbn [mp_instruments mp_model]. split; [reflexivity|].
    unfold mc_portfolio in Ha. cbn [foldM fst snd] in Ha. step Ha as a2 Ha2. injection Ha as ->. step Ha2 as b Hb. step Ha2 as b3 Ha3. injection Ha2 as <- <-. cbn [mc_dependencies] in Ha3. injection Ha3 as <-.
    unfold diffusion_new in Ha1. step Ha1 as c1 H1. step Ha1 as c2 H2. step Ha1 as c3 H3. injection Ha1 as <-. cbn [bd_flows bd_n_paths]. split; [reflexivity|]. split; [reflexivity|].
    unfold fetch_gaussians in H2. step H2 as g1 G1. step H2 as g2 G2. step H2 as g3 G3. apply Nat.ltb_lt. clear - G1 G2 G3.
    match goal with |- ?b = true => destruct b; [reflexivity|discriminate] end.
  Qed.

  Lemma option_mean mp w v k x : mp_instruments mp = [(w, ISpotEuropean v k)] -> bd_flows (mp_model mp) = [expiry_flow v] -> mc_pricer_price nan cdf mp = Ok x ->
    exists spots value, let c := prefetch_context nan (bd_context (mp_model mp)) in
      mc_paths (mp_model mp) (van_underlying v) = Ok (map (fun s => [s]) spots) /\ List.length spots = bd_n_paths (mp_model mp) /\
      price nan cdf c (expiry_flow v) (mkDT (ctx_spot_date c) Open_) = Ok value /\
      x = nadd n0 (nmul w (nadd n0 (nmul (ndiv (sum_in_order n0 (map (fun s => nmax (nmul (option_sign (van_put_or_call v)) (nsub s k)) n0) spots)) (nofZ (Z.of_nat (List.length spots)))) value))).
  Proof.
    intros I F E. unfold mc_pricer_price in E. rewrite I in E. cbn [foldM fst snd] in E. step E as a Ha. injection E as ->. step Ha as b Ha0. injection Ha as <-.
    cbn [mc_price] in Ha0. step Ha0 as a0 Hp. step Ha0 as u1 Ha1. step Ha0 as a2 Ha2. injection Ha0 as <-.
    assert (S : exists spots, a0 = map (fun s => [s]) spots).
    { clear - Ha1. destruct (forallb _ a0) eqn:X; [|discriminate]. clear Ha1. induction a0 as [|p l IH]; [now exists []|]. cbn [forallb] in X. apply Bool.andb_true_iff in X. destruct X as [A B].
      destruct (IH B) as (spots & ->). destruct p as [|s [|? ?]]; try discriminate. now exists (s :: spots). }
    destruct S as (spots & ->). exists spots. unfold evaluate_flows in Ha2. rewrite F in Ha2. step Ha2 as u2 Hu2. step Ha2 as u3 Hu3.
    assert (L : List.length spots = bd_n_paths (mp_model mp)).
    { match goal with H : assert_ (Nat.eqb _ _) _ = Ok _ |- _ => destruct (Nat.eqb _ _) eqn:Q in H; [|discriminate]; apply Nat.eqb_eq in Q; rewrite !map_length in Q; exact Q end. }
    cbn [flow_total] in Ha2. change (is_pure_rates (expiry_flow v)) with true in Ha2. cbv iota zeta in Ha2. step Ha2 as vl Hvl. injection Ha2 as <-. eexists. cbv zeta.
    split; [assumption|]. split; [exact L|]. split; [eassumption|]. rewrite nsum_in_order, !map_map, <- L. reflexivity.
  Qed.
End Any.

(** Doubles. *)
Lemma rnd_finite x : finite x -> rnd (real x) = real x.
Proof. intros F. apply round_generic; [apply valid_rnd_N|now apply finite_format]. Qed.

Lemma add_zero x : finite x -> finite (nadd n0 x) /\ real (nadd n0 x) = real x.
Proof.
  intros F. destruct zero_spec as [F0 R0]. assert (E : real n0 + real x = real x) by (rewrite R0; ring).
  destruct (add_spec n0 x F0 F) as [A B]; [|rewrite E in B; rewrite B; split; [exact A|now apply rnd_finite]].
  rewrite E. unfold in_range. rewrite rnd_finite by exact F. now apply finite_bound.
Qed.

Lemma sign_spec pc : finite (option_sign pc : F64) /\ real (option_sign pc) = match pc with Call => 1 | Put => -1 end.
Proof. destruct pc; (split; [split; reflexivity|]); vm_compute; lra. Qed.

Lemma max_zero x : finite x -> finite (nmax x n0) /\ real (nmax x n0) = Rmax (real x) 0.
Proof.
  intros F. destruct zero_spec as [F0 R0]. unfold nmax. destruct (nltb x n0) eqn:L.
  - apply (ltb_spec x n0 F F0) in L. rewrite R0 in L. split; [exact F0|]. rewrite R0, Rmax_right; lra.
  - assert (E : neqb x x = true) by (apply eqb_spec; auto). rewrite E. split; [exact F|].
    rewrite Rmax_left; [reflexivity|]. apply Rnot_lt_le. intros H. rewrite <- R0 in H. apply (ltb_spec x n0 F F0) in H. congruence.
Qed.

Lemma payoff_spec pc s k : modest s -> modest k ->
  let q := nmax (nmul (option_sign pc) (nsub s k)) n0 in
  finite q /\ Rabs (real q - intrinsic_of pc (real s) (real k)) <= uu * intrinsic_of pc (real s) (real k) /\ 0 <= intrinsic_of pc (real s) (real k).
Proof.
  intros [FS BS] [FK BK]. cbv zeta. destruct (sign_spec pc) as [FG RG]. pose proof uu_small as [U1 U2].
  assert (B : Rabs (real s - real k) <= bpow radix2 1001).
  { change 1001%Z with (1 + 1000)%Z. rewrite bpow_plus. change (bpow radix2 1) with 2. unfold Rminus. eapply Rle_trans; [apply Rabs_triang|]. rewrite Rabs_Ropp. lra. }
  destruct (sub_spec s k FS FK (bound_in_range _ 1001 ltac:(lia) B)) as [FD RD].
  destruct (rnd_diff_error (real s) (real k)) as (e & E & X); [now apply finite_format..|]. rewrite X in RD.
  assert (P : exists y, finite y /\ nmul (option_sign pc) (nsub s k) = y /\ real y = real (option_sign pc) * real (nsub s k)).
  { assert (Y : exists g, generic_format radix2 (FLT_exp (-1074) 53) g /\ g = real (option_sign pc) * real (nsub s k) /\ Rabs g < bpow radix2 1024).
    { eexists. split; [|split; [reflexivity|]]; rewrite RG.
      - destruct pc; [replace (_ * _) with (- real (nsub s k)) by ring; apply generic_format_opp|rewrite Rmult_1_l]; now apply finite_format.
      - rewrite Rabs_mult. replace (Rabs (match pc with Put => -1 | Call => 1 end)) with 1 by (destruct pc; [rewrite Rabs_left; lra|rewrite Rabs_R1; reflexivity]). rewrite Rmult_1_l. now apply finite_bound. }
    destruct Y as (g & G & EG & BG). assert (RGG : rnd g = g) by (apply round_generic; [apply valid_rnd_N|exact G]).
    eexists. split; [|split; [reflexivity|]]; destruct (mul_spec (option_sign pc) (nsub s k) FG FD) as [M1 M2]; try (rewrite <- EG; unfold in_range; rewrite RGG; exact BG); [exact M1|].
    rewrite M2, <- EG. exact RGG. }
  destruct P as (y & FY & -> & RY). destruct (max_zero y FY) as [FM RM]. split; [exact FM|]. rewrite RM, RY, RG, RD. apply Rabs_le_inv in E.
  unfold intrinsic_of. set (z := real s - real k) in *.
  destruct pc.
  - replace (real k - real s) with (- z) by (unfold z; ring). destruct (Rle_lt_dec z 0) as [H|H].
    + rewrite !Rmax_left by nra. split; [|lra]. replace (-1 * (z * (1 + e)) - - z) with ((- z) * e) by ring. rewrite Rabs_mult, (Rabs_right (- z)) by lra. rewrite Rmult_comm. apply Rmult_le_compat_r; [lra|]. apply Rabs_le. lra.
    + rewrite !Rmax_right by nra. split; [|lra]. rewrite Rminus_eq_0, Rabs_R0. lra.
  - destruct (Rle_lt_dec 0 z) as [H|H].
    + rewrite !Rmax_left by nra. split; [|lra]. replace (1 * (z * (1 + e)) - z) with (z * e) by ring. rewrite Rabs_mult, (Rabs_right z) by lra. rewrite Rmult_comm. apply Rmult_le_compat_r; [lra|]. apply Rabs_le. lra.
    + rewrite !Rmax_right by nra. split; [|lra]. rewrite Rminus_eq_0, Rabs_R0. lra.
Qed.

(** A rounded multiple of something near. *)
Lemma scaled a m d v y : Rabs (a - m) <= d -> y = rnd (a * v) -> Rabs (y - m * v) <= Rabs v * (d + uu * (Rabs m + d)) + tiny.
Proof.
  intros D ->. destruct (rnd_error (a * v)) as (e & h & E & H & ->). pose proof (Rabs_pos v) as PV. pose proof uu_small as [U1 _].
  replace (a * v * (1 + e) + h - m * v) with (v * ((a - m) + a * e) + h) by ring.
  eapply Rle_trans; [apply Rabs_triang|]. apply Rplus_le_compat; [|exact H]. rewrite Rabs_mult. apply Rmult_le_compat_l; [exact PV|].
  eapply Rle_trans; [apply Rabs_triang|]. apply Rplus_le_compat; [exact D|]. rewrite Rabs_mult, Rmult_comm.
  assert (Rabs a <= Rabs m + d). { replace a with (m + (a - m)) by ring. eapply Rle_trans; [apply Rabs_triang|]. lra. }
  apply Rmult_le_compat; auto using Rabs_pos.
Qed.

Lemma small_modest x : finite x /\ Rabs (real x) <= bpow radix2 800 -> modest x.
Proof. intros [F B]. split; [exact F|]. eapply Rle_trans; [exact B|]. apply bpow_le. lia. Qed.

Section Mean.
  Variables (pc : put_or_call) (k w value : F64) (spots : list F64).
  Hypotheses (Mk : finite k /\ Rabs (real k) <= bpow radix2 800) (Mw : finite w /\ Rabs (real w) <= bpow radix2 50)
    (Mv : finite value /\ Rabs (real value) <= bpow radix2 50) (Ms : Forall (fun s => finite s /\ Rabs (real s) <= bpow radix2 800) spots).
  Hypotheses (N0 : (0 < List.length spots)%nat) (N1 : (Z.of_nat (List.length spots) <= 2 ^ 50)%Z).

  Notation pay s := (intrinsic_of pc (real s) (real k)).
  Notation q s := (nmax (nmul (option_sign pc) (nsub s k)) n0).
  Let P := total (map (fun s => pay s) spots).

  Lemma pay_bound s : finite s /\ Rabs (real s) <= bpow radix2 800 -> 0 <= pay s <= bpow radix2 801.
  Proof.
    clear - Mk. intros H. destruct (payoff_spec pc s k (small_modest _ H) (small_modest _ Mk)) as (_ & _ & G). split; [exact G|]. change 801%Z with (1 + 800)%Z. rewrite bpow_plus. change (bpow radix2 1) with 2.
    destruct H as [_ H], Mk as [_ K]. apply Rabs_le_inv in H, K. assert (0 < bpow radix2 800) by apply bpow_gt_0. unfold intrinsic_of. destruct pc; apply Rmax_lub; lra.
  Qed.

  Lemma pays_sum : Forall finite (map (fun s => q s) spots) /\ Rabs (total (map real (map (fun s => q s) spots)) - P) <= uu * P /\
    total (map (fun x => Rabs (real x)) (map (fun s => q s) spots)) <= (1 + uu) * P /\ 0 <= P <= INR (List.length spots) * bpow radix2 801.
  Proof.
    unfold P. clear N0 N1. clear P. pose proof uu_small as [U1 _]. pose proof Ms as Ms0. clear Ms. induction Ms0 as [|s l H _ IH].
    - cbn. split; [constructor|]. rewrite Rminus_eq_0, Rabs_R0. lra.
    - destruct IH as (A & B & C & D). destruct (payoff_spec pc s k (small_modest _ H) (small_modest _ Mk)) as (F & E & G). pose proof (pay_bound s H) as [_ PB].
      cbn [List.length]. rewrite S_INR. cbn [map fold_right]. split; [constructor; assumption|]. split; [|split; [|lra]].
      + replace (_ + _ - (_ + _)) with ((real (q s) - pay s) + (total (map real (map (fun s => q s) l)) - total (map (fun s => pay s) l))) by ring.
        eapply Rle_trans; [apply Rabs_triang|]. lra.
      + assert (Rabs (real (q s)) <= pay s + uu * pay s); [|lra]. replace (real (q s)) with (pay s + (real (q s) - pay s)) by ring. eapply Rle_trans; [apply Rabs_triang|]. rewrite (Rabs_right (pay s)) by lra. lra.
  Qed.

  Lemma mean_spec : let x := nadd n0 (nmul w (nadd n0 (nmul (ndiv (sum_in_order n0 (map (fun s => q s) spots)) (nofZ (Z.of_nat (List.length spots)))) value))) in
    let m := mean (map (fun s => pay s) spots) in
    finite x /\ 0 <= m /\ Rabs (real x - real w * (m * real value)) <=
      (INR (List.length spots) + 3) * bpow radix2 (-52) * (Rabs (real w) * (m * Rabs (real value))) + bpow radix2 (-1073) * (Rabs (real w) * Rabs (real value) + Rabs (real w) + 1).
  Proof.
    destruct pays_sum as (FQ & SQ & GQ & P0 & PB). pose proof (few _ N1) as FW. pose proof uu_small as [U1 U2]. pose proof tiny_small as [T1 T2].
    cbv zeta. unfold mean. rewrite map_length. fold P. set (n := INR (List.length spots)) in *.
    assert (NP : 1 <= n) by (unfold n; change 1 with (INR 1); apply le_INR; lia).
    assert (NB : n <= bpow radix2 50). { unfold n. rewrite INR_IZR_INZ. change (bpow radix2 50) with (IZR (2 ^ 50)). apply IZR_le. exact N1. }
    assert (PB' : P <= bpow radix2 851). { eapply Rle_trans; [exact PB|]. change 851%Z with (50 + 801)%Z. rewrite bpow_plus. apply Rmult_le_compat_r; [apply bpow_ge_0|exact NB]. }
    assert (UP : uu * P <= P) by nra.
    assert (B852 : (1 + uu) * P <= bpow radix2 852). { change 852%Z with (1 + 851)%Z. rewrite bpow_plus. change (bpow radix2 1) with 2. lra. }
    destruct (plain_sum (map (fun s => q s) spots) FQ) as [FS ES].
    { rewrite map_length. exact N1. } { eapply Rle_trans; [exact GQ|]. eapply Rle_trans; [exact B852|]. apply bpow_le. lia. }
    rewrite map_length in ES. fold n in ES. set (S := sum_in_order n0 (map (fun s => q s) spots)) in *. clearbody S.
    assert (DS : Rabs (real S - P) <= (2 * n + 5 / 4) * uu * P).
    { replace (real S - P) with ((real S - total (map real (map (fun s => q s) spots))) + (total (map real (map (fun s => q s) spots)) - P)) by ring.
      eapply Rle_trans; [apply Rabs_triang|]. assert (2 * n * uu * total (map (fun x => Rabs (real x)) (map (fun s => q s) spots)) <= 2 * n * uu * ((1 + uu) * P)) by (apply Rmult_le_compat_l; [nra|exact GQ]).
      assert (2 * (n * uu) * (uu * P) <= / 4 * (uu * P)) by (apply Rmult_le_compat_r; [nra|lra]). lra. }
    destruct (ofZ_exact (Z.of_nat (List.length spots))) as [FN RN]; [rewrite Z.abs_eq by lia; lia|]. rewrite <- INR_IZR_INZ in RN. fold n in RN.
    assert (INV : 0 < / n <= 1) by (split; [apply Rinv_0_lt_compat; lra|rewrite <- Rinv_1; apply Rinv_le_contravar; lra]).
    set (m := P / n) in *. assert (M0 : 0 <= m <= P) by (unfold m, Rdiv; split; [apply Rmult_le_pos; lra|rewrite <- (Rmult_1_r P) at 2; apply Rmult_le_compat_l; lra]).
    assert (SB : Rabs (real S) <= bpow radix2 852).
    { replace (real S) with (P + (real S - P)) by ring. eapply Rle_trans; [apply Rabs_triang|]. rewrite (Rabs_right P) by lra. change 852%Z with (1 + 851)%Z. rewrite bpow_plus. change (bpow radix2 1) with 2.
      assert ((2 * (n * uu) + 5 / 4 * uu) * P <= 1 * P) by (apply Rmult_le_compat_r; lra). lra. }
    destruct (div_spec S (nofZ (Z.of_nat (List.length spots))) FS FN) as [FA RA]; [rewrite RN; lra| |].
    { rewrite RN. apply (bound_in_range _ 852); [lia|]. unfold Rdiv. rewrite Rabs_mult, (Rabs_right (/ n)) by lra. rewrite <- (Rmult_1_r (bpow radix2 852)). apply Rmult_le_compat; [apply Rabs_pos|lra|exact SB|lra]. }
    rewrite RN in RA. set (A := ndiv S (nofZ (Z.of_nat (List.length spots)))) in *. clearbody A.
    assert (DA : Rabs (real A - m) <= (2 * n + 26 / 10) * uu * m + tiny).
    { pose proof (scaled _ _ _ (/ n) (real A) DS RA) as E. change (P * / n) with m in E. rewrite (Rabs_right (/ n)), (Rabs_right P) in E by lra. eapply Rle_trans; [exact E|]. apply Rplus_le_compat_r.
      replace (/ n * ((2 * n + 5 / 4) * uu * P + uu * (P + (2 * n + 5 / 4) * uu * P))) with (m * uu * ((2 * n + 5 / 4) + 1 + (2 * (n * uu) + 5 / 4 * uu))) by (unfold m; field; lra).
      replace ((2 * n + 26 / 10) * uu * m) with (m * uu * (2 * n + 26 / 10)) by ring. apply Rmult_le_compat_l; [nra|]. lra. }
    assert (NM : (2 * n + 26 / 10) * uu * m <= 26 / 100 * m) by (apply Rmult_le_compat_r; lra).
    destruct Mv as [FV BV], Mw as [Fw BW]. set (v := real value) in *. pose proof (Rabs_pos v) as PV. pose proof (Rabs_pos (real w)) as PW.
    assert (AB : Rabs (real A) <= bpow radix2 853).
    { replace (real A) with (m + (real A - m)) by ring. eapply Rle_trans; [apply Rabs_triang|]. rewrite (Rabs_right m) by lra.
      assert (1 <= bpow radix2 851) by (change 1 with (bpow radix2 0); apply bpow_le; lia). change 853%Z with (2 + 851)%Z. rewrite bpow_plus. change (bpow radix2 2) with 4. lra. }
    destruct (mul_spec A value FA FV) as [FF RF].
    { apply (bound_in_range _ 903); [lia|]. change 903%Z with (853 + 50)%Z. rewrite bpow_plus. apply abs_mult_le; assumption. }
    destruct (add_zero _ FF) as [FF' RF']. set (F := nadd n0 (nmul A value)) in *. clearbody F. rewrite <- RF' in RF.
    assert (DF : Rabs (real F - m * v) <= (2 * n + 4) * uu * (m * Rabs v) + 2 * (Rabs v * tiny) + tiny).
    { pose proof (scaled _ _ _ v (real F) DA RF) as E. rewrite (Rabs_right m) in E by lra. eapply Rle_trans; [exact E|]. apply Rplus_le_compat_r.
      assert (m + ((2 * n + 26 / 10) * uu * m + tiny) <= 13 / 10 * m + tiny) by lra.
      assert (uu * (m + ((2 * n + 26 / 10) * uu * m + tiny)) <= uu * (13 / 10 * m + tiny)) by (apply Rmult_le_compat_l; lra).
      apply Rle_trans with (Rabs v * ((2 * n + 4) * uu * m + 2 * tiny)); [|right; ring]. apply Rmult_le_compat_l; [exact PV|]. assert (0 <= uu * m) by nra. assert (uu * tiny <= tiny) by nra. lra. }
    assert (NF : (2 * n + 4) * uu * (m * Rabs v) <= 26 / 100 * (m * Rabs v)) by (apply Rmult_le_compat_r; [nra|lra]).
    assert (FB : Rabs (real F) <= bpow radix2 903).
    { rewrite RF. apply rnd_bound; [lia|]. change 903%Z with (853 + 50)%Z. rewrite bpow_plus. apply abs_mult_le; assumption. }
    destruct (mul_spec w F Fw FF') as [FX RX].
    { apply (bound_in_range _ 953); [lia|]. change 953%Z with (50 + 903)%Z. rewrite bpow_plus. apply abs_mult_le; assumption. }
    destruct (add_zero _ FX) as [FX' RX']. split; [exact FX'|]. split; [lra|]. rewrite RX'. rewrite (Rmult_comm (real w) (real F)) in RX.
    pose proof (scaled _ _ _ (real w) _ DF RX) as E. rewrite Rabs_mult, (Rabs_right m) in E by lra. rewrite (Rmult_comm (real w)). eapply Rle_trans; [exact E|].
    rewrite bpow_52. replace (bpow radix2 (-1073)) with (4 * tiny) by (unfold tiny; change (-1073)%Z with (2 + -1075)%Z; rewrite bpow_plus; reflexivity).
    set (mv := m * Rabs v) in *. assert (MV : 0 <= mv) by (unfold mv; nra).
    assert (VT : 0 <= Rabs v * tiny) by nra.
    assert (X1 : uu * (mv + ((2 * n + 4) * uu * mv + 2 * (Rabs v * tiny) + tiny)) <= 13 / 10 * (uu * mv) + (Rabs v * tiny) + tiny).
    { assert (mv + ((2 * n + 4) * uu * mv) <= 13 / 10 * mv) by lra. assert (uu * (mv + ((2 * n + 4) * uu * mv)) <= uu * (13 / 10 * mv)) by (apply Rmult_le_compat_l; lra).
      assert (uu * (2 * (Rabs v * tiny)) <= Rabs v * tiny) by nra. assert (uu * tiny <= tiny) by nra. lra. }
    apply Rle_trans with (Rabs (real w) * ((2 * n + 6) * uu * mv + 3 * (Rabs v * tiny) + 2 * tiny) + tiny).
    - apply Rplus_le_compat_r. apply Rmult_le_compat_l; [exact PW|]. assert (0 <= uu * mv) by nra. lra.
    - assert (0 <= Rabs (real w) * (Rabs v * tiny)) by nra. assert (0 <= Rabs (real w) * tiny) by nra. lra.
  Qed.
End Mean.

(** Portfolios, baskets and averages. *)
Section Pricers.
  Context {TR : Trans F64}.
  Variable nan : F64.
  Variable cdf : F64 -> F64.

  Lemma portfolio_double sp x : self_price nan cdf sp = Ok x -> let c := prefetch_context nan (sp_context sp) in
    exists ps, Forall2 (fun h p => price nan cdf c (snd h) (mkDT (ctx_spot_date c) Open_) = Ok p) (sp_instruments sp) ps /\
      let pairs := combine (map fst (sp_instruments sp)) ps in
      (addable pairs -> finite x /\ Rabs (real x - exact_sum pairs) <= sum_error pairs).
  Proof.
    intros E c. destruct (self_sum nan cdf sp x E) as (ps & F & X). exists ps. split; [exact F|]. intros pairs A. subst x. exact (weighted_sum pairs A).
  Qed.

  Lemma pairs_map (f : instrument F64 -> res F64) l ps : Forall2 (fun (h : F64 * instrument F64) p => f (snd h) = Ok p) l ps ->
    combine (map fst l) ps = map (fun h => (fst h, match f (snd h) with Ok p => p | _ => n0 end)) l.
  Proof. induction 1 as [|h p l ps E _ IH]; cbn; [reflexivity|]. now rewrite E, IH. Qed.

  Lemma order_double context l l' x x' : self_price nan cdf (mkSelfPricer l context) = Ok x -> self_price nan cdf (mkSelfPricer l' context) = Ok x' ->
    Permutation l l' -> let c := prefetch_context nan context in
    exists ps, Forall2 (fun h p => price nan cdf c (snd h) (mkDT (ctx_spot_date c) Open_) = Ok p) l ps /\
      let pairs := combine (map fst l) ps in (addable pairs -> Rabs (real x - real x') <= 2 * sum_error pairs).
  Proof.
    intros E E' P c. destruct (self_sum nan cdf _ x E) as (ps & F & X). destruct (self_sum nan cdf _ x' E') as (ps' & F' & X'). cbn [sp_instruments sp_context] in *.
    exists ps. split; [exact F|]. cbv zeta. intros A. subst x x'. apply weighted_order; [exact A|].
    rewrite (pairs_map (fun i => price nan cdf (prefetch_context nan context) i (mkDT (ctx_spot_date (prefetch_context nan context)) Open_)) l ps F).
    rewrite (pairs_map (fun i => price nan cdf (prefetch_context nan context) i (mkDT (ctx_spot_date (prefetch_context nan context)) Open_)) l' ps' F').
    now apply Permutation_map.
  Qed.

  Lemma basket_double c id cr cur s ms dates l : prices nan cdf c (IBasket id cr cur s ms) dates = Ok l ->
    forall j, (j < List.length dates)%nat -> exists ps x, Forall2 (fun h p => nth_price (fun i => prices nan cdf c i dates) j (snd h) p) ms ps /\ nth_error l j = Some x /\
      let pairs := combine ps (map fst ms) in (addable pairs -> finite x /\ Rabs (real x - exact_sum pairs) <= sum_error pairs).
  Proof.
    intros E j J. destruct (L_Pricing.basket_exact nan cdf c id cr cur s ms dates l E) as [_ H]. destruct (H j J) as (ps & F & X). exists ps. eexists. split; [exact F|]. split; [exact X|].
    intros pairs A. assert (Q : map (fun q : F64 * instrument F64 * F64 => nmul (snd q) (fst (fst q))) (combine ms ps) = map (fun q => nmul (fst q) (snd q)) pairs).
    { unfold pairs. clear. revert ms. induction ps as [|p ps IH]; intros [|m ms]; cbn; try reflexivity. now rewrite IH. }
    rewrite Q. exact (weighted_sum pairs A).
  Qed.

  Lemma average_double visit draws w v k f md mp x spots value : mc_pricer_new nan visit draws [(w, ISpotEuropean v k)] f md = Ok mp -> mc_pricer_price nan cdf mp = Ok x ->
    let c := prefetch_context nan (bd_context (mp_model mp)) in
    mc_paths (mp_model mp) (van_underlying v) = Ok (map (fun s => [s]) spots) -> price nan cdf c (expiry_flow v) (mkDT (ctx_spot_date c) Open_) = Ok value ->
    (finite k /\ Rabs (real k) <= bpow radix2 800) -> (finite w /\ Rabs (real w) <= bpow radix2 50) -> (finite value /\ Rabs (real value) <= bpow radix2 50) ->
    Forall (fun s => finite s /\ Rabs (real s) <= bpow radix2 800) spots -> (Z.of_nat (df_n_paths f) <= 2 ^ 50)%Z ->
    let m := mean (map (fun s => intrinsic_of (van_put_or_call v) (real s) (real k)) spots) in
    List.length spots = df_n_paths f /\ finite x /\ 0 <= m /\ Rabs (real x - real w * (m * real value)) <=
      (INR (df_n_paths f) + 3) * bpow radix2 (-52) * (Rabs (real w) * (m * Rabs (real value))) + bpow radix2 (-1073) * (Rabs (real w) * Rabs (real value) + Rabs (real w) + 1).
  Proof.
    intros E X c HP HV Mk Mw Mv Ms N1 m. destruct (made_flows nan visit draws w v k f md mp E) as (I & F & NP & N0).
    destruct (option_mean nan cdf mp w v k x I F X) as (spots' & value' & HP' & L & HV' & EX). fold c in HV'. rewrite HV in HV'. injection HV' as <-. rewrite HP in HP'.
    assert (SE : spots' = spots). { apply (f_equal (fun r => match r with Ok l => map (hd n0) l | _ => [] end)) in HP'. cbv beta iota in HP'. rewrite !map_map, !map_id in HP'. now symmetry. }
    subst spots'. rewrite NP in L. split; [exact L|]. rewrite EX, <- L. apply mean_spec; auto; rewrite L; assumption.
  Qed.
End Pricers.
