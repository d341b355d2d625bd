(** A Monte-Carlo price on doubles, from the market and the draws. *)
From Coq Require Import ZArith List String Reals Lra Lia Psatz Permutation.
From Coq.Floats Require Import SpecFloat.
From Flocq Require Import Core BinarySingleNaN.
From Verif Require Import Prelude Num L_Num M_Dates M_Calendar M_Curves M_Fixings M_Forward M_Vol M_Instruments M_Deps M_Risk M_Reports M_MonteCarlo
  S_Double S_Instruments S_MonteCarlo S_SumDouble S_PathDouble L_Double L_DoubleError L_SumDouble L_Paths L_MeanDouble L_PathDouble.
Import ListNotations.
Open Scope list_scope.
Open Scope R_scope.

Section Any.
  Context {T : Type} {N : Num T} {TR : Trans T}.
  Variable nan : T.
  Variable visit : smap (instrument T * list (ddf T)) -> smap (instrument T * list (ddf T)).
  Hypothesis visits : forall l, Permutation (visit l) l.

  Lemma made_paths draws w v k f md mp : mc_pricer_new nan visit draws [(w, ISpotEuropean v k)] f md = Ok mp ->
    let c := prefetch_context nan (bd_context (mp_model mp)) in let u := van_underlying v in let expiry := ddf_date (van_expiry_time v) in
    exists n curve surface paths, bd_substepping (mp_model mp) = [n] /\ (1 <= n)%nat /\ ctx_forward_curve c u expiry = Ok curve /\
      ctx_vol_surface c u expiry (Ok curve) = Ok surface /\ mc_paths (mp_model mp) u = Ok paths /\
      fetch_path nan u c [van_expiry_time v] (map (fun j => map (draws j) (seq 0 n)) (seq 0 (df_n_paths f))) [n] = Ok paths.
  Proof.
    unfold mc_pricer_new. intros E. step E as a Ha. destruct a as [deps t]. step E as a0 Ha0. step E as a1 Ha1. injection E as <-. cbn [mp_model].
    unfold mc_portfolio in Ha. cbn [foldM fst snd] in Ha. step Ha as a2 Ha2. injection Ha as ->. step Ha2 as b Hb. step Ha2 as b3 Ha3. injection Ha2 as <- <-. cbn [mc_dependencies] in Ha3. injection Ha3 as <-.
    unfold diffusion_new in Ha1. unfold observe, add_flow in Ha1. cbn [tl_observations tl_flows get put] in Ha1.
    assert (V1 : forall a, visit [a] = [a]) by (intros a; apply Permutation_length_1_inv, Permutation_sym, visits). rewrite V1 in Ha1. cbn [map fst snd] in Ha1.
    step Ha1 as subs H1. step Ha1 as gs H2. step Ha1 as paths H3. injection Ha1 as <-. cbn [bd_context bd_substepping].
    set (c := prefetch_context nan a0) in *. unfold calculate_substepping in H1. cbn [foldM map last_date last] in H1.
    step H1 as x1 X1. step H1 as x2 X2. injection H1 as ->. step X2 as curve C. step X2 as surface S. cbn [substep_loop] in X2. step X2 as x3 X3. step X2 as x4 X4. step X2 as x5 X5. step X2 as x6 X6. injection X6 as <-. injection X2 as <-.
    eexists. exists curve, surface. unfold fetch_gaussians in H2. step H2 as g1 G1. step H2 as g2 G2. step H2 as g3 G3. injection H2 as <-.
    unfold fetch_paths in H3. step H3 as y1 Y1. step H3 as y2 Y2. step H3 as y3 Y3. cbn [combine mapM fst snd] in H3. step H3 as path P. injection H3 as <-. exists path.
    split; [reflexivity|]. split; [destruct (Z.to_nat _); lia|]. split; [exact C|]. split; [exact S|].
    split; [unfold mc_paths; cbn [bd_instruments asset_of bd_paths]; rewrite String.eqb_refl; reflexivity|].
    cbn [list_sum fold_right] in P. rewrite Nat.add_0_r in P. exact P.
  Qed.
End Any.

(** Payoffs move no more than the paths. *)
Lemma intrinsic_lipschitz pc a b k : Rabs (intrinsic_of pc a k - intrinsic_of pc b k) <= Rabs (a - b).
Proof.
  unfold intrinsic_of, Rmax. destruct pc; repeat destruct (Rle_dec _ _); unfold Rabs; repeat destruct (Rcase_abs _); lra.
Qed.

Lemma mean_close {A B} (f : A -> R) (g e : B -> R) l m : Forall2 (fun a b => Rabs (f a - g b) <= e b) l m -> (0 < List.length m)%nat ->
  Rabs (mean (map f l) - mean (map g m)) <= mean (map e m).
Proof.
  intros F P. unfold mean. rewrite !map_length. assert (L : List.length l = List.length m) by (clear P; induction F; cbn; congruence). rewrite L.
  assert (NP : 0 < INR (List.length m)) by (now apply lt_0_INR). unfold Rdiv. rewrite <- Rmult_minus_distr_r, Rabs_mult, (Rabs_right (/ _)) by (apply Rle_ge, Rlt_le, Rinv_0_lt_compat; exact NP).
  apply Rmult_le_compat_r; [left; now apply Rinv_0_lt_compat|]. clear - F. induction F as [|a b l m H _ IH]; cbn [map fold_right]; [rewrite Rminus_eq_0, Rabs_R0; lra|].
  replace (f a + _ - (g b + _)) with ((f a - g b) + (fold_right Rplus 0 (map f l) - fold_right Rplus 0 (map g m))) by ring. eapply Rle_trans; [apply Rabs_triang|]. lra.
Qed.

Lemma deviations_nonneg marks steps : Forall (fun x => 0 <= x) (deviations marks steps).
Proof.
  unfold deviations. generalize (combine (gained 0 marks) steps) as l. intros l. induction l as [|[g n] l IH]; cbn [map List.concat]; [constructor|].
  apply Forall_app. split; [|exact IH]. apply Forall_forall. intros x H. apply repeat_spec in H. subst. apply sqrt_pos.
Qed.

Section Price.
  Context {TR : Trans F64}.
  Variable nan : F64.
  Variable cdf : F64 -> F64.
  Variable visit : smap (instrument F64 * list (ddf F64)) -> smap (instrument F64 * list (ddf F64)).
  Hypothesis visits : forall l, Permutation (visit l) l.

  (** Where a path ends, in exact arithmetic. *)
  Notation row draws n j := (map (draws j) (seq 0 n)).

  Lemma path_price draws w v k f md mp x value : mc_pricer_new nan visit draws [(w, ISpotEuropean v k)] f md = Ok mp -> mc_pricer_price nan cdf mp = Ok x ->
    let c := prefetch_context nan (bd_context (mp_model mp)) in let u := van_underlying v in let expiry := ddf_date (van_expiry_time v) in
    price nan cdf c (expiry_flow v) (mkDT (ctx_spot_date c) Open_) = Ok value ->
    exists n curve surface quote, bd_substepping (mp_model mp) = [n] /\ (1 <= n)%nat /\ ctx_forward_curve c u expiry = Ok curve /\
      ctx_vol_surface c u expiry (Ok curve) = Ok surface /\ quoted nan curve surface [van_expiry_time v] [quote] /\
      (ordinary_quotes [quote] -> of_size 800 k -> of_size 50 w -> of_size 50 value -> (Z.of_nat n <= 2 ^ 40)%Z -> (Z.of_nat (df_n_paths f) <= 2 ^ 50)%Z ->
       (forall j, (j < df_n_paths f)%nat -> Forall finite (row draws n j) /\ sway (map real (row draws n j)) (deviations [exact_mark quote] [n]) n <= bpow radix2 390) ->
       let paths := seq 0 (df_n_paths f) in
       let m := mean (map (fun j => intrinsic_of (van_put_or_call v) (nth 0 (path_of [exact_mark quote] [n] (map real (row draws n j))) 0) (real k)) paths) in
       let e := mean (map (fun j => path_error [quote] [n] (row draws n j) 0) paths) in
       finite x /\ Rabs (real x - real w * (m * real value)) <=
         Rabs (real w) * Rabs (real value) * (e + (INR (df_n_paths f) + 3) * bpow radix2 (-52) * (m + e)) + bpow radix2 (-1073) * (Rabs (real w) * Rabs (real value) + Rabs (real w) + 1)).
  Proof.
    intros E X c u expiry HV. destruct (made_paths nan visit visits draws w v k f md mp E) as (n & curve & surface & paths & B1 & B2 & B3 & B4 & B5 & B6). fold c u expiry in B3, B4, B5, B6.
    destruct (made_flows nan visit draws w v k f md mp E) as (I & F & NP & N0).
    destruct (option_mean nan cdf mp w v k x I F X) as (spots & value' & HP & L & HV' & _). cbv zeta in HV'. fold c in HV'. fold u in HP. rewrite HP in B5. injection B5 as <-.
    destruct (fetch_double TR nan u c _ _ _ _ curve surface B6 eq_refl B3 B4) as (quotes & Q & H).
    assert (Q1 : exists quote, quotes = [quote]) by (inversion Q as [|? q ? qs ? Q2]; inversion Q2; subst; eauto). destruct Q1 as (quote & ->).
    exists n, curve, surface, quote. split; [exact B1|]. split; [exact B2|]. split; [exact B3|]. split; [exact B4|]. split; [exact Q|].
    intros O Mk Mw Mv Hn HN HD ps m e. change (list_sum [n]) with (n + 0)%nat in H. rewrite Nat.add_0_r in H. specialize (H O ltac:(constructor; [exact B2|constructor]) Hn).
    rewrite NP in L. fold ps in H.
    assert (DN : 0 <= Rabs (mk_forward (exact_mark quote) - mk_displacement (exact_mark quote)) <= bpow radix2 401 /\ Rabs (mk_displacement (exact_mark quote)) <= bpow radix2 400).
    { destruct O as [O _]. inversion O as [|? ? H0 _]. destruct (leg_double _ H0) as (_ & _ & _ & _ & A & B). cbn [fst snd] in A, B. split; [split; [apply Rabs_pos|exact A]|exact B]. }
    destruct (rate_le n ltac:(lia)) as [_ RN]. pose proof uu_small as [U1 U2]. pose proof tiny_small as [T1 T2].
    (* each path *)
    assert (P : Forall2 (fun s j => of_size 800 s /\ Rabs (real s - nth 0 (path_of [exact_mark quote] [n] (map real (row draws n j))) 0) <= path_error [quote] [n] (row draws n j) 0) spots ps).
    { assert (IN : forall j, In j ps -> (j < df_n_paths f)%nat) by (intros j J; apply in_seq in J; lia).
      clear - H HD DN RN U1 U2 T1 T2 IN. clearbody ps. revert spots H. induction ps as [|j ps IH]; intros spots H; cbn [map] in H; inversion H as [|g r gs rs R H' E1 E2]; subst.
      - destruct spots; [constructor|discriminate].
      - destruct spots as [|s spots]; [discriminate|]. cbn [map] in E2. injection E2 as -> ->. constructor; [|apply IH; [intros i J; apply IN; now right|exact H']].
        clear IH H H'. destruct (HD j (IN j (or_introl eq_refl))) as [FG SB]. unfold rows_close in R. cbn [map] in R. cbv zeta in R. change (list_sum [n]) with (n + 0)%nat in R. rewrite Nat.add_0_r in R.
        destruct (R FG) as [_ R2]; [eapply Rle_trans; [exact SB|apply bpow_le; lia]|]. destruct (R2 0%nat ltac:(cbn; lia)) as (x & X1 & X2 & X3). cbn [nth_error] in X1. injection X1 as <-.
        split; [|exact X3]. split; [exact X2|].
        replace (real s) with (nth 0 (path_of [exact_mark quote] [n] (map real (row draws n j))) 0 + (real s - nth 0 (path_of [exact_mark quote] [n] (map real (row draws n j))) 0)) by ring.
        eapply Rle_trans; [apply Rabs_triang|]. eapply Rle_trans; [apply Rplus_le_compat_l, X3|]. unfold path_of, path_error. cbn [List.length seq map nth firstn]. cbv zeta. change (list_sum [n]) with (n + 0)%nat. rewrite Nat.add_0_r.
        set (mk := exact_mark quote) in *. set (G := grown (map real (row draws n j)) (deviations [mk] [n]) n). set (W := sway (map real (row draws n j)) (deviations [mk] [n]) n) in *.
        assert (GW : Rabs G <= W).
        { unfold G, W, sway, grown, product. generalize (deviations_nonneg [mk] [n]). generalize (map real (row draws n j)) as l, (deviations [mk] [n]) as d. intros l d DN'.
          assert (D0 : Forall (fun x => 0 <= x) d -> Rabs (fold_right Rmult 1 (map (fun gs => 1 + fst gs * snd gs) (firstn n (combine l d)))) <= fold_right Rmult 1 (map (fun gs => 1 + fst gs * snd gs) (firstn n (combine (map Rabs l) d)))).
          { clear. revert l d. induction n as [|n IH]; intros [|a l] [|b d] D; cbn; try (rewrite Rabs_R1; lra). inversion_clear D as [|? ? D1 D2]. apply abs_mult_le; [|now apply IH].
            eapply Rle_trans; [apply Rabs_triang|]. rewrite Rabs_R1, Rabs_mult, (Rabs_right b) by lra. lra. }
          apply D0. exact DN'. }
        assert (AF : Rabs (mk_forward mk - mk_displacement mk) * W <= bpow radix2 791).
        { change 791%Z with (401 + 390)%Z. rewrite bpow_plus. apply Rmult_le_compat; [lra|eapply Rle_trans; [apply Rabs_pos|exact GW]|lra|exact SB]. }
        set (A := Rabs (mk_forward mk - mk_displacement mk)) in *. assert (A0 : 0 <= A) by lra. assert (W0 : 0 <= W) by (eapply Rle_trans; [apply Rabs_pos|exact GW]).
        assert (AW : 0 <= A * W) by (now apply Rmult_le_pos).
        assert (FG' : Rabs ((mk_forward mk - mk_displacement mk) * G + mk_displacement mk) <= A * W + bpow radix2 400).
        { eapply Rle_trans; [apply Rabs_triang|]. apply Rplus_le_compat; [|lra]. rewrite Rabs_mult. apply Rmult_le_compat_l; assumption. }
        assert (C1 : 9 * (INR n + 2) * bpow radix2 (-52) <= 1).
        { assert (B52 : bpow radix2 (-52) = 2 * uu) by (unfold uu; change 2 with (bpow radix2 1); now rewrite <- bpow_plus). rewrite B52. lra. }
        assert (C2 : 9 * (INR n + 2) * bpow radix2 (-52) * (A * W) <= A * W) by (rewrite <- (Rmult_1_l (A * W)) at 2; apply Rmult_le_compat_r; assumption).
        assert (B53 : bpow radix2 (-53) <= 1) by (change 1 with (bpow radix2 0); apply bpow_le; lia). assert (B53' := bpow_ge_0 radix2 (-53)).
        assert (B1074 : bpow radix2 (-1074) <= bpow radix2 791) by (apply bpow_le; lia). assert (B400 : bpow radix2 400 <= bpow radix2 791) by (apply bpow_le; lia).
        assert (C3 : bpow radix2 (-53) * Rabs (mk_displacement mk) <= bpow radix2 400) by (pose proof (Rabs_pos (mk_displacement mk)); nra).
        assert (B800 : bpow radix2 800 = 512 * bpow radix2 791) by (change 512 with (bpow radix2 9); now rewrite <- bpow_plus). rewrite B800. fold G. lra. }
    (* the mean *)
    assert (LP : (0 < List.length ps)%nat) by (unfold ps; rewrite seq_length; lia).
    destruct (average_double nan cdf visit draws w v k f md mp x spots value E X HP HV Mk Mw Mv) as (_ & FX & M0 & D); [clear - P; induction P as [|s j l m [H _] _ IH]; constructor; [exact H|exact IH]|exact HN|].
    set (m' := mean (map (fun s => intrinsic_of (van_put_or_call v) (real s) (real k)) spots)) in *.
    assert (ME : Rabs (m' - m) <= e).
    { unfold m', m, e. apply mean_close; [|exact LP]. clear - P. induction P as [|s j l ps [_ H] _ IH]; constructor; [|exact IH]. eapply Rle_trans; [apply intrinsic_lipschitz|exact H]. }
    split; [exact FX|]. replace (real x - real w * (m * real value)) with ((real x - real w * (m' * real value)) + real w * real value * (m' - m)) by ring.
    eapply Rle_trans; [apply Rabs_triang|]. rewrite !Rabs_mult. set (aw := Rabs (real w)) in *. set (av := Rabs (real value)) in *.
    assert (AWV : 0 <= aw * av) by (unfold aw, av; apply Rmult_le_pos; apply Rabs_pos).
    assert (Q1 : aw * av * Rabs (m' - m) <= aw * av * e) by (now apply Rmult_le_compat_l).
    assert (MB : m' <= m + e) by (apply Rabs_le_inv in ME; lra).
    assert (Q2 : (INR (df_n_paths f) + 3) * bpow radix2 (-52) * (aw * (m' * av)) <= aw * av * ((INR (df_n_paths f) + 3) * bpow radix2 (-52) * (m + e))).
    { replace ((INR (df_n_paths f) + 3) * bpow radix2 (-52) * (aw * (m' * av))) with (aw * av * ((INR (df_n_paths f) + 3) * bpow radix2 (-52) * m')) by ring. apply Rmult_le_compat_l; [exact AWV|].
      apply Rmult_le_compat_l; [|exact MB]. apply Rmult_le_pos; [pose proof (pos_INR (df_n_paths f)); lra|apply bpow_ge_0]. }
    lra.
  Qed.
End Price.
