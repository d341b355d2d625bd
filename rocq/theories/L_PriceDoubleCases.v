(** An option on a share, from its spot to its price, on doubles. *)
From Coq Require Import ZArith List String Reals Lra Lia Psatz.
From Coq.Floats Require Import SpecFloat.
From Flocq Require Import Core BinarySingleNaN.
From Verif Require L_CalendarCount L_PricingAny.
From Verif Require Import Prelude Num L_Num M_Dates M_Search M_Calendar M_Interp M_Curves M_Forward M_Instruments M_Vol S_Math S_Calendar S_Vol S_VolDouble S_Expectation S_BlackDouble S_Interp S_Data S_Double S_CurveDouble
  L_Double L_DoubleError L_InterpDouble L_BrentDouble L_CurveDouble L_VolDouble L_BlackDouble L_PriceDouble L_ForwardDouble.
Import ListNotations.
Open Scope list_scope.
Open Scope R_scope.

(** A curve of rates of a sixteenth. *)
Definition sixteenth : curve F64 := RateCurveAct365 0%Z (mkLinear Flat Flat [(0%Z, nlit 1 16); (365%Z, nlit 1 16)]).


Lemma sixteenth_rt nan' : rt nan' (exact_curve sixteenth) 0%Z = Ok 0 /\ rt nan' (exact_curve sixteenth) 365%Z = Ok (/ 16).
Proof.
  assert (E : real (nlit 1 16) = / 16) by (vm_compute; lra).
  change (exact_curve sixteenth) with (RateCurveAct365 0%Z (mkLinear Flat Flat [(0%Z, real (nlit 1 16)); (365%Z, real (nlit 1 16))])). rewrite E. split.
  - unfold rt. cbn [r_and_t bind Z.sub Z.opp Z.add Z.eqb]. rnum. f_equal. ring.
  - assert (L : linear_at nan' (mkLinear Flat Flat [(0%Z, / 16); (365%Z, / 16)]) 365%Z = Ok (/ 16)) by reflexivity.
    unfold rt. cbn [r_and_t]. change (365 - 0)%Z with 365%Z. change (365 =? 0)%Z with false. cbv iota beta zeta. match goal with |- context [linear_at ?a ?b ?c] => change (linear_at a b c) with (Ok (/ 16)) end. cbn [bind]. rnum. f_equal. field.
Qed.

Lemma sixteenth_ordinary : ordinary_curve sixteenth /\ ordinary_curve (ZeroRateCurve 0%Z).
Proof.
  assert (R : real (nlit 1 16) = / 16) by (vm_compute; lra).
  split; [|split; [cbn; lra|cbn; lia]]. split; [|cbn; lia]. split; [unfold i32; lia|]. exists [(0%Z, nlit 1 16); (365%Z, nlit 1 16)], Flat, Flat.
  split; [vm_compute; reflexivity|]. split; [now left|]. split; [now left|].
  assert (B : Rabs (real (nlit 1 16)) <= / 2) by (rewrite R, Rabs_right; lra).
  intros p [<-|[<-|[]]]; (split; [unfold i32; cbn; lia|split; [split; reflexivity|exact B]]).
Qed.

Lemma one_year_option N eps cdf (TR : Trans F64) nan pc :
  normal_cdf N -> close_cdf eps N cdf -> close_ln eps TR -> accurate eps TR -> 0 <= eps <= bpow radix2 (-50) ->
  exists f x, equity_forward_new nan 0%Z (nofZ 100) NullRule sixteenth (ZeroRateCurve 0%Z) (stream_new [] (ZeroRateCurve 0%Z)) 1000%Z = Ok f /\
    let market := mkContext 0%Z (fun _ _ => Ok sixteenth) (fun _ => Ok (nofZ 100)) (fun _ _ => Ok f) (fun _ _ _ => Ok (FlatVolSurface (nlit 1 4) EveryDay (mkDDF 0%Z n0))) in
    price nan cdf market (ISpotEuropean (share_option pc) (nofZ 110)) (mkDT 0%Z Open_) = Ok x /\
    Rabs (real x - exp (- / 16) * blacks_price N pc (100 * exp (/ 16)) 110 (/ 4)) <= / 1000000.
Proof.
  intros HN HC HL HE E0.
  assert (E8 : bpow radix2 (-50) = 8 * uu) by (unfold uu; change (-50)%Z with (3 + -53)%Z; rewrite bpow_plus; reflexivity).
  assert (Ug : 0 < uu <= / 9000000000000000) by (pose proof uu_small; lra).
  assert (E1 : 0 <= eps <= / 1000) by (rewrite E8 in E0; lra).
  destruct sixteenth_ordinary as [[O1 O2] [O3 O4]]. destruct (sixteenth_rt 0) as [T0 T1].
  assert (RZ : forall d, rt 0 (exact_curve (ZeroRateCurve 0%Z)) d = Ok 0) by (intros; unfold rt; cbn [exact_curve r_and_t bind]; rnum; f_equal; ring).
  assert (S100 : finite (nofZ 100 : F64) /\ real (nofZ 100) = 100) by (split; [split; reflexivity|vm_compute; lra]). destruct S100 as [FS RS].
  assert (S110 : finite (nofZ 110 : F64) /\ real (nofZ 110) = 110) by (split; [split; reflexivity|vm_compute; lra]). destruct S110 as [FK RK].
  assert (S4 : finite (nlit 1 4 : F64) /\ real (nlit 1 4) = / 4) by (split; [split; reflexivity|vm_compute; lra]). destruct S4 as [F4 R4].
  assert (Y : forall d, (d = 0 \/ d = 365)%Z -> i32 d /\ Rabs (years 0%Z d) <= 40).
  { intros d [-> | ->]; (split; [unfold i32; lia|]); unfold years; apply Rabs_le; cbn [Z.sub Z.opp Z.add]; lra. }
  assert (H0 : rt nan sixteenth 0%Z = Ok n0) by (vm_compute; reflexivity). assert (H1 : rt nan sixteenth 365%Z = Ok (nlit 1 16)) by (vm_compute; reflexivity).
  assert (HZ : forall d, rt nan (ZeroRateCurve 0%Z : curve F64) d = Ok n0) by (intros; reflexivity).
  destruct (equity_forward_new nan 0%Z (nofZ 100) NullRule sixteenth (ZeroRateCurve 0%Z) (stream_new [] (ZeroRateCurve 0%Z)) 1000%Z) as [f| |] eqn:EQ;
    [|exfalso; revert EQ; unfold equity_forward_new, discount_with_borrow, log_discount_with_borrow; cbn [apply_rule bind]; rewrite H0, HZ; cbn [bind]; discriminate..].
  assert (EX : exists F, forward_at nan f 365%Z = Ok F).
  { revert EQ. unfold equity_forward_new, discount_with_borrow, log_discount_with_borrow. cbn [apply_rule bind]. rewrite H0, HZ. cbn [bind bootstrap_new stream_new dividends rev].
    intros EQ. apply (f_equal (fun r => match r with Ok v => v | _ => f end)) in EQ. cbv beta iota in EQ. rewrite <- EQ. cbn [forward_at].
    match goal with |- context [discounted_sum_from_base ?b ?d] => change (discounted_sum_from_base b d) with (Ok (n0 : F64)) end.
    unfold log_discount_with_borrow. cbn [apply_rule bind div_yield stream_new]. rewrite H1, HZ. cbn [bind]. eexists. reflexivity. }
  destruct EX as [F EX].
  assert (BM : bpow radix2 (-900) <= / 2 <= bpow radix2 900) by (change (/ 2) with (bpow radix2 (-1)); split; apply bpow_le; lia).
  assert (B30 : bpow radix2 (-300) <= 1 /\ 1000000 <= bpow radix2 300) by (split; [change 1 with (bpow radix2 0)|apply Rle_trans with (bpow radix2 20); [change (bpow radix2 20) with 1048576; lra|]]; apply bpow_le; lia).
  assert (I0 : i32 0) by (unfold i32; lia). assert (I3 : i32 365) by (unfold i32; lia).
  set (divs := stream_new [] (ZeroRateCurve 0%Z)) in *.
  destruct (equity_near eps TR nan 0 HE E1 sixteenth (ZeroRateCurve 0%Z) divs (nofZ 100) NullRule 0%Z 1000%Z 365%Z (/ 2) 10 O1 O3 O3 BM O2 O4 O4 ltac:(lia) eq_refl FS ltac:(rewrite RS; lra)
    0%Z 365%Z eq_refl eq_refl I0 I0 I3 f F) as (FF & rs & bs & rp & bp & yp & Rs & Bs & Rp & Bp & Yp & NF); [|exact EQ|exact EX|].
  { cbn [base_date sixteenth div_yield divs stream_new]. pose proof (proj2 (Y 0%Z (or_introl eq_refl))). pose proof (proj2 (Y 365%Z (or_intror eq_refl))). lra. }
  cbv zeta in NF. cbn [base_date sixteenth div_yield divs stream_new] in Yp, NF.
  assert (rs = 0) by congruence. assert (bs = 0) by (pose proof (RZ 0%Z); congruence). assert (rp = / 16) by congruence. assert (bp = 0) by (pose proof (RZ 365%Z); congruence). assert (yp = 0) by (pose proof (RZ 365%Z); congruence). subst rs bs rp bp yp.
  replace (/ 16 - 0 + 0 - (0 - 0)) with (/ 16) in NF by ring. rewrite RS in NF.
  assert (X16 : 1 <= exp (/ 16) <= 2). { pose proof (exp_ineq1_le (/ 16)). pose proof (exp_upper (/ 16) ltac:(lra)). lra. }
  assert (N10 : INR 10 = 10) by (rewrite INR_IZR_INZ; reflexivity).
  assert (BF : 1 <= real F <= 1000000).
  { pose proof (proj2 (Y 0%Z (or_introl eq_refl))) as Q0. pose proof (proj2 (Y 365%Z (or_intror eq_refl))) as Q1. pose proof (Rabs_pos (years 0%Z 0%Z)) as Q2. pose proof (Rabs_pos (years 0%Z 365%Z)) as Q3.
    set (A := _ + _ + _ + _) in NF. assert (0 <= A <= 400) by (unfold A; lra). rewrite N10 in NF. rewrite E8 in E0.
    assert (0 <= ((56 + 5 * 10) * / 2 * A + 4) * uu <= 30000 * uu) by (split; [apply Rmult_le_pos; lra|apply Rmult_le_compat_r; lra]).
    set (g := 3 * eps + _) in NF. assert (0 <= g <= / 100) by (unfold g; lra). assert (g * (100 * exp (/ 16)) <= 2) by nra. apply Rabs_le_inv in NF. lra. }
  clear NF. exists f.
  set (market := mkContext 0%Z (fun _ _ => Ok sixteenth) (fun _ => Ok (nofZ 100)) (fun _ _ => Ok f) (fun _ _ _ => Ok (FlatVolSurface (nlit 1 4) EveryDay (mkDDF 0%Z n0)))).
  destruct zero_spec as [FZ RZ0]. destruct (double_0_real n0 FZ RZ0 F FF) as [Fd Rd].
  assert (PF : price nan cdf market (van_underlying (share_option pc)) (van_expiry (share_option pc)) = Ok F).
  { change (first_price (let* y := forward_at nan f 365%Z in Ok [y]) = Ok F). rewrite EX. reflexivity. }
  assert (EP : exists x, price nan cdf market (ISpotEuropean (share_option pc) (nofZ 110)) (mkDT 0%Z Open_) = Ok x).
  { eexists. apply (L_PricingAny.spot_priced nan cdf market (share_option pc) (nofZ 110) (mkDT 0%Z Open_) F sixteenth
      (FlatVolSurface (nlit 1 4) EveryDay (mkDDF 0%Z n0)) n0 (nlit 1 16) 0%Z n0 (mkDDF 0%Z n0) (nlit 1 16)); [reflexivity|exact PF|reflexivity|reflexivity|reflexivity|vm_compute; reflexivity|reflexivity|vm_compute; reflexivity|vm_compute; reflexivity|vm_compute; reflexivity| |vm_compute; reflexivity].
    destruct (nltb (nsub F n0) n0) eqn:Q; [|reflexivity]. apply (ltb_spec _ _ Fd FZ) in Q. rewrite Rd, RZ0 in Q. lra. }
  destruct EP as [x EP]. exists x. split; [reflexivity|]. cbv zeta. split; [exact EP|].
  assert (W : weighted_years (exact EveryDay) (exact_time (mkDDF 0%Z n0)) (exact_time (mkDDF 365%Z n0)) = 1).
  { unfold weighted_years, exact_time. cbn [ddf_date ddf_frac]. rewrite RZ0. 
    assert (Q := L_CalendarCount.every_count_eq 0%Z 0 365%Z 0). unfold every_count in Q. change (365 <? 0)%Z with false in Q. cbv iota in Q. injection Q as Q.
    change (weight (exact EveryDay)) with (weight_of (fun _ => true) 0). rewrite <- Q. cbn [exact standard_basis]. rnum. cbn [Z.sub Z.opp Z.add]. field. }
  assert (MID : forall d, in_day (mkDDF d (n0 : F64))) by (intros; apply at_midnight).
  destruct (share_option_near N eps cdf TR nan 0 market (share_option pc) "BP" "BP-CR" (mkCurrency "USD" NullRule) NullRule (nofZ 110) (mkDT 0%Z Open_) x F f (nofZ 100) 0%Z 1000%Z
    sixteenth (ZeroRateCurve 0%Z) divs sixteenth (nlit 1 4) EveryDay (mkDDF 0%Z n0) (mkDDF 0%Z n0) 0%Z 0%Z 365%Z HN HC HL HE E0) as (Fx & D & rs & bs & rp & bp & yp & ED & Rs' & Bs' & Rp' & Bp' & Yp' & NX);
    try reflexivity; try assumption; try exact (MID _); try (rewrite ?RS, ?RK, ?R4; lra); try exact I.
  { discriminate. }
  { now right. }
  { left. left. unfold exact_time. cbn [ddf_date share_option van_expiry_time]. lia. }
  { repeat (constructor; [split; assumption|]). constructor. }
  { assert (Y0 := Y 0%Z (or_introl eq_refl)). assert (Y1 := Y 365%Z (or_intror eq_refl)). clear - Y0 Y1.
    apply Forall_cons; [exact Y0|]. apply Forall_cons; [exact Y0|]. apply Forall_cons; [exact Y0|]. apply Forall_cons; [exact Y0|]. apply Forall_cons; [exact Y1|].
    apply Forall_cons; [exact Y1|]. apply Forall_cons; [exact Y1|]. apply Forall_cons; [exact Y1|]. apply Forall_cons; [exact Y0|]. apply Forall_nil. }
  { cbn. lia. }
  { cbn [share_option van_expiry_time]. rewrite W. lra. }
  cbv zeta in NX. cbn [share_option van_expiry_time van_put_or_call van_pay_date] in NX, ED. rewrite W, sqrt_1 in NX.
  assert (rs = 0) by congruence. assert (bs = 0) by congruence. assert (rp = / 16) by congruence. assert (bp = 0) by congruence.
  assert (yp = 0) by (assert (Q : Ok yp = Ok 0) by (rewrite <- Yp'; exact Yp); congruence). subst rs bs rp bp yp.
  assert (HD : D = exp (- / 16)).
  { unfold df in ED. change (365 =? 0)%Z with false in ED. cbv iota in ED. rewrite T1, T0 in ED. cbn [bind] in ED. revert ED. rnum. intros ED. injection ED as <-. f_equal. ring. }
  subst D. replace (/ 16 - 0 + 0 - (0 - 0)) with (/ 16) in NX by ring. rewrite RS, RK, R4, Rmult_1_r in NX.
  eapply Rle_trans; [exact NX|]. assert (exp (- / 16) <= 1) by (rewrite <- exp_0; apply exp_mono; lra). pose proof (exp_pos (- / 16)).
  assert (exp (- / 16) * (100 * exp (/ 16) + 110) <= 1 * 310) by (apply Rmult_le_compat; lra). lra.
Qed.
