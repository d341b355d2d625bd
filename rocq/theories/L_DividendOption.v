(** Options on a share that pays dividends, from its spot to their price, on doubles. *)
From Coq Require Import ZArith List String Bool Reals Lra Lia Psatz.
From Coq.Floats Require Import SpecFloat.
From Flocq Require Import Core BinarySingleNaN.
From Verif Require L_CalendarCount L_PricingAny.
From Verif Require Import Prelude Num L_Num M_Dates M_Search M_Calendar M_Interp M_Curves M_Forward M_Instruments M_Vol S_Math S_Calendar S_Vol S_VolDouble S_Expectation S_BlackDouble S_Interp S_Data S_Double S_CurveDouble S_DividendDouble
  L_Double L_DoubleError L_InterpDouble L_BrentDouble L_CurveDouble L_VolDouble L_BlackDouble L_PriceDouble L_ForwardDouble L_PriceDoubleCases L_DividendDouble L_DividendCases.
Import ListNotations.
Open Scope list_scope.
Open Scope R_scope.

(** ** From the spot of such a share to the price of an option on it *)
Lemma dividend_option N eps cdf (TR : Trans F64) nan nan' c v id credit cur rule k d x F yc M vol cal vbase now st :
  normal_cdf N -> close_cdf eps N cdf -> close_ln eps TR -> accurate eps TR -> 0 <= eps <= / 1000 ->
  van_underlying v = IEquity id credit cur rule -> price nan cdf c (ISpotEuropean v k) d = Ok x -> dt_leb d (van_expiry v) = true ->
  price nan cdf c (van_underlying v) (van_expiry v) = Ok F -> bpow radix2 (-340) <= real F <= bpow radix2 340 -> finite k -> bpow radix2 (-340) <= real k <= bpow radix2 340 ->
  ctx_yield_curve c credit (van_pay_date v) = Ok yc -> rates_within M yc -> bpow radix2 (-900) <= M <= bpow radix2 900 -> (bumps yc <= 1000)%nat ->
  apply_rule (van_settlement v) (dt_date d) = Ok st -> i32 st -> i32 (van_pay_date v) ->
  let years_away := Rabs (years (base_date yc) (van_pay_date v)) + Rabs (years (base_date yc) st) in M * years_away <= 200 ->
  ctx_vol_surface c (van_underlying v) (dt_date (van_expiry v)) (ctx_forward_curve c (van_underlying v) (dt_date (van_expiry v))) = Ok (FlatVolSurface vol cal vbase) ->
  finite_weights cal -> proper (exact cal) -> (nesting cal <= 1000)%nat -> finite vol -> Rabs (real vol) <= 1000 -> in_day vbase ->
  time_to_day_fraction (van_underlying v) d = Ok now -> in_day now -> in_day (van_expiry_time v) -> (0 <= ddf_date now)%Z ->
  upto (exact_time vbase) (exact_time now) -> upto (exact_time now) (exact_time (van_expiry_time v)) -> (ddf_date (van_expiry_time v) < ddf_date vbase + 2 ^ 40)%Z ->
  let V := real vol ^ 2 * weighted_years (exact cal) (exact_time now) (exact_time (van_expiry_time v)) in
  let a := allowance cal vbase (van_expiry_time v) vol in 10 * a <= V -> bpow radix2 (-180) <= V <= bpow radix2 180 ->
  forall f rate borrow divs spot base hwm Mf n, ctx_spot_date c <> dt_date (van_expiry v) -> ctx_forward_curve c (van_underlying v) (dt_date (van_expiry v)) = Ok f ->
  equity_forward_new nan base spot rule rate borrow divs hwm = Ok f ->
  rates_within Mf rate -> rates_within Mf borrow -> rates_within Mf (div_yield divs) -> bpow radix2 (-900) <= Mf <= bpow radix2 900 ->
  (bumps rate <= n)%nat -> (bumps borrow <= n)%nat -> (bumps (div_yield divs) <= n)%nat -> (n <= 1000)%nat ->
  Forall ordinary_dividend (dividends divs) -> finite spot -> bpow radix2 (-100) <= real spot <= bpow radix2 100 ->
  forall s p, apply_rule rule base = Ok s -> apply_rule rule (dt_date (van_expiry v)) = Ok p ->
  forall Y, (forall dd, In dd ([base; s; p] ++ dividend_dates (dividends divs))%list -> i32 dd /\ Rabs (years (base_date rate) dd) + Rabs (years (base_date borrow) dd) <= Y) ->
    Rabs (years (base_date (div_yield divs)) p) <= Y -> Mf * Y <= 20 ->
  let theta := eps + ((160 + 13 * INR n) * (Mf * Y) + 2) * bpow radix2 (-53) in
  let j := (9 * List.length (dividends divs) + 5)%nat in (1 + theta) ^ j <= 2 ->
  forall rule', apply_rule rule' base = Ok s -> apply_rule rule' (dt_date (van_expiry v)) = Ok p ->
  let X := factor nan' (exact_curve rate) (exact_curve borrow) base in
  let worth := real spot * X s in let gross := gross_dividends X base (reach divs hwm) worth 0 (dividends divs) in worth + gross <= bpow radix2 300 ->
  forall f' fwd, equity_forward_new nan' base (real spot) rule' (exact_curve rate) (exact_curve borrow) (exact_stream divs) hwm = Ok f' ->
  forward_at nan' f' (dt_date (van_expiry v)) = Ok fwd -> 0 < fwd ->
  finite x /\ exists D yp, df nan' (exact_curve yc) (van_pay_date v) st = Ok D /\ 0 < D /\ rt nan' (exact_curve (div_yield divs)) p = Ok yp /\
    Rabs (real x - D * blacks_price N (van_put_or_call v) fwd (real k) (sqrt V)) <=
      pricing_error eps ((90 + 9 * INR (bumps yc)) * M * years_away) (real F / real k) (sqrt V) a * (D * (real F + real k)) +
      D * (((1 + theta) ^ j - 1) * ((worth + gross) / X p * exp yp)).
Proof.
  intros HN HC HL HE E0 U EP BE EF BF Fk Bk EC W BM NB ES IS IP years_away MA EV FW P NS FV BV DB EN DN DX N0 UB UN LT V a AV VV
    f rate borrow divs spot base hwm Mf n ND Ef Enew W1 W2 W3 BMf N1 N2 N3 NN OD FS BS s p As Ap Y HI HY MY theta j T rule' As' Ap' X worth gross G f' fwd En' Ef' F0.
  assert (EA : forward_at nan f (dt_date (van_expiry v)) = Ok F) by (rewrite U in EF, Ef; exact (share_forward nan cdf c id credit cur rule (van_expiry v) f F ND Ef EF)).
  destruct (share_near eps TR nan nan' HE E0 rate borrow divs spot rule base hwm (dt_date (van_expiry v)) Mf n W1 W2 W3 BMf N1 N2 N3 NN OD FS BS s p As Ap Y HI HY MY T rule' As' Ap' f F Enew EA G)
    as (f2 & F2 & yp & E2 & V2 & YP & XP & FF & NF). assert (f2 = f') by congruence. subst f2. assert (F2 = fwd) by congruence. subst F2.
  fold X worth gross theta j in NF. set (err := ((1 + theta) ^ j - 1) * ((worth + gross) / X p * exp yp)) in *.
  assert (EC' : ctx_yield_curve c (credit_id (van_underlying v)) (van_pay_date v) = Ok yc) by (rewrite U; exact EC).
  destruct (from_spot N eps cdf TR nan nan' c v k d x F yc M vol cal vbase now st HN HC HL HE E0 EP BE EF FF Fk BF Bk EC' W BM NB ES IS IP MA EV FW P NS FV BV DB EN DN DX N0 UB UN LT AV VV
    fwd (err / fwd) F0) as (Fx & D & ED & D0 & Nx); [replace (err / fwd * fwd) with err by (field; apply Rgt_not_eq; exact F0); exact NF|].
  split; [exact Fx|]. exists D, yp. split; [exact ED|]. split; [exact D0|]. split; [exact YP|]. fold V a years_away in Nx.
  replace (err / fwd * (D * fwd)) with (D * err) in Nx by (field; apply Rgt_not_eq; exact F0). exact Nx.
Qed.

(** ** Such an option *)
Section Run.
  Context {T : Type} {NT : Num T} {TR : Trans T} (nan : T).
  (** Whatever the arithmetic, the forward of a share with two dividends can be had for the first date. *)
  Lemma first_run rate borrow spot c r l0 l1 l2 f : log_discount_with_borrow nan rate borrow 0%Z = Ok l0 ->
    log_discount_with_borrow nan rate borrow 365%Z = Ok l1 -> log_discount_with_borrow nan rate borrow 730%Z = Ok l2 -> neqb n0 n0 = true -> neqb r n0 = false ->
    equity_forward_new nan 0%Z spot NullRule rate borrow (mkStream [mkDiv c n0 365%Z 365%Z; mkDiv n0 r 730%Z 730%Z] (ZeroRateCurve 730%Z) 365%Z) 1000%Z = Ok f ->
    exists F, forward_at nan f 365%Z = Ok F.
  Proof.
    intros L0 L1 L2 Q1 Q2. unfold equity_forward_new, bootstrap_new, discount_with_borrow. rewrite ?L0. cbn [bind apply_rule]. rewrite ?L0. cbn [bind].
    cbn [dividends rev app is_zero div_yield negb andb last_cash_ex_date]. unfold boot_loop.
    cbn [ex_date bs_prev Z.ltb Z.compare Z.max Pos.compare Pos.compare_cont]. unfold boot_add, discount_with_borrow. cbn [pay_date ex_date cash relative bs_und bs_disc bs_cash bs_prev_disc bs_acc bs_prev]. rewrite L1, L2. cbn [bind].
    rewrite Q1, Q2. cbn [negb bind].
    cbn [pay_date ex_date cash relative bs_und bs_disc bs_cash bs_prev_disc bs_acc bs_prev Z.ltb Z.compare Pos.compare Pos.compare_cont].
    intros E. injection E as <-. cbn [forward_at apply_rule bind].
    match goal with |- context [discounted_sum_from_base ?b ?d] => assert (DS : exists x, discounted_sum_from_base b d = Ok x) by (eexists; reflexivity) end.
    destruct DS as [x DS]. rewrite DS. cbn [bind]. rewrite L1. cbn [bind]. unfold rt. cbn [r_and_t bind]. eexists. reflexivity.
  Qed.
End Run.

Lemma exact_first nan' : exists f', equity_forward_new nan' 0%Z 100 NullRule (exact_curve sixteenth) (exact_curve (ZeroRateCurve 0%Z : curve F64)) (exact_stream two_dividends) 1000%Z = Ok f' /\
  forward_at nan' f' 365%Z = Ok (100 * exp (/ 16) - 4).
Proof.
  destruct (logs nan') as (L0 & L1 & L2). unfold equity_forward_new, bootstrap_new, discount_with_borrow. rewrite ?L0. cbn [bind apply_rule]. rewrite ?L0. cbn [bind].
  assert (ES : exact_stream two_dividends = mkStream [mkDiv 4 0 365%Z 365%Z; mkDiv 0 (/ 16) 730%Z 730%Z] (ZeroRateCurve 730%Z) 365%Z).
  { unfold exact_stream, two_dividends, stream_new. cbn [dividends div_yield last_cash_ex_date map exact_curve]. unfold exact_dividend. cbn [cash relative ex_date pay_date].
    assert (R4 : real (nofZ 4) = 4) by (vm_compute; lra). assert (R0 : real n0 = 0) by (vm_compute; lra). assert (R16 : real (nlit 1 16) = / 16) by (vm_compute; lra). rewrite R4, R0, R16. f_equal. }
  rewrite ES. cbn [dividends rev app is_zero div_yield negb andb last_cash_ex_date]. unfold boot_loop.
  cbn [ex_date bs_prev Z.ltb Z.compare Z.max Pos.compare Pos.compare_cont]. unfold boot_add, discount_with_borrow. cbn [pay_date ex_date cash relative bs_und bs_disc bs_cash bs_prev_disc bs_acc bs_prev]. rewrite L1, L2. cbn [bind].
  rnum.
  assert (Q1 : Reqb 0 0 = true) by now apply Reqb_iff. assert (Q2 : Reqb (/ 16) 0 = false) by (apply Reqb_false; lra). rewrite Q1, Q2. cbn [negb bind].
  cbn [pay_date ex_date cash relative bs_und bs_disc bs_cash bs_prev_disc bs_acc bs_prev Z.ltb Z.compare Pos.compare Pos.compare_cont].
  eexists. split; [reflexivity|]. cbn [forward_at apply_rule bind].
  match goal with |- context [discounted_sum_from_base ?b ?d] => assert (DS : discounted_sum_from_base b d = Ok (4 * exp (- / 16 - 0))) end.
  { unfold discounted_sum_from_base, sum_at. cbn -[Rmult Rplus Rminus exp Rdiv]. f_equal. rnum. ring. }
  rewrite DS. cbn [bind]. rewrite L1. cbn [bind]. change (ZeroRateCurve 730%Z) with (exact_curve (ZeroRateCurve 730%Z)). rewrite zero_rt. cbn [bind]. rnum. f_equal.
  rewrite !Rminus_0_r, exp_0. replace (0 + 0 - - / 16) with (/ 16) by ring. rewrite exp_Ropp. pose proof (exp_pos (/ 16)). field. lra.
Qed.

Lemma dividend_share_option N eps cdf (TR : Trans F64) nan pc :
  normal_cdf N -> close_cdf eps N cdf -> close_ln eps TR -> accurate eps TR -> 0 <= eps <= bpow radix2 (-50) ->
  exists f x, equity_forward_new nan 0%Z (nofZ 100) NullRule sixteenth (ZeroRateCurve 0%Z) two_dividends 1000%Z = Ok f /\
    let market := mkContext 0%Z (fun _ _ => Ok sixteenth) (fun _ => Ok (nofZ 100)) (fun _ _ => Ok f) (fun _ _ _ => Ok (FlatVolSurface (nlit 1 4) EveryDay (mkDDF 0%Z n0))) in
    price nan cdf market (ISpotEuropean (share_option pc) (nofZ 110)) (mkDT 0%Z Open_) = Ok x /\
    Rabs (real x - exp (- / 16) * blacks_price N pc (100 * exp (/ 16) - 4) 110 (/ 4)) <= / 1000000.
Proof.
  intros HN HC HL HE E0. assert (E8 : bpow radix2 (-50) = 8 * uu) by (unfold uu; change (-50)%Z with (3 + -53)%Z; rewrite bpow_plus; reflexivity).
  assert (Ug : 0 < uu <= / 9000000000000000) by (pose proof uu_small; lra). assert (E1 : 0 <= eps <= / 1000) by (rewrite E8 in E0; lra).
  assert (ES : two_dividends = mkStream [mkDiv (nofZ 4) n0 365%Z 365%Z; mkDiv n0 (nlit 1 16) 730%Z 730%Z] (ZeroRateCurve 730%Z) 365%Z) by reflexivity.
  destruct (two_run (T := F64) nan sixteenth (ZeroRateCurve 0%Z) (nofZ 100) (nofZ 4) (nlit 1 16) n0 (nopp (nlit 1 16)) (nopp (nlit 1 8))) as (f & _ & EQ & _); [vm_compute; reflexivity..|].
  destruct (first_run (T := F64) nan sixteenth (ZeroRateCurve 0%Z) (nofZ 100) (nofZ 4) (nlit 1 16) n0 (nopp (nlit 1 16)) (nopp (nlit 1 8)) f) as (F & EF); [vm_compute; reflexivity..|exact EQ|].
  rewrite <- ES in EQ. destruct sixteenth_ordinary as [[O1 O2] [O3 O4]]. destruct (sixteenth_rt 0) as [T0 T1].
  assert (S100 : finite (nofZ 100 : F64) /\ real (nofZ 100) = 100) by (split; [split; reflexivity|vm_compute; lra]). destruct S100 as [FS RS].
  assert (S110 : finite (nofZ 110 : F64) /\ real (nofZ 110) = 110) by (split; [split; reflexivity|vm_compute; lra]). destruct S110 as [FK RK].
  assert (SV : finite (nlit 1 4 : F64) /\ real (nlit 1 4) = / 4) by (split; [split; reflexivity|vm_compute; lra]). destruct SV as [FV RV].
  assert (R4 : real (nofZ 4) = 4) by (vm_compute; lra). assert (R0 : real n0 = 0) by (vm_compute; lra). assert (R16 : real (nlit 1 16) = / 16) by (vm_compute; lra).
  destruct (factors 0) as (X0 & X1 & X2). set (X := factor 0 _ _ 0%Z) in *.
  assert (T : (1 + (eps + ((160 + 13 * INR 0) * (/ 2 * 4) + 2) * uu)) ^ (9 * List.length (dividends two_dividends) + 5) <= 2 /\ (1 + (eps + ((160 + 13 * INR 0) * (/ 2 * 4) + 2) * uu)) ^ (9 * List.length (dividends two_dividends) + 5) - 1 <= 5 / 100000000000).
  { apply few_dividends; [exact E0|lia|lra|cbn; lia]. }
  destruct T as [TT1 TT2].
  assert (OD : Forall ordinary_dividend (dividends two_dividends)).
  { assert (P1 : bpow radix2 (-(300)) <= 4 <= bpow radix2 300) by (change 4 with (bpow radix2 2); split; apply bpow_le; lia).
    assert (P2 : bpow radix2 (-(100)) <= / 16 <= bpow radix2 100) by (change (/ 16) with (bpow radix2 (-4)); split; apply bpow_le; lia).
    assert (Z : forall k, ordinary_amount k n0) by (intros k; split; [split; reflexivity|now left]).
    rewrite ES. cbn [dividends]. apply Forall_cons; [|apply Forall_cons; [|constructor]]; (split; cbn [cash relative]; [|]); try apply Z; (split; [split; reflexivity|right]); rewrite ?R4, ?R16, Rabs_right; lra. }
  assert (HI : forall dd, In dd ([0; 0; 365] ++ dividend_dates (dividends two_dividends))%Z -> i32 dd /\ Rabs (years (base_date sixteenth) dd) + Rabs (years (base_date (ZeroRateCurve 0%Z : curve F64)) dd) <= 4).
  { assert (G : forall z, (0 <= z <= 730)%Z -> i32 z /\ Rabs (years 0%Z z) + Rabs (years 0%Z z) <= 4).
    { intros z Hz. split; [unfold i32; lia|]. unfold years. rewrite Z.sub_0_r. destruct Hz as [H1 H2]. apply IZR_le in H1, H2. rewrite Rabs_right; lra. }
    intros dd I. apply G. cbn in I. intuition lia. }
  assert (BM : bpow radix2 (-900) <= / 2 <= bpow radix2 900) by (change (/ 2) with (bpow radix2 (-1)); split; apply bpow_le; lia).
  assert (HH : real (nofZ 100) * X 0%Z + gross_dividends X 0%Z (reach two_dividends 1000%Z) (real (nofZ 100) * X 0%Z) 0 (dividends two_dividends) <= 300).
  { rewrite ES. unfold reach. cbn [dividends last_cash_ex_date gross_dividends ex_date pay_date cash relative]. change (Z.max 1000 365) with 1000%Z. cbn [Z.ltb Z.compare Pos.compare Pos.compare_cont].
    rewrite RS, X0, X1, X2, R4, R0, R16, Rabs_R0, (Rabs_right 4), (Rabs_right (/ 16)) by lra.
    pose proof (exp_pos (- / 16)). pose proof (exp_pos (- / 8)). assert (exp (- / 16) < 1) by (rewrite <- exp_0; apply exp_increasing; lra).
    replace (/ 16 * ((100 * 1 + (0 + 4 * exp (- / 16) + 0 * ((100 * 1 + 0) / exp (- / 16)) * exp (- / 16))) / exp (- / 8)) * exp (- / 8)) with (/ 16 * (100 + 4 * exp (- / 16))) by (field; lra). lra. }
  assert (B300 : 300 <= bpow radix2 300) by (apply Rle_trans with (bpow radix2 9); [change (bpow radix2 9) with 512; lra|apply bpow_le; lia]).
  assert (S7 : bpow radix2 (-100) <= real (nofZ 100) <= bpow radix2 100) by (rewrite RS; split; [apply Rle_trans with (bpow radix2 0); [apply bpow_le; lia|cbn; lra]|apply Rle_trans with (bpow radix2 7); [change (bpow radix2 7) with 128; lra|apply bpow_le; lia]]).
  assert (YD : Rabs (years (base_date (div_yield two_dividends)) 365%Z) <= 4) by (unfold years; change (365 - base_date (div_yield two_dividends))%Z with (-365)%Z; rewrite Rabs_left; lra).
  assert (G0 : 0 <= (1 + (eps + ((160 + 13 * INR 0) * (/ 2 * 4) + 2) * uu)) ^ (9 * List.length (dividends two_dividends) + 5) - 1).
  { match goal with |- 0 <= ?a ^ ?k - 1 => assert (1 <= a ^ k) by (apply pow_R1_Rle; cbn [INR]; lra) end. lra. }
  assert (HW : rates_within (/ 2) (div_yield two_dividends)) by (cbn; lra).
  destruct (share_near eps TR nan 0 HE E1 sixteenth (ZeroRateCurve 0%Z) two_dividends (nofZ 100) NullRule 0%Z 1000%Z 365%Z (/ 2) 0 O1 O3 HW BM (le_n 0) (le_n 0) (le_n 0) ltac:(lia)
    OD FS S7 0%Z 365%Z eq_refl eq_refl 4 HI YD ltac:(lra) TT1 NullRule eq_refl eq_refl f F EQ EF (Rle_trans _ _ _ HH B300)) as (f' & F' & yp & EN' & EF' & YP & _ & FF & NF).
  assert (EN2 := EN'). rewrite RS in EN2. destruct (exact_first 0) as (f2 & E2 & V2). assert (f2 = f') by congruence. subst f2. assert (F' = 100 * exp (/ 16) - 4) by congruence. subst F'. clear V2 EN2 E2.
  fold X in NF. rewrite X1 in NF. assert (yp = 0) by (cbn [two_dividends stream_new div_yield] in YP; rewrite zero_rt in YP; congruence). subst yp. rewrite exp_0, Rmult_1_r in NF.
  set (G := _ + gross_dividends _ _ _ _ _ _) in *.
  assert (X16 : 1 <= exp (/ 16) <= 2). { pose proof (exp_ineq1_le (/ 16)). pose proof (exp_upper (/ 16) ltac:(lra)). lra. }
  assert (GL : G / exp (- / 16) <= 600).
  { unfold Rdiv. rewrite exp_Ropp, Rinv_inv. apply Rle_trans with (300 * 2); [|lra]. destruct (Rle_lt_dec 0 G); [apply Rmult_le_compat; lra|]. nra. }
  set (W := _ - 1) in *. assert (WG : W * (G / exp (- / 16)) <= 3 / 100000000) by (apply Rle_trans with (W * 600); [apply Rmult_le_compat_l; lra|lra]).
  assert (BF : 90 <= real F <= 200) by (apply Rabs_le_inv in NF; lra).
  exists f. set (market := mkContext 0%Z (fun _ _ => Ok sixteenth) (fun _ => Ok (nofZ 100)) (fun _ _ => Ok f) (fun _ _ _ => Ok (FlatVolSurface (nlit 1 4) EveryDay (mkDDF 0%Z n0)))).
  destruct zero_spec as [FZ RZ0]. destruct (double_0_real n0 FZ RZ0 F FF) as [Fd Rd].
  assert (PF : price nan cdf market (van_underlying (share_option pc)) (van_expiry (share_option pc)) = Ok F).
  { change (first_price (let* y := forward_at nan f 365%Z in Ok [y]) = Ok F). rewrite EF. reflexivity. }
  assert (EP : exists x, price nan cdf market (ISpotEuropean (share_option pc) (nofZ 110)) (mkDT 0%Z Open_) = Ok x).
  { eexists. apply (L_PricingAny.spot_priced nan cdf market (share_option pc) (nofZ 110) (mkDT 0%Z Open_) F sixteenth
      (FlatVolSurface (nlit 1 4) EveryDay (mkDDF 0%Z n0)) n0 (nlit 1 16) 0%Z n0 (mkDDF 0%Z n0) (nlit 1 16)); [reflexivity|exact PF|reflexivity|reflexivity|reflexivity|vm_compute; reflexivity|reflexivity|vm_compute; reflexivity|vm_compute; reflexivity|vm_compute; reflexivity| |vm_compute; reflexivity].
    destruct (nltb (nsub F n0) n0) eqn:Q; [|reflexivity]. apply (ltb_spec _ _ Fd FZ) in Q. rewrite Rd, RZ0 in Q. lra. }
  destruct EP as [x EP]. exists x. split; [exact EQ|]. cbv zeta. split; [exact EP|].
  assert (WY : weighted_years (exact EveryDay) (exact_time (mkDDF 0%Z n0)) (exact_time (mkDDF 365%Z n0)) = 1).
  { unfold weighted_years, exact_time. cbn [ddf_date ddf_frac]. rewrite RZ0.
    assert (Q := L_CalendarCount.every_count_eq 0%Z 0 365%Z 0). unfold every_count in Q. change (365 <? 0)%Z with false in Q. cbv iota in Q. injection Q as Q.
    change (weight (exact EveryDay)) with (weight_of (fun _ => true) 0). rewrite <- Q. cbn [exact standard_basis]. rnum. cbn [Z.sub Z.opp Z.add]. field. }
  assert (MID : forall d, in_day (mkDDF d (n0 : F64))) by (intros; apply at_midnight).
  assert (B34 : bpow radix2 (-340) <= 1 /\ 1000 <= bpow radix2 340) by (split; [change 1 with (bpow radix2 0)|apply Rle_trans with (bpow radix2 10); [change (bpow radix2 10) with 1024; lra|]]; apply bpow_le; lia).
  destruct (few_years_error eps 45 (real F / real (nofZ 110)) (/ 4) 1 366 E0 ltac:(lra)) as (FA & FB & FC); [|lra|lra|lra|].
  { rewrite RK. assert (L1 : 0 < real F / 110 < 2) by (unfold Rdiv; lra). apply Rabs_le. split.
    - apply Rle_trans with (Ropp 1); [lra|]. rewrite <- (ln_exp (Ropp 1)). apply Rlt_le, ln_increasing; [apply exp_pos|]. rewrite exp_Ropp. pose proof (exp_ineq1 1 ltac:(lra)).
      apply Rle_lt_trans with (/ 2); [apply Rinv_le_contravar; lra|unfold Rdiv; lra].
    - apply Rle_trans with (ln (exp 1)); [|rewrite ln_exp; lra]. apply Rlt_le, ln_increasing; [lra|]. pose proof (exp_ineq1 1 ltac:(lra)). lra. }
  rewrite Rmult_1_r in FA, FB, FC. rewrite sqrt_pow2 in FC by lra.
  assert (AL : allowance EveryDay (mkDDF 0%Z n0) (mkDDF 365%Z n0) (nlit 1 4) <= 4 * uu * 366 * (/ 4) ^ 2 + bpow radix2 (-1060)).
  { unfold allowance. rewrite RV. cbn [nesting ddf_date]. change (365 - 0 + 1)%Z with 366%Z. fold uu. cbn [INR]. nra. }
  assert (A0 : 0 <= allowance EveryDay (mkDDF 0%Z n0) (mkDDF 365%Z n0) (nlit 1 4)).
  { unfold allowance. rewrite RV. cbn [nesting ddf_date]. change (365 - 0 + 1)%Z with 366%Z. fold uu. cbn [INR]. pose proof (bpow_gt_0 radix2 (-1060)). nra. }
  set (al := allowance _ _ _ _) in *.
  destruct (dividend_option N eps cdf TR nan 0 market (share_option pc) "BP" "BP-CR" (mkCurrency "USD" NullRule) NullRule (nofZ 110) (mkDT 0%Z Open_) x F sixteenth (/ 2) (nlit 1 4) EveryDay (mkDDF 0%Z n0) (mkDDF 0%Z n0) 0%Z
    HN HC HL HE E1 eq_refl EP eq_refl PF ltac:(lra) FK ltac:(rewrite RK; lra) eq_refl O1 BM ltac:(cbn; lia) eq_refl ltac:(unfold i32; lia) ltac:(unfold i32; cbn; lia)
    ltac:(cbn [base_date sixteenth share_option van_pay_date]; unfold years; rewrite (Rabs_right (IZR (365 - 0) / 365)), Rabs_right; cbn [Z.sub Z.opp Z.add]; lra)
    eq_refl) with (f := f) (rate := sixteenth) (borrow := ZeroRateCurve 0%Z : curve F64) (divs := two_dividends) (spot := nofZ 100 : F64) (base := 0%Z) (hwm := 1000%Z) (Mf := / 2) (n := 0%nat)
    (s := 0%Z) (p := 365%Z) (Y := 4) (rule' := NullRule (T := R)) (f' := f') (fwd := 100 * exp (/ 16) - 4) as (Fx & D & yp & ED & D0 & YP' & NX);
    try match goal with |- _ = _ => reflexivity end; try assumption; try match goal with |- in_day _ => exact (MID _) | |- (_ <= _)%nat => cbn; lia | |- (_ <= _)%Z => cbn; lia | |- (_ < _)%Z => cbn; lia | |- True => exact I end.
  { exact I. }
  { exact I. }
  { rewrite RV, Rabs_right; lra. }
  { now right. }
  { left. left. unfold exact_time. cbn [ddf_date share_option van_expiry_time]. lia. }
  { cbn [share_option van_expiry_time]. rewrite WY, RV, Rmult_1_r. fold al. lra. }
  { cbn [share_option van_expiry_time]. rewrite WY, RV, Rmult_1_r. exact FB. }
  { discriminate. }
  { lra. }
  { exact (Rle_trans _ _ _ HH B300). }
  { lra. }
  cbv zeta in NX. cbn [share_option van_expiry_time van_put_or_call van_pay_date] in NX, ED. rewrite WY, RV, Rmult_1_r in NX. rewrite sqrt_pow2 in NX by lra. fold al X in NX. rewrite X1 in NX.
  assert (HD : D = exp (- / 16)).
  { unfold df in ED. change (365 =? 0)%Z with false in ED. cbv iota in ED. rewrite T1, T0 in ED. cbn [bind] in ED. revert ED. rnum. intros ED. injection ED as <-. f_equal. ring. }
  subst D. assert (yp = 0) by (cbn [two_dividends stream_new div_yield] in YP'; rewrite zero_rt in YP'; congruence). subst yp. rewrite exp_0, Rmult_1_r, RK in NX.
  eapply Rle_trans; [exact NX|]. clear NX. fold uu. fold G W.
  assert (Q : pricing_error eps ((90 + 9 * INR (bumps sixteenth)) * / 2 * (Rabs (years (base_date sixteenth) 365%Z) + Rabs (years (base_date sixteenth) 0%Z))) (real F / 110) (/ 4) al <= 6 / 10 * / 1000000000).
  { eapply Rle_trans; [|exact FC]. rewrite RK. cbn [base_date sixteenth bumps INR]. unfold years. change (365 - 0)%Z with 365%Z. change (0 - 0)%Z with 0%Z. replace (IZR 365 / 365) with 1 by field. replace (IZR 0 / 365) with 0 by field.
    rewrite Rabs_R0, Rabs_R1. unfold pricing_error. replace ((90 + 9 * 0) * / 2 * (1 + 0)) with 45 by field. unfold Rdiv. rewrite Rinv_inv. lra. }
  assert (E3 : 0 < exp (- / 16) <= 1) by (split; [apply exp_pos|rewrite <- exp_0; apply exp_mono; lra]).
  clear FC. set (pe := pricing_error _ _ _ _ _) in Q |- *.
  assert (pe * (exp (- / 16) * (real F + 110)) <= 6 / 10 * / 1000000000 * 310).
  { apply Rle_trans with (6 / 10 * / 1000000000 * (exp (- / 16) * (real F + 110))); [apply Rmult_le_compat_r; [apply Rmult_le_pos; lra|exact Q]|]. apply Rmult_le_compat_l; [lra|]. apply Rle_trans with (1 * 310); [apply Rmult_le_compat; lra|lra]. }
  assert (exp (- / 16) * (W * (G / exp (- / 16))) <= 3 / 100000000).
  { apply Rle_trans with (exp (- / 16) * (3 / 100000000)); [apply Rmult_le_compat_l; lra|]. apply Rle_trans with (1 * (3 / 100000000)); [apply Rmult_le_compat_r; lra|lra]. }
  lra.
Qed.
