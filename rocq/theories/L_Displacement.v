(** The displacement of vol surfaces, and option prices that use it. *)
From Coq Require Import ZArith List String Bool Lia Reals Lra.
From Verif Require Import Prelude Num M_Dates M_Calendar M_Interp M_Curves M_Forward M_Vol M_Black76 M_Instruments
  S_Math S_Data S_Instruments S_Expectation S_Displacement L_Num L_Vol L_VolTime L_VolPillars L_VolCases L_Black76 L_ForwardTop L_Pricing L_PricingAny L_InstrumentCases L_BlackPrices.
Import ListNotations.
Open Scope list_scope.
Open Scope R_scope.

Section Any.
  Context {T : Type} {N : Num T} {TR : Trans T}.
  Variable nan : T.

  Lemma assumptions_below (s : vol_surface T) :
    vs_assumptions s = match calibrated s with Some v => vbp_assumptions v | None => NoCashDivs end.
  Proof. induction s; cbn [vs_assumptions calibrated]; auto. Qed.

  Lemma displaced (s : vol_surface T) d :
    match calibrated s with
    | None => displacement nan s d = Ok n0
    | Some v =>
        match vbp_assumptions v with
        | NoCashDivs | IndependentLogNormals => displacement nan s d = Ok n0
        | FixedDivs =>
            displacement nan s d =
            match last_moved_to s with
            | None => linear_at nan (vbp_fixed_divs v) d
            | Some (EquityForward _ _ _ _ boot _ _) => discounted_cash_divs_after boot d
            | Some _ => Ok n0
            end
        | JumpDivs => exists msg, displacement nan s d = Err msg
        end
    end.
  Proof.
    induction s as [vol cal base|v|b IH o base|b IH o base|b IH bump|b IH bump fl|b IH f]; cbn [calibrated displacement last_moved_to]; try assumption.
    - reflexivity.
    - destruct (vbp_assumptions v); eauto.
    - rewrite assumptions_below. destruct (calibrated b) as [v|]; [|reflexivity].
      destruct (vbp_assumptions v); eauto; destruct f; reflexivity.
  Qed.

  Lemma bumped_displacement (s : vol_surface T) (b : bump_vol T) d :
    displacement nan (apply_vol b s) d = match b with ReplaceVol _ => Ok n0 | _ => displacement nan s d end.
  Proof. now destruct b. Qed.

  Lemma evolved_displacement dyn (s s' : vol_surface T) spot_date d : time_modify dyn s spot_date = Ok s' ->
    displacement nan s' d = displacement nan s d.
  Proof.
    unfold time_modify. destruct (_ =? _)%Z; [congruence|]. intros E. inv_bind E. inv_bind E. destruct (approx_eq _ _ _); [congruence|].
    destruct dyn; injection E as <-; reflexivity.
  Qed.
End Any.

(** ** The strike is moved the wrong way *)
Lemma misstruck N : normal_cdf N -> forall nan c v k dates l, prices nan N c (ISpotEuropean v k) dates = Ok l ->
  forall j d x, nth_error dates j = Some d -> dt_leb d (van_expiry v) = true -> nth_error l j = Some x ->
  forall vol disp, ctx_vol_surface c (van_underlying v) (dt_date (van_expiry v)) (ctx_forward_curve c (van_underlying v) (dt_date (van_expiry v))) = Ok vol ->
  displacement nan vol (dt_date (van_expiry v)) = Ok disp -> 0 < disp < k ->
  exists D F now q, 0 < D /\ price nan N c (van_underlying v) (van_expiry v) = Ok F /\
    time_to_day_fraction (van_underlying v) d = Ok now /\
    forward_variance nan vol (if ddf_leb (mkDDF from_nil n0) now then now else mkDDF from_nil n0) (van_expiry_time v) k = Ok q /\
    (disp < F -> 0 < q ->
     let right := D * blacks_price N (van_put_or_call v) (F - disp) (k - disp) (sqrt q) in
     match van_put_or_call v with
     | Call => right - D * (2 * disp) < x < right
     | Put => right < x < right + D * (2 * disp)
     end).
Proof.
  intros HN nan c v k dates l P j d x Hd L Hx vol disp V DI HK.
  destruct (L_PricingAny.spot_black nan N c v k dates l P j d x Hd L Hx) as (F & yc & vol' & disp' & u & st & r & now & q & PF & _ & V' & DI' & _ & _ & _ & TT & FV & _ & _ & ->).
  rewrite V in V'. injection V' as <-. rewrite DI in DI'. injection DI' as <-.
  exists (exp (- u) * exp r), F, now, q. assert (HD : 0 < exp (- u) * exp r) by (apply Rmult_lt_0_compat; apply exp_pos).
  split; [exact HD|]. split; [exact PF|]. split; [exact TT|]. split; [exact FV|]. intros HF HQ. cbn zeta.
  assert (S : 0 < sqrt q) by now apply sqrt_lt_R0.
  destruct (call_decreasing_in_k N HN (exp (- u) * exp r) (F - disp) (k - disp) (k + disp) (sqrt q) HD) as [A B]; [lra|lra|exact S|].
  pose proof (L_Black76.parity N (exp (- u) * exp r) (F - disp) (k - disp) (sqrt q) (nc_symmetric N HN)) as P1.
  pose proof (L_Black76.parity N (exp (- u) * exp r) (F - disp) (k + disp) (sqrt q) (nc_symmetric N HN)) as P2.
  rnum. rewrite <- (blacks_code N HN) by lra.
  set (D := exp (- u) * exp r) in *. replace (k + disp - (k - disp)) with (2 * disp) in B by ring.
  replace (D * (F - disp - (k + disp))) with (D * (F - disp - (k - disp)) - D * (2 * disp)) in P2 by ring.
  unfold L_PricingAny.black in *. destruct (van_put_or_call v); lra.
Qed.

(** ** NaN once the surface follows the forward *)
Lemma moved_nan (TF : Trans F64) cdf (c : pricing_context F64) v k dates l : prices F_nan cdf c (ISpotEuropean v k) dates = Ok l ->
  forall vol w s rate borrow spot base hwm boot st rt bw y sp ld e,
  ctx_vol_surface c (van_underlying v) (dt_date (van_expiry v)) (ctx_forward_curve c (van_underlying v) (dt_date (van_expiry v))) = Ok vol ->
  calibrated vol = Some w -> vbp_assumptions w = FixedDivs ->
  last_moved_to vol = Some (EquityForward st rt bw y boot sp ld) ->
  bootstrap_new F_nan s rate borrow spot base hwm = Ok boot -> ex_ordered (dividends s) ->
  In e (dividends s) -> (base < ex_date e <= reach s hwm)%Z -> (dt_date (van_expiry v) <= ex_date e)%Z ->
  forall j d x, nth_error dates j = Some d -> dt_leb d (van_expiry v) = true -> nth_error l j = Some x -> x = F_nan.
Proof.
  intros P vol w s rate borrow spot base hwm boot st rt_ bw y sp ld e V W FD M B O I L E j d x Hd Le Hx.
  pose proof (displaced F_nan vol (dt_date (van_expiry v))) as D. rewrite W, FD, M in D.
  rewrite (remaining_nan_f64 TF s rate borrow spot base hwm boot _ e O B I L E) in D.
  destruct (L_PricingAny.spot_black F_nan cdf c v k dates l P j d x Hd Le Hx) as (F & yc & vol' & disp' & u & st' & r & now & q & PF & _ & V' & DI' & _ & _ & _ & TT & FV & _ & _ & ->).
  rewrite V in V'. injection V' as <-. rewrite D in DI'. injection DI' as <-.
  assert (NL : forall a : F64, nmul a F_nan = F_nan) by (intros []; reflexivity). assert (NS : forall a : F64, nsub a F_nan = F_nan) by (intros []; reflexivity).
  assert (NA : forall a : F64, nadd a F_nan = F_nan) by (intros []; reflexivity).
  unfold L_PricingAny.black. destruct (van_put_or_call v); unfold call_price, put_price; destruct (d_plus_minus _ _); rewrite !NS, !NA, !NL; try (rewrite NS; apply NL); reflexivity.
Qed.

(** ** Cases *)
Lemma price_one {T} {N : Num T} {TR : Trans T} (nan : T) cdf c i d x : price nan cdf c i d = Ok x -> prices nan cdf c i [d] = Ok [x].
Proof.
  unfold price, first_price. destruct (prices nan cdf c i [d]) as [l|m|m] eqn:P; try discriminate. apply prices_length in P.
  destruct l as [|y [|]]; try discriminate. cbn [bind]. congruence.
Qed.

Lemma misstruck_case nan cdf pc : exists c v vol x, van_put_or_call v = pc /\
  ctx_vol_surface c (van_underlying v) (dt_date (van_expiry v)) (ctx_forward_curve c (van_underlying v) (dt_date (van_expiry v))) = Ok vol /\
  displacement nan vol (dt_date (van_expiry v)) = Ok 5 /\
  price nan cdf c (van_underlying v) (van_expiry v) = Ok 100 /\
  forward_variance nan vol (mkDDF 0%Z 0) (van_expiry_time v) 90 = Ok (/ 5 * / 5) /\
  dt_leb (mkDT 0%Z Open_) (van_expiry v) = true /\
  prices nan cdf c (ISpotEuropean v 90) [mkDT 0%Z Open_] = Ok [x].
Proof.
  destruct (divs_surface nan) as (s & E). destruct (vbp_new_fields _ _ _ _ _ _ _ _ E) as (B & DV & DA).
  assert (V : variance nan (VolByProbability s) (mkDDF 365%Z 0) 90 = Ok (1 * (/ 5) ^ 2)).
  { apply variance_real. destruct (term_pillars nan (/ 5) (/ 5)) as (P & Q).
    refine (at_pillar nan EveryDay (year_end 0) level _ five FixedDivs s E (term_ordered _ _) (year_end 1, FlatSmile (/ 5)) 100 (/ 5) 1 90 (/ 5) _ P _).
    - now left.
    - reflexivity. }
  assert (DI : displacement nan (VolByProbability s) 365%Z = Ok 5).
  { cbn [displacement]. rewrite DA, DV. apply five_at. }
  assert (PR : price nan cdf (market (ZeroRateCurve 0%Z) 100 (DriftlessForward 100) (VolByProbability s))
      (ISpotEuropean (option_on stock 365%Z pc CashSettled) 90) (mkDT 0%Z Open_) = _) by
    (apply market_price with (1 := B) (2 := V) (disp := 5); [lra|lia|exact DI|lra]).
  exists (market (ZeroRateCurve 0%Z) 100 (DriftlessForward 100) (VolByProbability s)), (option_on stock 365%Z pc CashSettled), (VolByProbability s).
  apply price_one in PR. eexists.
  split; [reflexivity|]. split; [reflexivity|]. split; [exact DI|]. split; [reflexivity|]. split.
  - rewrite forward_variance_started; [cbn [option_on van_expiry_time]; rewrite V; f_equal; lra|]. right. cbn [vs_base]. now rewrite B.
  - split; [reflexivity|exact PR].
Qed.

(** A share at 100 with a dividend after expiry, seen through a surface calibrated with the spot at 90. *)
Definition dividend_share : instrument F64 := IEquity "BP" "BP-CR" (mkCurrency "USD" NullRule) NullRule.
Definition dividend_option (pc : put_or_call) : vanilla F64 :=
  mkVanilla "OPT" "OPT-CR" dividend_share NullRule (mkDT 365%Z Open_) pc CashSettled (mkDDF 365%Z n0) 365%Z.
Definition later_dividend : div_stream F64 := mkStream [mkDiv n1 n0 400%Z 410%Z] (ZeroRateCurve 0%Z) 400%Z.
#[local] Instance first_order : Trans F64 := {| nexp := fun x => nadd n1 x; nln := fun x => nsub x n1 |}.
Definition dividend_forward : res (forward F64) :=
  equity_forward_new F_nan 0%Z (nofZ 100) NullRule (ZeroRateCurve 0%Z) (ZeroRateCurve 0%Z) later_dividend 365%Z.
Definition always (x : Z) : linear F64 Z := mkLinear Flat Flat [(0%Z, nofZ x)].
Definition dividend_vol : res (vol_surface F64) :=
  let* v := vbp_new F_nan [(mkDDF 365%Z n0, FlatSmile (nlit 1 5)); (mkDDF 730%Z n0, FlatSmile (nlit 1 5))] EveryDay (mkDDF 0%Z n0) (always 90) (always 1) FixedDivs in
  forward_modify F_nan StickyDelta (VolByProbability v) dividend_forward.
Definition dividend_market : pricing_context F64 :=
  mkContext 0%Z (fun _ _ => Ok (ZeroRateCurve 0%Z)) (fun _ => Ok (nofZ 100)) (fun _ _ => dividend_forward) (fun _ _ _ => dividend_vol).

Lemma moved_nan_case (cdf : F64 -> F64) pc : let v := dividend_option pc in
  (exists x, prices F_nan cdf dividend_market (ISpotEuropean v (nofZ 90)) [mkDT 0%Z Open_] = Ok [x]) /\
  dt_leb (mkDT 0%Z Open_) (van_expiry v) = true /\
  exists vol w boot y sp ld,
    ctx_vol_surface dividend_market (van_underlying v) (dt_date (van_expiry v)) (ctx_forward_curve dividend_market (van_underlying v) (dt_date (van_expiry v))) = Ok vol /\
    calibrated vol = Some w /\ vbp_assumptions w = FixedDivs /\
    last_moved_to vol = Some (EquityForward NullRule (ZeroRateCurve 0%Z) (ZeroRateCurve 0%Z) y boot sp ld) /\
    bootstrap_new F_nan later_dividend (ZeroRateCurve 0%Z) (ZeroRateCurve 0%Z) (nofZ 100) 0%Z 365%Z = Ok boot /\
    ex_ordered (dividends later_dividend) /\
    exists e, In e (dividends later_dividend) /\ (0 < ex_date e <= reach later_dividend 365)%Z /\ (dt_date (van_expiry v) <= ex_date e)%Z.
Proof.
  cbn zeta. split.
  { assert (X : exists vol disp q, dividend_vol = Ok vol /\ displacement F_nan vol 365%Z = Ok disp /\
      forward_variance F_nan vol (mkDDF 0%Z n0) (mkDDF 365%Z n0) (nofZ 90) = Ok q /\ nltb (nsub (nofZ 100) disp) n0 = false /\ nltb q n0 = false).
    { do 3 eexists. split; [vm_compute; reflexivity|]. split; [vm_compute; reflexivity|]. split; [vm_compute; reflexivity|]. split; vm_compute; reflexivity. }
    destruct X as (vol & disp & q & V & D & Q & P1 & P2).
    assert (E : exists x, price F_nan cdf dividend_market (ISpotEuropean (dividend_option pc) (nofZ 90)) (mkDT 0%Z Open_) = Ok x).
    { eexists. apply (spot_priced F_nan cdf dividend_market (dividend_option pc) (nofZ 90) (mkDT 0%Z Open_) (nofZ 100) (ZeroRateCurve 0%Z)
        vol disp n0 0%Z n0 (mkDDF 0%Z n0) q); [reflexivity|vm_compute; reflexivity|reflexivity|exact V|exact D| | | | |exact Q|exact P1|exact P2];
        vm_compute; reflexivity. }
    destruct E as (x & E). exists x. exact (price_one F_nan cdf _ _ _ x E). }
  split; [reflexivity|]. do 6 eexists.
  split; [vm_compute; reflexivity|]. split; [reflexivity|]. split; [reflexivity|]. split; [reflexivity|]. split; [vm_compute; reflexivity|].
  split; [split; [intros e []|exact I]|]. eexists. split; [now left|]. vm_compute. repeat split; discriminate.
Qed.
