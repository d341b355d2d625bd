(** C65: surfaces calibrated with cash dividends. *)
From Coq Require Import ZArith List String Reals.
From Verif Require Import Prelude Num M_Dates M_Calendar M_Interp M_Curves M_Forward M_Vol M_Black76 M_Instruments
  S_Math S_Data S_Instruments S_Expectation S_Displacement L_Displacement.
Import ListNotations.
Open Scope R_scope.

(** The shift of the lognormal a surface reports, in any arithmetic and however it was bumped, evolved or moved: nothing without
    cash dividends or with independent lognormals, an error with jumps, and with fixed dividends those given at calibration, or
    those of the forward the surface was last moved to.  Only forwards made from dividends have any. *)
Theorem C65_displacement : forall T (N : Num T) (nan : T) (s : vol_surface T) d,
  match calibrated s with
  | None => displacement nan s d = Ok n0
  | Some v =>
      match vbp_assumptions v with
      | NoCashDivs | IndependentLogNormals => displacement nan s d = Ok n0
      | FixedDivs =>
          displacement nan s d =
          match last_moved_to s with
          | None => linear_at nan (vbp_fixed_divs v) d
          | Some (EquityForward _ _ _ _ boot _ _) => discounted_cash_divs_after boot d
          | Some _ => Ok n0
          end
      | JumpDivs => exists msg, displacement nan s d = Err msg
      end
  end.
Proof. exact @displaced. Qed.
Print Assumptions C65_displacement.

(** Bumping the volatilities does not alter it, but replacing them by one volatility removes it. *)
Theorem C65_bumped : forall T (N : Num T) (nan : T) (s : vol_surface T) (b : bump_vol T) d,
  displacement nan (apply_vol b s) d = match b with ReplaceVol _ => Ok n0 | _ => displacement nan s d end.
Proof. exact @bumped_displacement. Qed.
Print Assumptions C65_bumped.

(** Nor does the passing of time. *)
Theorem C65_evolved : forall T (N : Num T) (nan : T) dyn (s s' : vol_surface T) spot_date d,
  time_modify dyn s spot_date = Ok s' -> displacement nan s' d = displacement nan s d.
Proof. exact @evolved_displacement. Qed.
Print Assumptions C65_evolved.

(** An underlying worth the displacement plus a lognormal makes an option worth Black's price with forward and strike both less
    the displacement; that is also what Monte-Carlo prices tend to (C64).  The option pricer adds the displacement to the strike
    instead: calls are too cheap and puts too dear, by up to twice the discounted displacement. *)
Theorem C65_strike_refuted : forall N, normal_cdf N -> forall nan c v k dates l, prices nan N c (ISpotEuropean v k) dates = Ok l ->
  forall j d x, nth_error dates j = Some d -> dt_leb d (van_expiry v) = true -> nth_error l j = Some x ->
  forall vol disp, ctx_vol_surface c (van_underlying v) (dt_date (van_expiry v)) (ctx_forward_curve c (van_underlying v) (dt_date (van_expiry v))) = Ok vol ->
  displacement nan vol (dt_date (van_expiry v)) = Ok disp -> 0 < disp < k ->
  exists D F now q, 0 < D /\ price nan N c (van_underlying v) (van_expiry v) = Ok F /\
    time_to_day_fraction (van_underlying v) d = Ok now /\
    forward_variance nan vol (if ddf_leb (mkDDF from_nil n0) now then now else mkDDF from_nil n0) (van_expiry_time v) k = Ok q /\
    (disp < F -> 0 < q ->
     let right := D * blacks_price N (van_put_or_call v) (F - disp) (k - disp) (sqrt q) in
     match van_put_or_call v with
     | Call => right - D * (2 * disp) < x < right
     | Put => right < x < right + D * (2 * disp)
     end).
Proof. exact misstruck. Qed.
Print Assumptions C65_strike_refuted.

Example C65_strike_case : forall nan cdf pc, exists c v vol x, van_put_or_call v = pc /\
  ctx_vol_surface c (van_underlying v) (dt_date (van_expiry v)) (ctx_forward_curve c (van_underlying v) (dt_date (van_expiry v))) = Ok vol /\
  displacement nan vol (dt_date (van_expiry v)) = Ok 5 /\
  price nan cdf c (van_underlying v) (van_expiry v) = Ok 100 /\
  forward_variance nan vol (mkDDF 0%Z 0) (van_expiry_time v) 90 = Ok (/ 5 * / 5) /\
  dt_leb (mkDT 0%Z Open_) (van_expiry v) = true /\
  prices nan cdf c (ISpotEuropean v 90) [mkDT 0%Z Open_] = Ok [x].
Proof. exact misstruck_case. Qed.

(** On doubles, with sticky delta: once a surface calibrated with fixed dividends has been moved to a forward that has a dividend
    after the option's expiry, the price is NaN if there is one. *)
Theorem C65_sticky_delta_refuted : forall (TF : Trans F64) cdf (c : pricing_context F64) v k dates l, prices F_nan cdf c (ISpotEuropean v k) dates = Ok l ->
  forall vol w s rate borrow spot base hwm boot st rt bw y sp ld e,
  ctx_vol_surface c (van_underlying v) (dt_date (van_expiry v)) (ctx_forward_curve c (van_underlying v) (dt_date (van_expiry v))) = Ok vol ->
  calibrated vol = Some w -> vbp_assumptions w = FixedDivs ->
  last_moved_to vol = Some (EquityForward st rt bw y boot sp ld) ->
  bootstrap_new F_nan s rate borrow spot base hwm = Ok boot -> ex_ordered (dividends s) ->
  In e (dividends s) -> (base < ex_date e <= reach s hwm)%Z -> (dt_date (van_expiry v) <= ex_date e)%Z ->
  forall j d x, nth_error dates j = Some d -> dt_leb d (van_expiry v) = true -> nth_error l j = Some x -> x = F_nan.
Proof. exact moved_nan. Qed.
Print Assumptions C65_sticky_delta_refuted.

(** A share at 100 with a dividend after the option's expiry, and a surface calibrated when it was at 90. *)
Example C65_sticky_delta_case : forall (cdf : F64 -> F64) pc, let TF : Trans F64 := first_order in let v := dividend_option pc in
  (exists x, prices F_nan cdf dividend_market (ISpotEuropean v (nofZ 90)) [mkDT 0%Z Open_] = Ok [x]) /\
  dt_leb (mkDT 0%Z Open_) (van_expiry v) = true /\
  exists vol w boot y sp ld,
    ctx_vol_surface dividend_market (van_underlying v) (dt_date (van_expiry v)) (ctx_forward_curve dividend_market (van_underlying v) (dt_date (van_expiry v))) = Ok vol /\
    calibrated vol = Some w /\ vbp_assumptions w = FixedDivs /\
    last_moved_to vol = Some (EquityForward NullRule (ZeroRateCurve 0%Z) (ZeroRateCurve 0%Z) y boot sp ld) /\
    bootstrap_new F_nan later_dividend (ZeroRateCurve 0%Z) (ZeroRateCurve 0%Z) (nofZ 100) 0%Z 365%Z = Ok boot /\
    ex_ordered (dividends later_dividend) /\
    exists e, In e (dividends later_dividend) /\ (0 < ex_date e <= reach later_dividend 365)%Z /\ (dt_date (van_expiry v) <= ex_date e)%Z.
Proof. exact moved_nan_case. Qed.
