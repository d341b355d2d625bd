(** C75: delta, gamma and theta of an option whose strike is a fraction of the spot on a later date. *)
From Coq Require Import ZArith List String Bool Reals.
From Coq.Floats Require Import SpecFloat.
From Verif Require Import Prelude Num M_Dates M_Calendar M_Curves M_Forward M_Vol M_Instruments M_Deps M_Risk M_Reports
  S_Math S_Data S_Vol S_Expectation S_Greeks S_Starting S_Double S_CurveDouble S_BlackDouble L_VolDouble L_InstrumentCases L_RiskCases L_StartGreeks L_StartTheta L_StartDouble L_StartCases.
Import ListNotations.
Open Scope list_scope.
Open Scope string_scope.
Open Scope R_scope.

(** Before its strike is set the option is worth a fraction of the share: where the dividends are fractions of the spot and the
    volatility does not depend on the strike, its delta is its value divided by the spot, and its gamma zero, however far the
    spot is bumped. *)
Theorem C75_delta : forall nan N w v fr d0 x0 id cr cur st, van_underlying v = IEquity id cr cur st ->
  forall md sp s h divs surface value r sp' sv', (md_spot_date md < dt_date (van_expiry v))%Z ->
  self_pricer_new nan [(w, IForwardEuropean v fr d0 x0)] md = Ok sp ->
  get id (md_spots md) = Some s -> 0 < s -> 0 < h < 1 -> get id (md_divs md) = Some divs -> no_cash (dividends divs) ->
  get id (md_vols md) = Some surface -> no_smile nan surface -> displacement nan surface (dt_date (van_expiry v)) = Ok 0 -> self_price nan N sp = Ok value ->
  generate nan (self_ops nan N) (DeltaGammaGenerator h) sp saved_prefetch_new value = (Ok r, sp', sv') ->
  exists m delta gamma F0 F, r = DeltaGammaReport h m /\ get id m = Some (delta, gamma) /\
    forwards_if nan md (van_underlying v) (dt_date (van_expiry v)) s (dt_date d0) F0 F /\ (F0 * fr <> 0 -> delta = value / s /\ gamma = 0).
Proof. exact start_delta. Qed.
Print Assumptions C75_delta.

(** With no dividends at all nothing more need be asked. *)
Theorem C75_no_dividends : forall nan N w v fr d0 x0 id cr cur st, van_underlying v = IEquity id cr cur st ->
  forall md sp s h divs surface value r sp' sv', (md_spot_date md < dt_date (van_expiry v))%Z ->
  self_pricer_new nan [(w, IForwardEuropean v fr d0 x0)] md = Ok sp ->
  get id (md_spots md) = Some s -> 0 < s -> 0 < h < 1 -> get id (md_divs md) = Some divs -> dividends divs = [] -> 0 < fr ->
  get id (md_vols md) = Some surface -> no_smile nan surface -> displacement nan surface (dt_date (van_expiry v)) = Ok 0 -> self_price nan N sp = Ok value ->
  generate nan (self_ops nan N) (DeltaGammaGenerator h) sp saved_prefetch_new value = (Ok r, sp', sv') ->
  exists m, r = DeltaGammaReport h m /\ get id m = Some (value / s, 0).
Proof. exact plain_start_delta. Qed.
Print Assumptions C75_no_dividends.

(** A call struck on day ten at the spot of that day. *)
Example C75_delta_applies : forall nan N s h, 0 < s -> 0 < h < 1 -> exists sp value m sp' sv',
  self_pricer_new nan [(1, IForwardEuropean (option_on stock 15%Z Call CashSettled) 1 (mkDT 10%Z Open_) (mkDDF 10%Z 0))] (flat_market s) = Ok sp /\
  self_price nan N sp = Ok value /\
  generate nan (self_ops nan N) (DeltaGammaGenerator h) sp saved_prefetch_new value = (Ok (DeltaGammaReport h m), sp', sv') /\
  get "BP" m = Some (value / s, 0).
Proof. exact start_call_delta. Qed.

(** On a day d before the strike is set there is no time decay: off a flat surface the variance is still that from the strike date
    to expiry, and the value changes by the ratios of the discount factors and of the forwards alone. *)
Theorem C75_theta : forall nan N w v fr d0 x0 id cr cur st, van_underlying v = IEquity id cr cur st ->
  forall md sp bt gs s divs vol cal base t0 t e value r sp' sv sv',
  let u := van_underlying v in let expiry := dt_date (van_expiry v) in let start := dt_date d0 in let d := bsd_date (bt_spot_date_bump bt) in
  (0 <= md_spot_date md)%Z -> (md_spot_date md < d < start)%Z -> ddf_date x0 = start -> (d < expiry)%Z ->
  self_pricer_new nan [(w, IForwardEuropean v fr d0 x0)] md = Ok sp ->
  get id (md_spots md) = Some s -> 0 < s -> get id (md_divs md) = Some divs -> dividends divs = [] -> 0 < fr ->
  get id (md_vols md) = Some (FlatVolSurface vol cal base) -> ddf_date base = md_spot_date md ->
  year_fraction cal base (mkDDF d 0) = Ok e -> year_fraction cal base x0 = Ok t0 -> year_fraction cal base (van_expiry_time v) = Ok t ->
  0 <= e <= t0 -> t0 <= t -> self_price nan N sp = Ok value ->
  generate nan (self_ops nan N) (TimeBumpedGenerator bt gs) sp sv value = (Ok r, sp', sv') ->
  exists price subs F0 F0' F F' D D' x, r = TimeBumpedReport price (price - value) subs /\
    match bsd_dynamics (bt_spot_date_bump bt) with StickySpot => x = s | StickyForward => forward_if nan md u d s x end /\
    forwards_if nan md u expiry s start F0 F /\ forwards_if nan (on_date md d) u expiry x start F0' F' /\
    start_inputs nan md v fr x0 F0 D ((t - t0) * vol ^ 2) /\ start_inputs nan (on_date md d) v fr x0 F0' D' ((t - t0) * vol ^ 2) /\
    0 < D /\ 0 < F /\ price = value * (D' / D) * (F' / F).
Proof. exact start_theta. Qed.
Print Assumptions C75_theta.

(** Where forwards are kept, with no dividend yield up to settlement of that day, theta is interest on the value. *)
Theorem C75_financing : forall nan N w v fr d0 x0 id cr cur st, van_underlying v = IEquity id cr cur st ->
  forall md sp bt gs s divs vol cal base t0 t e value r sp' sv sv',
  let expiry := dt_date (van_expiry v) in let start := dt_date d0 in let d := bsd_date (bt_spot_date_bump bt) in
  (0 <= md_spot_date md)%Z -> (md_spot_date md < d < start)%Z -> ddf_date x0 = start -> (d < expiry)%Z ->
  self_pricer_new nan [(w, IForwardEuropean v fr d0 x0)] md = Ok sp ->
  get id (md_spots md) = Some s -> 0 < s -> get id (md_divs md) = Some divs -> dividends divs = [] -> 0 < fr ->
  get id (md_vols md) = Some (FlatVolSurface vol cal base) -> ddf_date base = md_spot_date md ->
  year_fraction cal base (mkDDF d 0) = Ok e -> year_fraction cal base x0 = Ok t0 -> year_fraction cal base (van_expiry_time v) = Ok t ->
  0 <= e <= t0 -> t0 <= t -> self_price nan N sp = Ok value ->
  generate nan (self_ops nan N) (TimeBumpedGenerator bt gs) sp sv value = (Ok r, sp', sv') ->
  bsd_dynamics (bt_spot_date_bump bt) = StickyForward -> (exists p, apply_rule st d = Ok p /\ rt nan (div_yield divs) p = Ok 0) ->
  exists price theta subs F0 F0' D D' q q', r = TimeBumpedReport price theta subs /\
    start_inputs nan md v fr x0 F0 D q /\ start_inputs nan (on_date md d) v fr x0 F0' D' q' /\ 0 < D /\ theta = (D' / D - 1) * value.
Proof. exact start_financing. Qed.
Print Assumptions C75_financing.

(** The same call five days on, whichever way the spot moves. *)
Example C75_theta_applies : forall nan N s dyn, 0 < s -> exists sp value price theta,
  self_pricer_new nan [(1, IForwardEuropean (option_on stock 15%Z Call CashSettled) 1 (mkDT 10%Z Open_) (mkDDF 10%Z 0))] (flat_market s) = Ok sp /\
  self_price nan N sp = Ok value /\
  generate nan (self_ops nan N) (TimeBumpedGenerator (mkBumpTime (mkBumpSpotDate 5%Z dyn) 5%Z) []) sp saved_prefetch_new value =
    (Ok (TimeBumpedReport price theta []), sp, saved_prefetch_new).
Proof. exact start_call_theta. Qed.

(** Off a surface of smiles, each 20% at every strike and every date, with forwards of 100 throughout, the option is priced in
    doubles as not a number: the surface answers that there is no variance from one pillar date to the next. *)
Theorem C75_smile_refuted : forall (TR : Trans F64) nan cdf pc, logs TR -> cdf F_nan = F_nan -> exists s i,
  vbp_new nan [(mkDDF 365%Z n0, FlatSmile (nlit 1 5)); (mkDDF 730%Z n0, FlatSmile (nlit 1 5))] EveryDay (mkDDF 0%Z n0) level_hundred level_hundred NoCashDivs = Ok s /\
  forward_european_new "OPT" "OPT-CR" (IEquity "BP" "BP-CR" (mkCurrency "USD" NullRule) NullRule) NullRule (mkDT 730%Z Open_) n1 (mkDT 365%Z Open_) pc CashSettled = Ok i /\
  price nan cdf (mkContext 0%Z (fun _ _ => Ok (ZeroRateCurve 0%Z)) (fun _ => Ok (nofZ 100)) (fun _ _ => Ok (DriftlessForward (nofZ 100)))
    (fun _ _ _ => Ok (VolByProbability s))) i (mkDT 0%Z Open_) = Ok F_nan.
Proof. exact start_nan. Qed.
Print Assumptions C75_smile_refuted.
