(** Property C67: how far option prices on IEEE-754 doubles are from Black's formula. *)
From Coq Require Import ZArith List String Reals.
From Coq.Floats Require Import SpecFloat.
From Flocq Require Import Core.
From Verif Require Import Prelude Num M_Dates M_Calendar M_Interp M_Curves M_Forward M_Vol M_Instruments S_Math S_Calendar S_Vol S_VolDouble S_Expectation S_BlackDouble S_Interp S_Data S_Double S_CurveDouble
  L_BlackDouble L_PriceDouble L_ForwardDouble L_PriceDoubleCases.
Import ListNotations.
Open Scope list_scope.
Open Scope R_scope.

(** C67: a European option off a flat volatility surface: Black's price, discounted from the pay date to the settlement date, up to
    the error stated in S_BlackDouble, whatever the forward is. *)
Theorem C67_european : forall N eps cdf (TR : Trans F64) nan nan' c v k d x F yc M vol cal base now st,
  normal_cdf N -> close_cdf eps N cdf -> close_ln eps TR -> accurate eps TR -> 0 <= eps <= / 1000 ->
  price nan cdf c (ISpotEuropean v k) d = Ok x -> dt_leb d (van_expiry v) = true ->
  price nan cdf c (van_underlying v) (van_expiry v) = Ok F ->
  finite F -> finite k -> bpow radix2 (-340) <= real F <= bpow radix2 340 -> bpow radix2 (-340) <= real k <= bpow radix2 340 ->
  ctx_yield_curve c (credit_id (van_underlying v)) (van_pay_date v) = Ok yc -> rates_within M yc -> bpow radix2 (-900) <= M <= bpow radix2 900 -> (bumps yc <= 1000)%nat ->
  apply_rule (van_settlement v) (dt_date d) = Ok st -> i32 st -> i32 (van_pay_date v) ->
  let years_away := Rabs (years (base_date yc) (van_pay_date v)) + Rabs (years (base_date yc) st) in M * years_away <= 200 ->
  ctx_vol_surface c (van_underlying v) (dt_date (van_expiry v)) (ctx_forward_curve c (van_underlying v) (dt_date (van_expiry v))) = Ok (FlatVolSurface vol cal base) ->
  finite_weights cal -> proper (exact cal) -> (nesting cal <= 1000)%nat -> finite vol -> Rabs (real vol) <= 1000 -> in_day base ->
  time_to_day_fraction (van_underlying v) d = Ok now -> in_day now -> in_day (van_expiry_time v) -> (0 <= ddf_date now)%Z ->
  upto (exact_time base) (exact_time now) -> upto (exact_time now) (exact_time (van_expiry_time v)) -> (ddf_date (van_expiry_time v) < ddf_date base + 2 ^ 40)%Z ->
  let V := real vol ^ 2 * weighted_years (exact cal) (exact_time now) (exact_time (van_expiry_time v)) in
  let a := allowance cal base (van_expiry_time v) vol in 10 * a <= V -> bpow radix2 (-180) <= V <= bpow radix2 180 ->
  finite x /\ exists D, df nan' (exact_curve yc) (van_pay_date v) st = Ok D /\ 0 < D /\
    Rabs (real x - D * blacks_price N (van_put_or_call v) (real F) (real k) (sqrt V)) <=
      pricing_error eps ((90 + 9 * INR (bumps yc)) * M * years_away) (real F / real k) (sqrt V) a * (D * (real F + real k)).
Proof. exact european_near. Qed.
Print Assumptions C67_european.

(** C67: the forward of a share without cash dividends: spot grown at the rate, less borrow, with the dividend yield as the code
    takes it, up to rounding. *)
Theorem C67_forward : forall eps (TR : Trans F64) nan nan', accurate eps TR -> 0 <= eps <= / 1000 ->
  forall rate borrow divs spot settlement base hwm d M n,
  rates_within M rate -> rates_within M borrow -> rates_within M (div_yield divs) -> bpow radix2 (-900) <= M <= bpow radix2 900 ->
  (bumps rate <= n)%nat -> (bumps borrow <= n)%nat -> (bumps (div_yield divs) <= n)%nat -> (n <= 1000)%nat -> dividends divs = [] ->
  finite spot -> bpow radix2 (-300) <= real spot <= bpow radix2 300 ->
  forall s p, apply_rule settlement base = Ok s -> apply_rule settlement d = Ok p -> i32 base -> i32 s -> i32 p ->
  let away (c : curve F64) (d : date) : R := Rabs (years (base_date c) d) in
  let A := away rate s + away borrow s + 2 * (away rate base + away borrow base) + (away rate p + away borrow p + away (div_yield divs) p) in
  forall f F, M * A <= 200 -> equity_forward_new nan base spot settlement rate borrow divs hwm = Ok f -> forward_at nan f d = Ok F ->
  finite F /\ exists rs bs rp bp yp, rt nan' (exact_curve rate) s = Ok rs /\ rt nan' (exact_curve borrow) s = Ok bs /\
    rt nan' (exact_curve rate) p = Ok rp /\ rt nan' (exact_curve borrow) p = Ok bp /\ rt nan' (exact_curve (div_yield divs)) p = Ok yp /\
    let exact := real spot * exp (rp - bp + yp - (rs - bs)) in
    Rabs (real F - exact) <= (3 * eps + ((56 + 5 * INR n) * M * A + 4) * bpow radix2 (-53)) * exact.
Proof. exact equity_near. Qed.
Print Assumptions C67_forward.

(** C67: so, from the spot of a share to the price of an option on it: for ordinary markets, Black's price up to a part in 10^9 of the
    discounted forward and strike. *)
Theorem C67_share_option : forall N eps cdf (TR : Trans F64) nan nan' c v id credit cur rule k d x F f spot fbase hwm rate borrow divs yc vol cal base now st s p,
  normal_cdf N -> close_cdf eps N cdf -> close_ln eps TR -> accurate eps TR -> 0 <= eps <= bpow radix2 (-50) ->
  (* the option and its price *)
  van_underlying v = IEquity id credit cur rule -> price nan cdf c (ISpotEuropean v k) d = Ok x -> dt_leb d (van_expiry v) = true ->
  (* the forward of the share, made from a spot, a rate, a borrow cost and a dividend yield *)
  ctx_spot_date c <> dt_date (van_expiry v) -> ctx_forward_curve c (van_underlying v) (dt_date (van_expiry v)) = Ok f ->
  equity_forward_new nan fbase spot rule rate borrow divs hwm = Ok f -> dividends divs = [] ->
  apply_rule rule fbase = Ok s -> apply_rule rule (dt_date (van_expiry v)) = Ok p ->
  price nan cdf c (van_underlying v) (van_expiry v) = Ok F ->
  (* the discounting *)
  ctx_yield_curve c credit (van_pay_date v) = Ok yc -> apply_rule (van_settlement v) (dt_date d) = Ok st ->
  (* the volatility *)
  ctx_vol_surface c (van_underlying v) (dt_date (van_expiry v)) (Ok f) = Ok (FlatVolSurface vol cal base) -> time_to_day_fraction (van_underlying v) d = Ok now ->
  finite_weights cal -> proper (exact cal) -> in_day base -> in_day now -> in_day (van_expiry_time v) -> (0 <= ddf_date now)%Z ->
  upto (exact_time base) (exact_time now) -> upto (exact_time now) (exact_time (van_expiry_time v)) ->
  (* ordinary sizes *)
  finite spot -> 1 <= real spot <= 1000000 -> 1 <= real F <= 1000000 -> finite k -> 1 <= real k <= 1000000 ->
  Forall ordinary_curve [rate; borrow; div_yield divs; yc] ->
  Forall (fun cd => near_date (fst cd) (snd cd)) [(rate, fbase); (borrow, fbase); (rate, s); (borrow, s); (rate, p); (borrow, p); (div_yield divs, p); (yc, van_pay_date v); (yc, st)] ->
  finite vol -> / 100 <= real vol <= 2 -> (nesting cal <= 3)%nat -> (ddf_date (van_expiry_time v) - ddf_date base < 12000)%Z ->
  let w := weighted_years (exact cal) (exact_time now) (exact_time (van_expiry_time v)) in / 400 <= w <= 100 ->
  finite x /\ exists D rs bs rp bp yp, df nan' (exact_curve yc) (van_pay_date v) st = Ok D /\
    rt nan' (exact_curve rate) s = Ok rs /\ rt nan' (exact_curve borrow) s = Ok bs /\
    rt nan' (exact_curve rate) p = Ok rp /\ rt nan' (exact_curve borrow) p = Ok bp /\ rt nan' (exact_curve (div_yield divs)) p = Ok yp /\
    let forward := real spot * exp (rp - bp + yp - (rs - bs)) in
    Rabs (real x - D * blacks_price N (van_put_or_call v) forward (real k) (real vol * sqrt w)) <= / 1000000000 * (D * (forward + real k)).
Proof. exact share_option_near. Qed.
Print Assumptions C67_share_option.

(** C67: there are such functions of the library: those that give the nearest double. *)
Theorem C67_assumptions_hold : forall N, normal_cdf N ->
  close_ln (2 * bpow radix2 (-53)) rounded_ln /\ accurate (2 * bpow radix2 (-53)) rounded_ln /\ exists cdf, close_cdf (2 * bpow radix2 (-53)) N cdf.
Proof. exact library_exists. Qed.
Print Assumptions C67_assumptions_hold.

(** The hypotheses hold of a one-year option struck at 110 on a share at 100, with a rate of a sixteenth and a volatility of a
    quarter: its price on doubles is within a millionth of Black's. *)
Example C67_example :
  let rates : curve F64 := RateCurveAct365 0%Z (mkLinear Flat Flat [(0%Z, nlit 1 16); (365%Z, nlit 1 16)]) in
  forall N eps cdf (TR : Trans F64) nan pc,
  normal_cdf N -> close_cdf eps N cdf -> close_ln eps TR -> accurate eps TR -> 0 <= eps <= bpow radix2 (-50) ->
  exists f x, equity_forward_new nan 0%Z (nofZ 100) NullRule rates (ZeroRateCurve 0%Z) (stream_new [] (ZeroRateCurve 0%Z)) 1000%Z = Ok f /\
    let market := mkContext 0%Z (fun _ _ => Ok rates) (fun _ => Ok (nofZ 100)) (fun _ _ => Ok f) (fun _ _ _ => Ok (FlatVolSurface (nlit 1 4) EveryDay (mkDDF 0%Z n0))) in
    price nan cdf market (ISpotEuropean (share_option pc) (nofZ 110)) (mkDT 0%Z Open_) = Ok x /\
    Rabs (real x - exp (- / 16) * blacks_price N pc (100 * exp (/ 16)) 110 (/ 4)) <= / 1000000.
Proof. exact one_year_option. Qed.
