(** Properties of the prices of options on shares that pay dividends, on doubles. *)
From Coq Require Import ZArith List String Reals.
From Flocq Require Import Core.
From Verif Require Import Prelude Num M_Dates M_Calendar M_Interp M_Curves M_Forward M_Instruments M_Vol S_Math S_Calendar S_Vol S_VolDouble S_Expectation S_BlackDouble S_Interp S_Data S_Double S_CurveDouble S_DividendDouble L_BlackDouble L_DividendOption.
Import ListNotations.
Open Scope R_scope.

(** C84: from the spot of a share that pays dividends to the price of an option on it, all on doubles: Black's price on the forward of the
    same share in exact arithmetic, up to the error of the pricing and the discounted error of the forward. *)
Theorem C84_option : forall N eps cdf (TR : Trans F64) nan nan' c v id credit cur rule k d x F yc M vol cal vbase now st,
  normal_cdf N -> close_cdf eps N cdf -> close_ln eps TR -> accurate eps TR -> 0 <= eps <= / 1000 ->
  (* the option, its price and the forward of its share *)
  van_underlying v = IEquity id credit cur rule -> price nan cdf c (ISpotEuropean v k) d = Ok x -> dt_leb d (van_expiry v) = true ->
  price nan cdf c (van_underlying v) (van_expiry v) = Ok F -> bpow radix2 (-340) <= real F <= bpow radix2 340 -> finite k -> bpow radix2 (-340) <= real k <= bpow radix2 340 ->
  (* the discounting *)
  ctx_yield_curve c credit (van_pay_date v) = Ok yc -> rates_within M yc -> bpow radix2 (-900) <= M <= bpow radix2 900 -> (bumps yc <= 1000)%nat ->
  apply_rule (van_settlement v) (dt_date d) = Ok st -> i32 st -> i32 (van_pay_date v) ->
  let years_away := Rabs (years (base_date yc) (van_pay_date v)) + Rabs (years (base_date yc) st) in M * years_away <= 200 ->
  (* the volatility *)
  ctx_vol_surface c (van_underlying v) (dt_date (van_expiry v)) (ctx_forward_curve c (van_underlying v) (dt_date (van_expiry v))) = Ok (FlatVolSurface vol cal vbase) ->
  finite_weights cal -> proper (exact cal) -> (nesting cal <= 1000)%nat -> finite vol -> Rabs (real vol) <= 1000 -> in_day vbase ->
  time_to_day_fraction (van_underlying v) d = Ok now -> in_day now -> in_day (van_expiry_time v) -> (0 <= ddf_date now)%Z ->
  upto (exact_time vbase) (exact_time now) -> upto (exact_time now) (exact_time (van_expiry_time v)) -> (ddf_date (van_expiry_time v) < ddf_date vbase + 2 ^ 40)%Z ->
  let V := real vol ^ 2 * weighted_years (exact cal) (exact_time now) (exact_time (van_expiry_time v)) in
  let a := allowance cal vbase (van_expiry_time v) vol in 10 * a <= V -> bpow radix2 (-180) <= V <= bpow radix2 180 ->
  (* the forward, made from a spot, a rate, a borrow cost, dividends and a dividend yield *)
  forall f rate borrow divs spot base hwm Mf n, ctx_spot_date c <> dt_date (van_expiry v) -> ctx_forward_curve c (van_underlying v) (dt_date (van_expiry v)) = Ok f ->
  equity_forward_new nan base spot rule rate borrow divs hwm = Ok f ->
  rates_within Mf rate -> rates_within Mf borrow -> rates_within Mf (div_yield divs) -> bpow radix2 (-900) <= Mf <= bpow radix2 900 ->
  (bumps rate <= n)%nat -> (bumps borrow <= n)%nat -> (bumps (div_yield divs) <= n)%nat -> (n <= 1000)%nat ->
  Forall ordinary_dividend (dividends divs) -> finite spot -> bpow radix2 (-100) <= real spot <= bpow radix2 100 ->
  forall s p, apply_rule rule base = Ok s -> apply_rule rule (dt_date (van_expiry v)) = Ok p ->
  forall Y, (forall dd, In dd ([base; s; p] ++ dividend_dates (dividends divs))%list -> i32 dd /\ Rabs (years (base_date rate) dd) + Rabs (years (base_date borrow) dd) <= Y) ->
    Rabs (years (base_date (div_yield divs)) p) <= Y -> Mf * Y <= 20 ->
  let theta := eps + ((160 + 13 * INR n) * (Mf * Y) + 2) * bpow radix2 (-53) in
  let j := (9 * List.length (dividends divs) + 5)%nat in (1 + theta) ^ j <= 2 ->
  forall rule', apply_rule rule' base = Ok s -> apply_rule rule' (dt_date (van_expiry v)) = Ok p ->
  let X := factor nan' (exact_curve rate) (exact_curve borrow) base in
  let worth := real spot * X s in let gross := gross_dividends X base (reach divs hwm) worth 0 (dividends divs) in worth + gross <= bpow radix2 300 ->
  (* the forward of the same share in exact arithmetic *)
  forall f' fwd, equity_forward_new nan' base (real spot) rule' (exact_curve rate) (exact_curve borrow) (exact_stream divs) hwm = Ok f' ->
  forward_at nan' f' (dt_date (van_expiry v)) = Ok fwd -> 0 < fwd ->
  finite x /\ exists D yp, df nan' (exact_curve yc) (van_pay_date v) st = Ok D /\ 0 < D /\ rt nan' (exact_curve (div_yield divs)) p = Ok yp /\
    Rabs (real x - D * blacks_price N (van_put_or_call v) fwd (real k) (sqrt V)) <=
      pricing_error eps ((90 + 9 * INR (bumps yc)) * M * years_away) (real F / real k) (sqrt V) a * (D * (real F + real k)) +
      D * (((1 + theta) ^ j - 1) * ((worth + gross) / X p * exp yp)).
Proof. exact dividend_option. Qed.
Print Assumptions C84_option.

(** The hypotheses hold of a one-year option struck at 110 on a share at 100 that pays 4 on the day it ends and a sixteenth of its value a
    year later, with a rate of a sixteenth and a volatility of a quarter: its price on doubles is within a millionth of Black's on the
    forward less the dividend. *)
Example C84_example :
  let rates : curve F64 := RateCurveAct365 0%Z (mkLinear Flat Flat [(0%Z, nlit 1 16); (365%Z, nlit 1 16)]) in
  let divs := stream_new [mkDiv (nofZ 4) n0 365%Z 365%Z; mkDiv n0 (nlit 1 16) 730%Z 730%Z] (ZeroRateCurve 730%Z) in
  forall N eps cdf (TR : Trans F64) nan pc,
  normal_cdf N -> close_cdf eps N cdf -> close_ln eps TR -> accurate eps TR -> 0 <= eps <= bpow radix2 (-50) ->
  exists f x, equity_forward_new nan 0%Z (nofZ 100) NullRule rates (ZeroRateCurve 0%Z) divs 1000%Z = Ok f /\
    let market := mkContext 0%Z (fun _ _ => Ok rates) (fun _ => Ok (nofZ 100)) (fun _ _ => Ok f) (fun _ _ _ => Ok (FlatVolSurface (nlit 1 4) EveryDay (mkDDF 0%Z n0))) in
    price nan cdf market (ISpotEuropean (share_option pc) (nofZ 110)) (mkDT 0%Z Open_) = Ok x /\
    Rabs (real x - exp (- / 16) * blacks_price N pc (100 * exp (/ 16) - 4) 110 (/ 4)) <= / 1000000.
Proof. exact dividend_share_option. Qed.
