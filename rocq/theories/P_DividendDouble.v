(** Properties of the forwards of shares that pay dividends, on doubles. *)
From Coq Require Import ZArith List Reals.
From Flocq Require Import Core.
From Verif Require Import Prelude Num M_Dates M_Calendar M_Interp M_Curves M_Forward S_Data S_Double S_CurveDouble S_DividendDouble L_DividendDouble L_DividendCases.
Import ListNotations.
Open Scope R_scope.

(** C83: the forward of a share on doubles, whatever dividends it pays, is the forward of the same share in exact arithmetic, up to a
    stated fraction of what the spot and all dividends would come to at that date were no dividend paid out.  The fraction grows with the
    number of dividends, with the rates times the years and with the error of the exponential. *)
Theorem C83_forward : forall eps (TR : Trans F64) nan nan', accurate eps TR -> 0 <= eps <= / 1000 ->
  forall rate borrow divs spot settlement base hwm d M n,
  rates_within M rate -> rates_within M borrow -> rates_within M (div_yield divs) -> bpow radix2 (-900) <= M <= bpow radix2 900 ->
  (bumps rate <= n)%nat -> (bumps borrow <= n)%nat -> (bumps (div_yield divs) <= n)%nat -> (n <= 1000)%nat ->
  Forall ordinary_dividend (dividends divs) -> finite spot -> bpow radix2 (-100) <= real spot <= bpow radix2 100 ->
  forall s p, apply_rule settlement base = Ok s -> apply_rule settlement d = Ok p ->
  forall Y, (forall dd, In dd ([base; s; p] ++ dividend_dates (dividends divs))%list ->
      i32 dd /\ Rabs (years (base_date rate) dd) + Rabs (years (base_date borrow) dd) <= Y) ->
    Rabs (years (base_date (div_yield divs)) p) <= Y -> M * Y <= 20 ->
  let theta := eps + ((160 + 13 * INR n) * (M * Y) + 2) * bpow radix2 (-53) in
  let k := (9 * List.length (dividends divs) + 5)%nat in (1 + theta) ^ k <= 2 ->
  forall settlement', apply_rule settlement' base = Ok s -> apply_rule settlement' d = Ok p ->
  let X := factor nan' (exact_curve rate) (exact_curve borrow) base in
  let worth := real spot * X s in let gross := gross_dividends X base (reach divs hwm) worth 0 (dividends divs) in
  forall f F, equity_forward_new nan base spot settlement rate borrow divs hwm = Ok f -> forward_at nan f d = Ok F -> worth + gross <= bpow radix2 300 ->
  exists f' F' yp, equity_forward_new nan' base (real spot) settlement' (exact_curve rate) (exact_curve borrow) (exact_stream divs) hwm = Ok f' /\
    forward_at nan' f' d = Ok F' /\ rt nan' (exact_curve (div_yield divs)) p = Ok yp /\ 0 < X p /\
    finite F /\ Rabs (real F - F') <= ((1 + theta) ^ k - 1) * ((worth + gross) / X p * exp yp).
Proof. exact share_near. Qed.
Print Assumptions C83_forward.

(** C83: with up to forty dividends, rates times years of up to two (five per cent for forty years), up to ten bumps and an exponential right to
    eight units in the last place, that fraction is below 5 in 10^11. *)
Theorem C83_fraction : forall eps n rates count, 0 <= eps <= bpow radix2 (-50) -> (n <= 10)%nat -> 0 <= rates <= 2 -> (count <= 40)%nat ->
  let theta := eps + ((160 + 13 * INR n) * rates + 2) * bpow radix2 (-53) in
  (1 + theta) ^ (9 * count + 5) <= 2 /\ (1 + theta) ^ (9 * count + 5) - 1 <= 5 / 100000000000.
Proof. exact few_dividends. Qed.
Print Assumptions C83_fraction.

(** The hypotheses hold of a share at 100 that pays 4 after a year and a sixteenth of its value after two, at a rate of a sixteenth: its
    forward for two years, on doubles, is within a millionth of what a calculation by hand gives. *)
Example C83_example :
  let rates : curve F64 := RateCurveAct365 0%Z (mkLinear Flat Flat [(0%Z, nlit 1 16); (365%Z, nlit 1 16)]) in
  let divs := stream_new [mkDiv (nofZ 4) n0 365%Z 365%Z; mkDiv n0 (nlit 1 16) 730%Z 730%Z] (ZeroRateCurve 730%Z) in
  forall eps (TR : Trans F64) nan, accurate eps TR -> 0 <= eps <= bpow radix2 (-50) ->
  exists f F, equity_forward_new nan 0%Z (nofZ 100) NullRule rates (ZeroRateCurve 0%Z) divs 1000%Z = Ok f /\ forward_at nan f 730%Z = Ok F /\
    finite F /\ Rabs (real F - 15 / 16 * (100 * exp (/ 8) - 4 * exp (/ 16))) <= / 1000000.
Proof. exact two_dividends_near. Qed.
