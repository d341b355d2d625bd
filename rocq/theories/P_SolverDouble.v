(** C68: roots and implied volatilities on doubles. *)
From Coq Require Import ZArith List String Bool Lia Reals Lra.
From Coq.Floats Require Import SpecFloat.
From Flocq Require Import Core.
From Verif Require Import Prelude Num M_Brent M_Dates M_Calendar M_Curves M_Forward M_Vol M_Black76 M_Instruments M_Deps M_Risk M_Reports M_Solver
  S_Math S_Solver S_Reports S_SolverDouble S_Double S_BlackDouble L_Double L_BlackDouble L_Solver L_BrentNan L_SolverDouble.
Import ListNotations.
Open Scope list_scope.
Open Scope R_scope.

(** C68: the answer of the root finder is a zero, or the function has the other sign within the tolerance, if it is not NaN at
    any point that was tried and the answer and the tolerance are of moderate size; nothing is asked of the size of the other points. *)
Theorem C68_root : forall (f : F64 -> res F64) nan x1 x2 tol n b log,
  (forall x y, In x log -> f x = Ok y -> number y) -> double nan -> double x1 -> double x2 ->
  finite tol -> Rabs (real tol) <= bpow radix2 900 -> finite b -> Rabs (real b) <= bpow radix2 900 ->
  zbrent _ (logged f) nan x1 x2 tol n [] = (Ok b, log) ->
  exists fb, f b = Ok fb /\ In b log /\
    (place fb = 0 \/ exists c fc, f c = Ok fc /\ In c log /\ finite c /\ place fb * place fc <= 0 /\
      Rabs (real c - real b) <= (bpow radix2 (-50) * Rabs (real b) + Rabs (real tol)) * (1 + bpow radix2 (-49)) + bpow radix2 (-1072)).
Proof. exact zbrent_answer. Qed.
Print Assumptions C68_root.

Example C68_root_example : exists b log, zbrent _ (logged (fun x => Ok (nsub (nmul x x) (nofZ 2)))) F_nan n1 (nofZ 2) (nlit 1 10) 20 [] = (Ok b, log) /\
  nltb n1 b = true /\ forallb (fun x => let y := nsub (nmul x x) (nofZ 2) in neqb y y) log = true.
Proof. eexists _, _. split; [vm_compute; reflexivity|]. split; vm_compute; reflexivity. Qed.

(** C68: but where the function is NaN at the first end of the bracket, the answer is an exact zero or that end, up to the
    tolerance, wherever else the function changes sign. *)
Theorem C68_root_nan_refuted : forall (f : F64 -> res F64) nan x1 x2 tol n y2 b log,
  f x1 = Ok F_nan -> f x2 = Ok y2 -> number y2 -> double x1 ->
  finite tol -> Rabs (real tol) <= bpow radix2 900 -> finite b -> Rabs (real b) <= bpow radix2 900 ->
  zbrent _ (logged f) nan x1 x2 tol n [] = (Ok b, log) ->
  exists y, f b = Ok y /\ (neqb y n0 = true \/
    finite x1 /\ Rabs (real x1 - real b) <= (bpow radix2 (-50) * Rabs (real b) + Rabs (real tol)) * (1 + bpow radix2 (-49)) + bpow radix2 (-1072)).
Proof. exact zbrent_nan_answer. Qed.
Print Assumptions C68_root_nan_refuted.

(** C68: and from zero it always gets there: one halving after another, each of them exact. *)
Theorem C68_root_to_zero_refuted : forall (f : F64 -> res F64) nan hi tol n y, f n0 = Ok F_nan -> f hi = Ok y -> number y ->
  finite tol -> bpow radix2 (-900) <= real tol <= bpow radix2 900 -> finite hi -> bpow radix2 (-900) <= real hi <= bpow radix2 900 ->
  real hi <= real tol * 2 ^ n -> (forall v, finite v -> 0 < real v <= real hi -> exists y, f v = Ok y) ->
  exists b log, zbrent _ (logged f) nan n0 hi tol (S n) [] = (Ok b, log) /\ finite b /\ 0 < real b <= real hi /\
    exists z, f b = Ok z /\ (neqb z n0 = true \/ real b <= real tol * (1 + bpow radix2 (-40))).
Proof. exact zbrent_to_zero. Qed.
Print Assumptions C68_root_to_zero_refuted.

(** A line through 3 that is NaN at zero: the answer is a hundredth or so. *)
Example C68_root_to_zero_example : exists b log,
  zbrent _ (logged (fun x => Ok (if neqb x n0 then F_nan else nsub x (nofZ 3)))) F_nan n0 (nofZ 5) (nlit 1 100) 20 [] = (Ok b, log) /\ nltb b (nlit 1 100) = true.
Proof. eexists _, _. split; [vm_compute; reflexivity|]. vm_compute; reflexivity. Qed.

(** C68: an implied volatility. If none of the prices on the way was NaN, the price at the answer is the target, or another
    volatility within the tolerance has a price on the other side of it. *)
Theorem C68_volatility : forall P nan (ops : pricer_ops F64 P), replaceable ops -> forall s target lo hi p vol p' id,
  solve nan ops s target lo hi p = (Ok vol, p') -> depends_on_vols ops p [id] ->
  double nan -> double lo -> double hi -> finite target -> finite (iv_tolerance s) -> Rabs (real (iv_tolerance s)) <= bpow radix2 900 ->
  (forall v x, In v (vols_tried nan ops s target lo hi p id) -> price_after ops [BVol id (ReplaceVol v)] p = Ok x -> number x) ->
  finite vol -> Rabs (real vol) <= bpow radix2 900 ->
  exists x, price_after ops [BVol id (ReplaceVol vol)] p = Ok x /\
    (place (nsub x target) = 0 \/ exists v y, price_after ops [BVol id (ReplaceVol v)] p = Ok y /\ finite v /\
      place (nsub x target) * place (nsub y target) <= 0 /\
      Rabs (real v - real vol) <= (bpow radix2 (-50) * Rabs (real vol) + Rabs (real (iv_tolerance s))) * (1 + bpow radix2 (-49)) + bpow radix2 (-1072)).
Proof. intros P. exact solve_doubles. Qed.
Print Assumptions C68_volatility.

(** A search that meets the hypotheses. *)
Example C68_volatility_example : let TF : Trans F64 := signs in let ops := self_ops F_nan (fun x => x) in let s := mkImpliedVol (nlit 1 10) 20 in
  let p := own_with (nlit 1 5) in exists vol p',
  solve F_nan ops s (nofZ 20) (nlit 1 10) n1 p = (Ok vol, p') /\ finite vol /\ Rabs (real vol) <= bpow radix2 900 /\
  forall v x, In v (vols_tried F_nan ops s (nofZ 20) (nlit 1 10) n1 p "BP") -> price_after ops [BVol "BP" (ReplaceVol v)] p = Ok x -> number x.
Proof. exact own_search. Qed.

(** C68: if the price at the lower bound is NaN, the answer is exact or the lower bound. *)
Theorem C68_volatility_nan_refuted : forall P nan (ops : pricer_ops F64 P), replaceable ops -> forall s target lo hi p vol p' id y,
  solve nan ops s target lo hi p = (Ok vol, p') -> depends_on_vols ops p [id] ->
  price_after ops [BVol id (ReplaceVol lo)] p = Ok F_nan -> price_after ops [BVol id (ReplaceVol hi)] p = Ok y -> number y ->
  double lo -> finite target -> finite (iv_tolerance s) -> Rabs (real (iv_tolerance s)) <= bpow radix2 900 -> finite vol -> Rabs (real vol) <= bpow radix2 900 ->
  exists x, price_after ops [BVol id (ReplaceVol vol)] p = Ok x /\ (neqb (nsub x target) n0 = true \/
    finite lo /\ Rabs (real lo - real vol) <= (bpow radix2 (-50) * Rabs (real vol) + Rabs (real (iv_tolerance s))) * (1 + bpow radix2 (-49)) + bpow radix2 (-1072)).
Proof. intros P. exact solve_nan. Qed.
Print Assumptions C68_volatility_nan_refuted.

(** C68: which is what happens to a call struck where its share stands, with no rates, when the search starts from no volatility:
    whatever its price, the search succeeds, and unless it chances on a volatility with exactly that price it answers with the
    tolerance or less. *)
Theorem C68_at_the_money_refuted :
  let flat : curve F64 := ZeroRateCurve 0%Z in
  let market w := mkMarket 0%Z [("BP"%string, nofZ 100)] [("BP-CR"%string, flat); ("OPT-CR"%string, flat)] [("BP"%string, flat)]
    [("BP"%string, stream_new [] flat)] [("BP"%string, FlatVolSurface w EveryDay (mkDDF 0%Z n0))] in
  forall (TR : Trans F64) nan cdf w v, nexp n0 = n1 -> logs TR -> cdf F_nan = F_nan ->
  vanilla_new "OPT" "OPT-CR" (IEquity "BP" "BP-CR" (mkCurrency "USD" NullRule) NullRule) NullRule (mkDT 365%Z Open_) Call CashSettled = Ok v ->
  exists p, self_pricer_new nan [(n1, ISpotEuropean v (nofZ 100))] (market w) = Ok p /\
  forall target hi tol n y, price_after (self_ops nan cdf) [BVol "BP" (ReplaceVol hi)] p = Ok y -> number y -> finite target ->
    finite tol -> bpow radix2 (-900) <= real tol <= bpow radix2 900 -> finite hi -> bpow radix2 (-900) <= real hi <= bpow radix2 400 -> real hi <= real tol * 2 ^ n ->
    exists vol p' x, solve nan (self_ops nan cdf) (mkImpliedVol tol (S n)) target n0 hi p = (Ok vol, p') /\ finite vol /\ 0 < real vol /\
      price_after (self_ops nan cdf) [BVol "BP" (ReplaceVol vol)] p = Ok x /\
      (neqb (nsub x target) n0 = true \/ real vol <= real tol * (1 + bpow radix2 (-40))).
Proof. exact at_the_money_solved. Qed.
Print Assumptions C68_at_the_money_refuted.

(** A logarithm, a distribution and a search to which this applies. *)
Example C68_at_the_money_example : nexp (Trans := signs) n0 = n1 /\ logs signs /\ step_cdf F_nan = F_nan /\
  exists y, price_after (self_ops (TR := signs) F_nan step_cdf) [BVol "BP" (ReplaceVol n1)] (own_with (nlit 1 5)) = Ok y /\ number y /\
  finite (nofZ 50 : F64) /\ finite (nlit 1 100 : F64) /\ bpow radix2 (-900) <= real (nlit 1 100) <= bpow radix2 900 /\
  finite (n1 : F64) /\ bpow radix2 (-900) <= real n1 <= bpow radix2 400 /\ real n1 <= real (nlit 1 100) * 2 ^ 7.
Proof. exact own_case. Qed.
