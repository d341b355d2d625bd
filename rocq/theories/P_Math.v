(** Properties C17-C19: root finding and the Black-76 formulas. *)
From Coq Require Import ZArith List String Bool Reals.
From Verif Require Import Prelude Num M_Brent M_Black76 S_Math L_Brent L_BrentEnds L_Normal L_Black76 L_MathCases.
Import ListNotations.
Open Scope list_scope.
Open Scope R_scope.

Example C17_example : forall nan, zbrent _ (logged line) nan 0 1 (/ 1000) 2 [] = (Ok (/ 2), [/ 2; 1; 0]).
Proof. exact line_solved. Qed.

(** C17: the answer is a zero or within tolerance of an evaluated point of the other sign. *)
Theorem C17_encloses : forall nan x1 x2 tol n f b log,
  zbrent _ (logged f) nan x1 x2 tol n [] = (Ok b, log) -> enclosed f tol b log.
Proof. exact zbrent_enclosed. Qed.
Print Assumptions C17_encloses.

(** C17: a continuous function has a root within the tolerance of the answer. *)
Theorem C17_root : forall nan x1 x2 tol n f g b log, (forall x, f x = Ok (g x)) -> continuity g ->
  zbrent _ (logged f) nan x1 x2 tol n [] = (Ok b, log) ->
  exists z, g z = 0 /\ Rabs (z - b) <= 4 * / 4503599627370496 * Rabs b + Rabs tol.
Proof. exact zbrent_root. Qed.
Print Assumptions C17_root.

(** C17: two values of one sign are refused after evaluating just those. *)
Theorem C17_unbracketed : forall nan x1 x2 tol n (f : R -> res R) fa fb, f x1 = Ok fa -> f x2 = Ok fb -> fa * fb > 0 ->
  exists m, zbrent _ (logged f) nan x1 x2 tol n [] = (Err m, [x2; x1]).
Proof. exact zbrent_unbracketed. Qed.
Print Assumptions C17_unbracketed.

(** C17: at most n + 2 evaluations; a failure is that of f at the last point or one of the two errors.  For any
    arithmetic, IEEE doubles included. *)
Theorem C17_evaluations : forall T (N : Num T) (f : T -> res T) nan x1 x2 tol n r log,
  zbrent _ (logged f) nan x1 x2 tol n [] = (r, log) -> (List.length log <= n + 2)%nat /\ outcome_of f r log.
Proof. intros T N. exact zbrent_outcome. Qed.
Print Assumptions C17_evaluations.

(** C17: a bracketed root is found, once there are enough iterations: the square of one more than the number of times the bracket has to be
    halved to be as small as the tolerance. The function has to be defined up to three widths outside the bracket, and is evaluated
    nowhere else. *)
Theorem C17_found : forall nan x1 x2 tol j n f, 0 < tol -> Rabs (x2 - x1) < tol / 2 * 2 ^ j -> ((j + 1) * (j + 1) <= n)%nat ->
  let near x := Rmin x1 x2 - 3 * Rabs (x2 - x1) <= x <= Rmax x1 x2 + 3 * Rabs (x2 - x1) in
  (forall x, near x -> exists y, f x = Ok y) -> (forall y1 y2, f x1 = Ok y1 -> f x2 = Ok y2 -> y1 * y2 <= 0) ->
  exists b log, zbrent _ (logged f) nan x1 x2 tol n [] = (Ok b, log) /\ Forall near log.
Proof. exact zbrent_ends. Qed.
Print Assumptions C17_found.

Example C17_found_case : 0 < / 1000 /\ Rabs (1 - 0) < / 1000 / 2 * 2 ^ 11 /\ ((11 + 1) * (11 + 1) <= 144)%nat /\
  (forall x, exists y, line x = Ok y) /\ forall y1 y2, line 0 = Ok y1 -> line 1 = Ok y2 -> y1 * y2 <= 0.
Proof.
  split; [Lra.lra|]. split; [rewrite Rabs_right by Lra.lra; Lra.lra|]. split; [repeat constructor|]. split; [intros x; eexists; reflexivity|].
  intros y1 y2 E1 E2. injection E1 as <-. injection E2 as <-. Lra.lra.
Qed.

(** C18 is violated: this function is defined on all of the bracket, yet the search fails because it leaves it. *)
Theorem C18_stays_in_bracket_refuted : exists (f : F64 -> res F64) (tol : F64) (n : nat),
  (forall x, nleb n0 x = true -> nleb x n1 = true -> exists y, f x = Ok y) /\
  fst (zbrent _ (logged f) F_nan n0 n1 tol n []) = Err "outside the bracket"%string.
Proof. exact (ex_intro _ fence (ex_intro _ _ (ex_intro _ _ (conj fence_inside fence_escapes)))). Qed.
Print Assumptions C18_stays_in_bracket_refuted.

(** C18, what does hold: a trial whose interpolation denominator is within 4/3 of the tolerance stays between the current
    best point and the opposite end. *)
Theorem C18_trial_between : forall tol (s : brent R), 0 <= tol ->
  let tol1 := brent_tol tol s in
  tol1 < Rabs (brent_xm s) -> Rabs (tol1 - snd (brent_pq s)) <= 4 / 3 ->
  let trial := brent_trial tol1 (fst (brent_de tol1 s)) s in
  strictly_between (bb s) (bc s) trial \/ trial = bb s.
Proof. exact search_stays. Qed.
Print Assumptions C18_trial_between.

(** C18: and every trial moves towards the opposite end, by at least the tolerance. *)
Theorem C18_moves : forall tol (s : brent R), 0 < tol -> let tol1 := brent_tol tol s in tol1 < Rabs (brent_xm s) ->
  let trial := brent_trial tol1 (fst (brent_de tol1 s)) s in
  0 < (trial - bb s) * (bc s - bb s) /\ tol1 <= Rabs (trial - bb s).
Proof. exact trial_moves. Qed.
Print Assumptions C18_moves.

(** C19: put-call parity, for any symmetric distribution function, any variance and even negative strikes. *)
Theorem C19_parity : forall N df f k s, (forall x, N (- x) = 1 - N x) ->
  call_price N df f k s - put_price N df f k s = df * (f - k).
Proof. exact parity. Qed.
Print Assumptions C19_parity.

Theorem C19_scaling : forall N c df f k s, c <> 0 -> k <> 0 ->
  call_price N df (c * f) (c * k) s = c * call_price N df f k s /\ put_price N df (c * f) (c * k) s = c * put_price N df f k s.
Proof. exact scaling. Qed.
Print Assumptions C19_scaling.

Theorem C19_discounting : forall N c df f k s,
  call_price N (c * df) f k s = c * call_price N df f k s /\ put_price N (c * df) f k s = c * put_price N df f k s.
Proof. exact df_scaling. Qed.
Print Assumptions C19_discounting.

Theorem C19_upper_bounds : forall N df f k s, (forall x, 0 <= N x <= 1) -> 0 <= df -> 0 <= f -> 0 <= k ->
  call_price N df f k s <= df * f /\ put_price N df f k s <= df * k.
Proof. exact upper_bounds. Qed.
Print Assumptions C19_upper_bounds.

(** The theorems below are about the normal distribution, which exists. *)
Example C19_normal_exists : exists N, normal_cdf N.
Proof. exact normal_cdf_exists. Qed.

(** C19: strictly above the intrinsic value, strictly below the underlying. *)
Theorem C19_above_intrinsic : forall N, normal_cdf N -> forall df f k s, 0 < df -> 0 < f -> 0 < k -> 0 < s ->
  Rmax 0 (df * (f - k)) < call_price N df f k s /\ Rmax 0 (df * (k - f)) < put_price N df f k s.
Proof. exact call_above_intrinsic. Qed.
Print Assumptions C19_above_intrinsic.

Theorem C19_below_underlying : forall N, normal_cdf N -> forall df f k s, 0 < df -> 0 < f -> 0 < k -> 0 < s ->
  call_price N df f k s < df * f /\ put_price N df f k s < df * k.
Proof. exact call_below. Qed.
Print Assumptions C19_below_underlying.

(** C19: strictly increasing in the volatility, so that an implied volatility is unique. *)
Theorem C19_increasing_in_volatility : forall N, normal_cdf N ->
  forall df f k s1 s2, 0 < df -> 0 < f -> 0 < k -> 0 < s1 < s2 ->
  call_price N df f k s1 < call_price N df f k s2.
Proof. exact call_increasing_in_s. Qed.
Print Assumptions C19_increasing_in_volatility.

Theorem C19_put_increasing_in_volatility : forall N, normal_cdf N ->
  forall df f k s1 s2, 0 < df -> 0 < f -> 0 < k -> 0 < s1 < s2 ->
  put_price N df f k s1 < put_price N df f k s2.
Proof. exact put_increasing_in_s. Qed.
Print Assumptions C19_put_increasing_in_volatility.

(** C19: a call spread is worth between nothing and its discounted width, in strike and in forward. *)
Theorem C19_decreasing_in_strike : forall N, normal_cdf N ->
  forall df f k1 k2 s, 0 < df -> 0 < f -> 0 < k1 < k2 -> 0 < s ->
  call_price N df f k2 s < call_price N df f k1 s /\
  call_price N df f k1 s - call_price N df f k2 s < df * (k2 - k1).
Proof. exact call_decreasing_in_k. Qed.
Print Assumptions C19_decreasing_in_strike.

Theorem C19_increasing_in_forward : forall N, normal_cdf N ->
  forall df f1 f2 k s, 0 < df -> 0 < f1 < f2 -> 0 < k -> 0 < s ->
  call_price N df f1 k s < call_price N df f2 k s /\
  call_price N df f2 k s - call_price N df f1 k s < df * (f2 - f1).
Proof. exact call_increasing_in_f. Qed.
Print Assumptions C19_increasing_in_forward.

(** C19: a butterfly has a positive value. *)
Theorem C19_convex_in_strike : forall N, normal_cdf N ->
  forall df f k1 k k2 s, 0 < df -> 0 < f -> 0 < k1 -> k1 < k < k2 -> 0 < s ->
  (k2 - k1) * call_price N df f k s < (k2 - k) * call_price N df f k1 s + (k - k1) * call_price N df f k2 s.
Proof. exact call_convex_in_k. Qed.
Print Assumptions C19_convex_in_strike.

(** C19: at the money without variance both arguments of the distribution function are NaN. *)
Theorem C19_at_the_money_refuted : d_plus_minus n0 n0 = (F_nan, F_nan).
Proof. exact d_at_the_money. Qed.
Print Assumptions C19_at_the_money_refuted.
