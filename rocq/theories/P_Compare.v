(** C80: comparing reports of doubles. *)
From Coq Require Import ZArith List String Bool Reals.
From Flocq Require Import Core.
From Verif Require Import Prelude Num M_Reports S_Reports S_Double S_Compare L_CompareDouble.
Import ListNotations.
Open Scope list_scope.
Open Scope R_scope.

(** In any arithmetic, no difference is found between two lists of reports exactly when they agree one by one, two numbers being near
    when their difference as calculated is less than the tolerance as calculated. *)
Theorem C80_exact : forall T (N : Num T) (tol : tolerances T) mine other, Forall proper mine -> Forall proper other ->
  assert_approx_eq_reports tol mine other = Ok tt <-> Forall2 (agree_by (fun x y t => nltb (nabs (nsub x y)) t = true) tol) mine other.
Proof. exact @compared_any. Qed.
Print Assumptions C80_exact.

(** For doubles that means both are finite, the tolerance is a number, and the difference, rounded, is less than it. *)
Theorem C80_doubles : forall tol mine other, double_tolerances tol -> Forall of_doubles mine -> Forall of_doubles other ->
  Forall proper mine -> Forall proper other ->
  assert_approx_eq_reports tol mine other = Ok tt <-> Forall2 (agree_by near_doubles tol) mine other.
Proof. exact compared_doubles. Qed.
Print Assumptions C80_doubles.

(** Two numbers found near are nearer than the tolerance in exact arithmetic too, either way round.  Two that are nearer than it are
    found so, unless their difference rounds up to it. *)
Theorem C80_near : forall x y t,
  (near_doubles x y t -> Rabs (real x - real y) < place t /\ near_doubles y x t) /\
  (finite x -> finite y -> number t -> Rabs (real x - real y) < place t -> near_doubles x y t \/ rnd (Rabs (real x - real y)) = place t).
Proof. exact near_facts. Qed.
Print Assumptions C80_near.

(** Prices of 1 and 1 + 1/4096 with a tolerance of 1/1024; and of 1 and 1 + 1/1024. *)
Example C80_doubles_example : double_tolerances unit_tolerances /\ Forall of_doubles [sample_report n1] /\ Forall of_doubles [sample_report (nlit 4097 4096)] /\
  Forall proper [sample_report n1] /\ Forall proper [sample_report (nlit 4097 4096)] /\
  assert_approx_eq_reports unit_tolerances [sample_report n1] [sample_report (nlit 4097 4096)] = Ok tt /\
  assert_approx_eq_reports unit_tolerances [sample_report n1] [sample_report (nlit 1025 1024)] <> Ok tt.
Proof. exact compare_case. Qed.

(** Reports between which no difference is found have no price or derivative, on either side, that is infinite or not a number. *)
Theorem C80_finite : forall tol mine other, double_tolerances tol -> Forall of_doubles mine -> Forall of_doubles other ->
  Forall proper mine -> Forall proper other -> assert_approx_eq_reports tol mine other = Ok tt ->
  Forall (all_numbers finite (fun _ => True)) mine /\ Forall (all_numbers finite (fun _ => True)) other.
Proof. exact compared_finite. Qed.
Print Assumptions C80_finite.

(** So a report with a value that is not a number does not agree with itself. *)
Theorem C80_itself_refuted : forall tol h y,
  assert_approx_eq_reports tol [DeltaGammaReport h [("BP"%string, (F_nan, y))]] [DeltaGammaReport h [("BP"%string, (F_nan, y))]] <> Ok tt.
Proof. exact nan_case. Qed.
Print Assumptions C80_itself_refuted.

(** Finite reports do agree with themselves, unless a tolerance has been rounded to zero, or is not positive. *)
Theorem C80_itself : forall tol rs, double_tolerances tol -> Forall of_doubles rs -> Forall proper rs ->
  Forall (all_numbers finite (fun _ => True)) rs -> Forall (all_tolerances (fun t => number t /\ 0 < place t) tol) rs -> assert_approx_eq_reports tol rs rs = Ok tt.
Proof. exact compared_itself. Qed.
Print Assumptions C80_itself.

Example C80_itself_example : Forall (all_numbers finite (fun _ => True)) [sample_report n1] /\
  Forall (all_tolerances (fun t => number t /\ 0 < place t) unit_tolerances) [sample_report n1].
Proof. exact itself_case. Qed.

(** A bump size of zero makes the tolerances infinite: any two such reports on the same ids agree, whatever finite deltas and gammas they
    have, unless the difference of two is infinite. *)
Theorem C80_no_bump : forall tol h' m o, finite (tol_unit_risk tol) -> 0 < real (tol_unit_risk tol) -> NoDup (keys m) -> NoDup (keys o) ->
  (forall id, In id (keys m) <-> In id (keys o)) ->
  (forall id x y, get id m = Some x -> get id o = Some y -> (finite (fst x) /\ finite (fst y) /\ in_range (real (fst x) - real (fst y))) /\
    finite (snd x) /\ finite (snd y) /\ in_range (real (snd x) - real (snd y))) ->
  assert_approx_eq_reports tol [DeltaGammaReport n0 m] [DeltaGammaReport h' o] = Ok tt.
Proof. exact compared_unbumped. Qed.
Print Assumptions C80_no_bump.

Theorem C80_no_bump_refuted : exists big : F64, finite big /\ real big = bpow radix2 1000 /\
  assert_approx_eq_reports unit_tolerances [DeltaGammaReport n0 [("BP"%string, (n0, n0))]] [DeltaGammaReport n0 [("BP"%string, (big, big))]] = Ok tt.
Proof. exact unbumped_case. Qed.
Print Assumptions C80_no_bump_refuted.
