(** C70: rate curves made from quoted rates, and bumps against quoting anew. *)
From Coq Require Import ZArith List String Bool Lia Reals Lra.
From Coq.Floats Require Import SpecFloat.
From Flocq Require Import Core.
From Verif Require Import Prelude Num M_Dates M_Interp S_Interp S_Double M_Curves S_Data L_CurveNew L_CurveNewDouble.
Import ListNotations.
Open Scope list_scope.
Open Scope R_scope.

(** C70: a curve is made from its quotes exactly when there is one at least and their dates increase; it then starts at the date it was given. *)
Theorem C70_made : forall base (pts : list (Z * R)) l r,
  ((exists c, act365_new base pts l r = Ok c) <-> pts <> [] /\ forall p q, neighbours pts p q -> (fst p < fst q)%Z) /\
  (forall c, act365_new base pts l r = Ok c -> base_date c = base).
Proof. exact made_when. Qed.
Print Assumptions C70_made.

Example C70_made_example : (exists c, act365_new 0%Z [(0%Z, 1 / 100); (365%Z, 2 / 100)] Flat Flat = Ok c) /\
  ~ exists c, act365_new 0%Z [(365%Z, 1 / 100); (365%Z, 2 / 100)] Flat Flat = Ok c.
Proof. exact made_when_example. Qed.

(** C70: at a quoted date it answers the quoted rate, and the discount factor that rate compounds to. *)
Theorem C70_quoted : forall nan base (pts : list (Z * R)) l r c, act365_new base pts l r = Ok c ->
  forall d y, In (d, y) pts -> (d <> base -> r_and_t nan c d = Ok (y, IZR (d - base) / 365)) /\
    rt nan c d = Ok (y * (IZR (d - base) / 365)) /\ df nan c base d = Ok (exp (y * (IZR (d - base) / 365))).
Proof. exact made_quoted. Qed.
Print Assumptions C70_quoted.

(** C70: except that the rate it answers for the date it starts at is zero, whatever was quoted for that date. *)
Theorem C70_base_refuted : forall nan base (pts : list (Z * R)) l r c, act365_new base pts l r = Ok c -> r_and_t nan c base = Ok (0, 0).
Proof. exact made_base. Qed.
Print Assumptions C70_base_refuted.

(** C70: between two quotes the rate runs on the straight line between them. *)
Theorem C70_between : forall nan base (pts : list (Z * R)) l r c, act365_new base pts l r = Ok c ->
  forall d p q, neighbours pts p q -> (fst p < d < fst q)%Z ->
    rt nan c d = Ok ((snd p + (snd q - snd p) * (IZR (d - fst p) / IZR (fst q - fst p))) * (IZR (d - base) / 365)).
Proof. exact made_between. Qed.
Print Assumptions C70_between.

(** C70: before the first quote and after the last it does what it was told to: that quote, zero, NaN or an error. *)
Theorem C70_before : forall nan base (pts : list (Z * R)) l r c, act365_new base pts l r = Ok c ->
  forall d p, first_point pts p -> (d < fst p)%Z ->
    (l = Flat -> rt nan c d = Ok (snd p * (IZR (d - base) / 365))) /\ (l = Zero -> rt nan c d = Ok 0) /\
    (l = NotANumber -> rt nan c d = Ok (nan * (IZR (d - base) / 365))) /\ (l = Throw -> d <> base -> exists m, rt nan c d = Err m).
Proof. exact made_before. Qed.
Print Assumptions C70_before.

Theorem C70_after : forall nan base (pts : list (Z * R)) l r c, act365_new base pts l r = Ok c ->
  forall d p, l <> Natural -> last_point pts p -> (fst p < d)%Z ->
    (r = Flat -> rt nan c d = Ok (snd p * (IZR (d - base) / 365))) /\ (r = Zero -> rt nan c d = Ok 0) /\
    (r = NotANumber -> rt nan c d = Ok (nan * (IZR (d - base) / 365))) /\ (r = Throw -> d <> base -> exists m, rt nan c d = Err m).
Proof. exact made_after. Qed.
Print Assumptions C70_after.

Example C70_quoted_example : exists c, act365_new 0%Z [(0%Z, 1 / 100); (730%Z, 3 / 100)] Flat Zero = Ok c /\
  rt 0 c 365%Z = Ok (2 / 100) /\ rt 0 c 730%Z = Ok (6 / 100) /\ rt 0 c 1000%Z = Ok 0 /\ rt 0 c (-365)%Z = Ok (- (1 / 100)).
Proof. exact made_example. Qed.

(** C70: a bump of continuously compounded rates is the curve of the quotes bumped, at every date inside and outside them,
    for the ways to extrapolate that follow the quotes. *)
Theorem C70_bump_requotes : forall nan base (pts : list (Z * R)) l r c b d,
  l = Flat \/ l = Natural \/ l = Throw -> r = Flat \/ r = Natural \/ r = Throw -> act365_new base pts l r = Ok c ->
  exists c', act365_new base (map (fun q => (fst q, snd q + b)) pts) l r = Ok c' /\
    rt nan (apply_yield (FlatContinuouslyCompounded b) c) d = rt nan c' d.
Proof. exact bump_requotes. Qed.
Print Assumptions C70_bump_requotes.

(** C70: not so for a curve that is zero outside its quotes: the bump moves it there as well. *)
Theorem C70_bump_zero_refuted : exists base pts c c' d b, act365_new base pts Zero Zero = Ok c /\
  act365_new base (map (fun q => (fst q, snd q + b)) pts) Zero Zero = Ok c' /\
  forall nan, rt nan (apply_yield (FlatContinuouslyCompounded b) c) d <> rt nan c' d.
Proof. exact bump_zero_policy. Qed.
Print Assumptions C70_bump_zero_refuted.

(** C70: a bump of annualised rates adds to the annual growth of every quote at its date. *)
Theorem C70_annualised : forall nan base (pts : list (Z * R)) l r c b d y, act365_new base pts l r = Ok c -> In (d, y) pts ->
  rt nan (apply_yield (FlatAnnualised b) c) d = Ok (ln (exp y + b) * (IZR (d - base) / 365)).
Proof. exact annualised_requotes_at. Qed.
Print Assumptions C70_annualised.

(** C70: but it is not the curve of the quotes so bumped between their dates. *)
Theorem C70_annualised_refuted : exists base pts c c' d b, act365_new base pts Flat Flat = Ok c /\
  act365_new base (map (fun q => (fst q, ln (exp (snd q) + b))) pts) Flat Flat = Ok c' /\
  forall nan, rt nan (apply_yield (FlatAnnualised b) c) d <> rt nan c' d.
Proof. exact annualised_not_requoted. Qed.
Print Assumptions C70_annualised_refuted.

(** C70: on doubles the same dates are taken, whatever the rates, and the rate answered at a quoted date is the quote to the last bit. *)
Theorem C70_double_made : forall (pts : list (Z * F64)) base l r, (forall p, In p pts -> i32 (fst p)) ->
  (exists c, act365_new base pts l r = Ok c) <-> pts <> [] /\ forall p q, neighbours pts p q -> (fst p < fst q)%Z.
Proof. exact made_double_when. Qed.
Print Assumptions C70_double_made.

Theorem C70_double_quoted : forall (pts : list (Z * F64)), (forall p, In p pts -> i32 (fst p)) ->
  forall (TR : Trans F64) nan base l r c d y, act365_new base pts l r = Ok c -> In (d, y) pts -> d <> base ->
  r_and_t nan c d = Ok (y, ndiv (nofZ (d - base)) (nofZ 365)).
Proof. exact made_double_quoted. Qed.
Print Assumptions C70_double_quoted.

Example C70_double_example : exists c, act365_new (T := F64) 0%Z [(0%Z, nlit 1 10); (365%Z, F_nan)] Flat Flat = Ok c.
Proof. apply made_double_when; [intros p [<-|[<-|[]]]; vm_compute; split; congruence|]. split; [discriminate|].
  intros p q ([|[|[|i]]] & A & B); cbn in A, B; try discriminate. injection A as <-. injection B as <-. reflexivity. Qed.
