(** Specification of the (proleptic) Gregorian calendar, independent of any day-number formula. *)
From Coq Require Import ZArith Bool.
Open Scope Z_scope.

(** Leap years: divisible by 4, except centuries not divisible by 400. *)
Definition leap (y : Z) : bool :=
  (y mod 4 =? 0) && (negb (y mod 100 =? 0) || (y mod 400 =? 0)).

Definition days_in_month (y m : Z) : Z :=
  if m =? 2 then (if leap y then 29 else 28)
  else if (m =? 4) || (m =? 6) || (m =? 9) || (m =? 11) then 30
  else 31.

(** The triple (year, month, day) exists in the calendar. *)
Definition exists_ymd (t : Z * Z * Z) : Prop :=
  let '(y, m, d) := t in 1 <= m <= 12 /\ 1 <= d <= days_in_month y m.

(** The day after. *)
Definition next_ymd (t : Z * Z * Z) : Z * Z * Z :=
  let '(y, m, d) := t in
  if d <? days_in_month y m then (y, m, d + 1)
  else if m <? 12 then (y, m + 1, 1)
  else (y + 1, 1, 1).

(** Calendar order on triples. *)
Definition ymd_lt (s t : Z * Z * Z) : Prop :=
  let '(y1, m1, d1) := s in
  let '(y2, m2, d2) := t in
  y1 < y2 \/ (y1 = y2 /\ (m1 < m2 \/ (m1 = m2 /\ d1 < d2))).

(** Text made of fields separated by '-'; a field itself contains no '-'. *)
From Coq Require Import String Ascii List.
Import ListNotations.

Fixpoint dash_free (s : string) : Prop :=
  match s with
  | EmptyString => True
  | String c s' => c <> "-"%char /\ dash_free s'
  end.

Fixpoint join_dash (fs : list string) : string :=
  match fs with
  | [] => EmptyString
  | [f] => f
  | f :: fs' => append f (String "-" (join_dash fs'))
  end.
