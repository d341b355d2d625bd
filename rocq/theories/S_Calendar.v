(** Specification of business-day arithmetic, day by day. *)
From Coq Require Import ZArith List Bool Reals Sorted.
From Verif Require Import M_Dates M_Calendar.   (* only for [ymd] (property C01) and the type [calendar] *)
Import ListNotations.
Open Scope Z_scope.

(** Monday to Friday: day number 4 is a Monday (588, 1970-01-01, is a Thursday). *)
Definition weekday (d : Z) : bool := (d - 4) mod 7 <? 5.

(** A business day: a weekday which is not in the holiday list. *)
Definition business (hols : list Z) (d : Z) : bool :=
  weekday d && negb (existsb (Z.eqb d) hols).

(** What the code requires of a holiday list: date order, no duplicates, no weekends. *)
Definition holiday_list (hols : list Z) : Prop :=
  StronglySorted Z.lt hols /\ Forall (fun h => weekday h = true) hols.

(** [slips biz dir d e]: e is the first business day at or after d in direction dir. *)
Definition slips (biz : Z -> bool) (dir d e : Z) : Prop :=
  exists k, 0 <= k /\ e = d + dir * k /\ biz e = true /\
    forall j, 0 <= j < k -> biz (d + dir * j) = false.

(** [moves biz dir d e]: e is the first business day strictly after d in direction dir. *)
Definition moves (biz : Z -> bool) (dir d e : Z) : Prop :=
  exists k, 0 < k /\ e = d + dir * k /\ biz e = true /\
    forall j, 0 < j < k -> biz (d + dir * j) = false.

(** n single moves. *)
Inductive moves_n (biz : Z -> bool) (dir : Z) : nat -> Z -> Z -> Prop :=
| moves_0 d : moves_n biz dir 0 d d
| moves_S n d e f : moves_n biz dir n d e -> moves biz dir e f -> moves_n biz dir (S n) d f.

Definition dir_of (forward : bool) : Z := if forward then 1 else -1.

(** The documented meaning of [Calendar::step]: slip off a holiday, then |n| single moves in the direction of n;
    [s] is the date slipped to. *)
Definition steps_to (biz : Z -> bool) (from n : Z) (slip_forward : bool) (s e : Z) : Prop :=
  slips biz (dir_of slip_forward) from s /\
  moves_n biz (dir_of (0 <? n)) (Z.to_nat (Z.abs n)) s e.

(** The range in which the weekday of a date may be asked for. *)
Definition in_range (d : Z) : Prop := 0 < d < 73000.

(** Sum of the weights of n consecutive days from [from]. *)
Fixpoint sum_days (w : Z -> R) (from : Z) (n : nat) : R :=
  match n with
  | O => 0%R
  | S k => (w from + sum_days w (from + 1) k)%R
  end.

(** Weighted time between two fractional days, day by day: all days of from..=to, corrected at both ends. *)
Definition weighted_time (w : Z -> R) (from : Z) (from_fraction : R) (to : Z) (to_fraction : R) : R :=
  if to <? from then 0%R
  else (sum_days w from (Z.to_nat (to - from + 1))
        - w from * from_fraction - w to * (1 - to_fraction))%R.

(** Weight 1 on business days, [h] on the others. *)
Definition weight_of (biz : Z -> bool) (h : R) (d : Z) : R := if biz d then 1%R else h.

(** The business days of a calendar: all days; weekdays; weekdays outside the holiday list; those of the underlying
    calendar for a volatility calendar. *)
Fixpoint business_of {T} (c : calendar T) : Z -> bool :=
  match c with
  | EveryDay => fun _ => true
  | Weekday => weekday
  | Holidays _ hols => business hols
  | VolCal _ inner _ => business_of inner
  end.

(** Requirements on a calendar that do not involve numbers: proper holiday lists. *)
Fixpoint orderly {T} (c : calendar T) : Prop :=
  match c with
  | EveryDay | Weekday => True
  | Holidays _ hols => holiday_list hols
  | VolCal _ inner _ => orderly inner
  end.

(** Requirements on a calendar: proper holiday lists, weights between 0 and 1. *)
Fixpoint proper (c : calendar R) : Prop :=
  match c with
  | EveryDay | Weekday => True
  | Holidays _ hols => holiday_list hols
  | VolCal _ inner w => proper inner /\ (0 <= w <= 1)%R
  end.

(** Not a volatility calendar. *)
Definition plain {T} (c : calendar T) : Prop := match c with VolCal _ _ _ => False | _ => True end.

(** The dates a calendar can be asked about. *)
Fixpoint covers {T} (c : calendar T) (d : Z) : Prop :=
  match c with
  | EveryDay => True
  | VolCal _ inner _ => covers inner d
  | _ => in_range d
  end.

(** The weight of a day: 1 on business days; on holidays 0, or for a volatility calendar its holiday weight (the part
    1 - w of a day's time that runs on the underlying calendar, plus the part w that always runs). *)
Fixpoint weight (c : calendar R) (d : Z) : R :=
  match c with
  | VolCal _ inner w => (weight inner d * (1 - w) + w)%R
  | _ => weight_of (business_of c) 0 d
  end.

(** Weighted time passed when going j whole days from [from] in direction dir. *)
Fixpoint distance (w : Z -> R) (dir from : Z) (j : nat) : R :=
  match j with
  | O => 0%R
  | S i => (distance w dir from i + w (from + dir * Z.of_nat i)%Z)%R
  end.

(** Both dates are in the same month of the same year. *)
Definition same_month (d e : Z) : Prop :=
  let '(y1, m1, _) := ymd d in let '(y2, m2, _) := ymd e in y1 = y2 /\ m1 = m2.
