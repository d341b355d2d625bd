(** Model of src/dates/calendar.rs and src/dates/rules.rs. *)
From Coq Require Import ZArith List String Bool.
From Verif Require Import Prelude Num M_Dates M_Search.
Import ListNotations.
Open Scope Z_scope.

(** The four implementations of the [Calendar] trait (calendar.rs:115, 169, 289, 488). *)
Inductive calendar (T : Type) :=
| EveryDay
| Weekday
| Holidays (name : string) (hols : list date)
| VolCal (name : string) (inner : calendar T) (weight : T).
Arguments EveryDay {T}.
Arguments Weekday {T}.
Arguments Holidays {T} name hols.
Arguments VolCal {T} name inner weight.

(** Loop bound for the day-by-day loops.  [is_holiday] panics outside the 72999 valid days, so no such loop
    runs longer. *)
Definition day_fuel : nat := Z.to_nat 73001.

(** calendar.rs:192-194 [WeekdayCalendar::is_holiday]. *)
Definition wk_is_holiday (d : date) : res bool :=
  let* w := day_of_week d in Ok (4 <? w).

(** calendar.rs:274-284 [slip_to_next_weekday]. *)
Definition slip_to_next_weekday (from : date) (slip_forward : bool) : res date :=
  let* week_day := day_of_week from in
  if week_day <? 5 then Ok from
  else if slip_forward then Ok (from + 7 - week_day)
  else Ok (from + 4 - week_day).

(** calendar.rs:313-320 [remaining_holidays]. *)
Definition remaining_holidays (hols : list date) (from : date) : nat * bool :=
  match binary_search_by hols (fun h => Z.compare h from) with
  | Found offset => (offset, true)
  | Missing offset => (offset, false)
  end.

(** calendar.rs:364-371 [WeekdayAndHolidayCalendar::is_holiday]. *)
Definition hol_is_holiday (hols : list date) (d : date) : res bool :=
  let* w := day_of_week d in
  if 4 <? w then Ok true else Ok (snd (remaining_holidays hols d)).

(** calendar.rs:324-334 [slip_to_next]: [while is_holiday(date) { date += step }]. *)
Fixpoint slip_to_next (fuel : nat) (hols : list date) (d : date) (step : Z) : res date :=
  match fuel with
  | O => Panic "fuel"
  | S k => let* h := hol_is_holiday hols d in
           if h then slip_to_next k hols (d + step) step else Ok d
  end.

(** calendar.rs:338-351 [count_holidays]. *)
Definition count_holidays (hols : list date) (from to : date) : Z :=
  let '(start, start_is_holiday) := remaining_holidays hols from in
  let '(end_, _) := remaining_holidays hols to in
  let count := Z.of_nat end_ - Z.of_nat start in
  if start_is_holiday then count - 1 else count.

(** calendar.rs:238-249 and 421-431: calendar days for [step] business days, allowing two days for each weekend. *)
Definition calendar_days_of_step (week_day step : Z) : Z :=
  if 0 <? step then step + (Z.quot (week_day + step) 5) * 2
  else step - (Z.quot (4 - week_day - step) 5) * 2.

(** calendar.rs:230-262 [WeekdayCalendar::step]. *)
Definition wk_step (from : date) (step : Z) (slip_forward : bool) : res date :=
  let* adj_from := slip_to_next_weekday from slip_forward in
  if step =? 0 then Ok adj_from
  else
    let* week_day := day_of_week adj_from in
    let to := adj_from + calendar_days_of_step week_day step in
    let* week_day := day_of_week to in
    if week_day <? 5 then Ok to
    else if 0 <? step then Ok (to + 2)
    else Ok (to - 2).

(** calendar.rs:440-464: the final loop of [WeekdayAndHolidayCalendar::step], [dir] being +1 or -1. *)
Fixpoint hol_step_loop (fuel : nat) (hols : list date) (dir : Z) (d : date) (extra : Z) : res date :=
  match fuel with
  | O => Panic "fuel"
  | S k => let* h := hol_is_holiday hols d in
           if h then hol_step_loop k hols dir (d + dir) extra
           else if 0 <? extra then hol_step_loop k hols dir (d + dir) (extra - 1)
           else Ok d
  end.

(** calendar.rs:411-466 [WeekdayAndHolidayCalendar::step]. *)
Definition hol_step (hols : list date) (from : date) (step : Z) (slip_forward : bool) : res date :=
  let direction := if slip_forward then 1 else -1 in
  let* adj_from := slip_to_next day_fuel hols from direction in
  if step =? 0 then Ok adj_from
  else
    let* week_day := day_of_week adj_from in
    let to := adj_from + calendar_days_of_step week_day step in
    let* week_day := day_of_week to in
    if 0 <? step then
      let weekend_days := Z.max (week_day - 4) 0 in
      let extra := count_holidays hols adj_from to + weekend_days in
      hol_step_loop day_fuel hols 1 to extra
    else
      let weekend_days := if week_day =? 5 then 1 else 0 in
      let extra := count_holidays hols to adj_from + weekend_days in
      hol_step_loop day_fuel hols (-1) to extra.

Section Counts.
  Context {T : Type} `{Num T}.
  Local Open Scope num_scope.

  (** calendar.rs:136-148 [EveryDayCalendar::count_business_days]. *)
  Definition every_count (from : date) (from_fraction : T) (to : date) (to_fraction : T) : res T :=
    if (to <? from)%Z then Ok n0
    else Ok (nofZ (to - from)%Z + to_fraction - from_fraction).

  (** calendar.rs:211-219 and 389-394: weekdays strictly between two weekdays, from whole and partial weeks. *)
  Definition week_days_between (adj_from adj_to : date) : res Z :=
    (let whole_days := adj_to - adj_from in
     let whole_weeks := Z.quot whole_days 7 in
     let week_days := whole_weeks * 5 in
     let* dto := day_of_week adj_to in
     let* dfrom := day_of_week adj_from in
     let diff := dto - dfrom in
     let partial_week_days := if 0 <=? diff then diff else 5 + diff in
     Ok (week_days + partial_week_days))%Z.

  (** calendar.rs:196-228 [WeekdayCalendar::count_business_days]. *)
  Definition wk_count (from : date) (from_fraction : T) (to : date) (to_fraction : T) : res T :=
    let* adj_from := slip_to_next_weekday from true in
    let* adj_to := slip_to_next_weekday to false in
    if (adj_to <? adj_from)%Z then Ok n0
    else
      let* days := week_days_between adj_from adj_to in
      let* from_is_holiday := wk_is_holiday from in
      let* to_is_holiday := wk_is_holiday to in
      let from_adj := if from_is_holiday then n0 else from_fraction in
      let to_adj := if to_is_holiday then n1 else to_fraction in
      Ok (nofZ days + (to_adj - from_adj)).

  (** calendar.rs:373-409 [WeekdayAndHolidayCalendar::count_business_days]. *)
  Definition hol_count (hols : list date)
      (from : date) (from_fraction : T) (to : date) (to_fraction : T) : res T :=
    let* adj_from := slip_to_next day_fuel hols from 1 in
    let* adj_to := slip_to_next day_fuel hols to (-1) in
    if (adj_to <? adj_from)%Z then Ok n0
    else
      let* days := week_days_between adj_from adj_to in
      let holiday_count := count_holidays hols adj_from adj_to in
      let* from_is_holiday := hol_is_holiday hols from in
      let* to_is_holiday := hol_is_holiday hols to in
      let from_adj := if from_is_holiday then n0 else from_fraction in
      let to_adj := if to_is_holiday then n1 else to_fraction in
      Ok (nofZ (days - holiday_count)%Z + (to_adj - from_adj)).

  (** calendar.rs:518-538 [VolatilityCalendar::count_business_days] over the inner calendar's count. *)
  Definition vol_count (weight : T) (inner : date -> T -> date -> T -> res T)
      (from : date) (from_fraction : T) (to : date) (to_fraction : T) : res T :=
    if (to <? from)%Z then Ok n0
    else
      let* business_days := inner from from_fraction to to_fraction in
      let all_days := nofZ (to - from)%Z + to_fraction - from_fraction in
      Ok (business_days * (n1 - weight) + all_days * weight).

  (** [Calendar::count_business_days] dispatched over the implementations. *)
  Fixpoint count_business_days (c : calendar T) : date -> T -> date -> T -> res T :=
    match c with
    | EveryDay => every_count
    | Weekday => wk_count
    | Holidays _ hols => hol_count hols
    | VolCal _ inner weight => vol_count weight (count_business_days inner)
    end.

  (** [Calendar::is_holiday] (calendar.rs:130, 192, 364, 514). *)
  Fixpoint is_holiday (c : calendar T) (d : date) : res bool :=
    match c with
    | EveryDay => Ok false
    | Weekday => wk_is_holiday d
    | Holidays _ hols => hol_is_holiday hols d
    | VolCal _ inner _ => is_holiday inner d
    end.

  (** calendar.rs:60-62 and 614-616 [day_weight]. *)
  Definition day_weight (c : calendar T) (d : date) : res T :=
    let* h := is_holiday c d in
    match c with
    | VolCal _ _ weight => Ok (if h then weight else n1)
    | _ => Ok (if h then n0 else n1)
    end.

  (** calendar.rs:151, 256, 468, 607 [standard_basis]. *)
  Fixpoint standard_basis (c : calendar T) : T :=
    match c with
    | EveryDay => nofZ 365
    | Weekday => nofZ 252
    | Holidays _ _ => nofZ 252
    | VolCal _ inner weight => standard_basis inner * (n1 - weight) + nofZ 365 * weight
    end.

  (** The tolerance literal 1e-12. *)
  Definition tiny : T := nlit 1 1000000000000.

  (** calendar.rs:571-600: the loop of [step_partial]; returns (date, steps_needed, prev_date, prev_steps). *)
  Fixpoint vol_step_loop (fuel : nat) (count : date -> T -> date -> T -> res T)
      (from : date) (total : T) (slip_forward : bool)
      (d : date) (needed : T) (prev : date) (prev_steps : T) : res (date * T * date * T) :=
    match fuel with
    | O => Panic "fuel"
    | S k =>
        if n0 <? needed then
          let whole_steps := ntrunc (needed + tiny) in
          let next_step := Z.max whole_steps 1 in
          let d' := (d + next_step * (if slip_forward then 1 else -1))%Z in
          let* taken := if slip_forward then count from n0 d' n0 else count d' n1 from n1 in
          let needed' := total - taken in
          let* _ := assert_ (- n1 <=? needed') "steps_needed >= -1.0" in
          vol_step_loop k count from total slip_forward d' needed' d needed
        else Ok (d, needed, prev, prev_steps)
    end.

  (** calendar.rs:549-605 [VolatilityCalendar::step_partial].  [as i32] is truncation; [floor] of a positive number too. *)
  Definition vol_step_partial (weight : T) (inner_count : date -> T -> date -> T -> res T)
      (inner_step : date -> Z -> bool -> res date)
      (from : date) (step : T) (slip_forward : bool) : res date :=
    if weight <? tiny then inner_step from (ntrunc step) slip_forward
    else
      let* _ := assert_ ((step =? n0) || Bool.eqb slip_forward (n0 <? step)) "slip direction" in
      let total := nabs step in
      let* (d, needed, prev, prev_steps) :=
        vol_step_loop day_fuel (vol_count weight inner_count) from total slip_forward from total from total in
      if (needed <? n0) && (prev_steps <? - needed) then Ok prev else Ok d.

  (** [Calendar::step] dispatched (calendar.rs:150, 230, 411, 540). *)
  Fixpoint step (c : calendar T) (from : date) (n : Z) (slip_forward : bool) : res date :=
    match c with
    | EveryDay => Ok (from + n)%Z
    | Weekday => wk_step from n slip_forward
    | Holidays _ hols => hol_step hols from n slip_forward
    | VolCal _ inner weight =>
        vol_step_partial weight (count_business_days inner) (step inner) from (nofZ n) slip_forward
    end.

  (** [Calendar::step_partial] dispatched (calendar.rs:67-69, 549). *)
  Definition step_partial (c : calendar T) (from : date) (x : T) (slip_forward : bool) : res date :=
    match c with
    | VolCal _ inner weight =>
        vol_step_partial weight (count_business_days inner) (step inner) from x slip_forward
    | _ => step c from (nround x) slip_forward
    end.

  (** dates/datetime.rs:83-95 [DateDayFraction]; its constructor asserts 0 <= fraction < 1. *)
  Record ddf := mkDDF { ddf_date : date; ddf_frac : T }.
  Definition ddf_new (d : date) (f : T) : res ddf :=
    let* _ := assert_ ((n0 <=? f) && (f <? n1)) "day_fraction" in Ok (mkDDF d f).

  (** calendar.rs:73-79 [year_fraction]. *)
  Definition year_fraction (c : calendar T) (from to : ddf) : res T :=
    let* days := count_business_days c (ddf_date from) (ddf_frac from) (ddf_date to) (ddf_frac to) in
    Ok (days / standard_basis c).
End Counts.
Arguments ddf T : clear implicits.

(** ** src/dates/rules.rs *)

(** The three implementations of [DateRule] (rules.rs:47, 75, 141). *)
Inductive date_rule (T : Type) :=
| NullRule
| BusinessDays (cal : calendar T) (step : Z) (slip_forward : bool)
| ModifiedFollowing (cal : calendar T).
Arguments NullRule {T}.
Arguments BusinessDays {T} cal step slip_forward.
Arguments ModifiedFollowing {T} cal.

Section Rules.
  Context {T : Type} `{Num T}.

  (** rules.rs:85-119 constructors: new_next, new_prev, new_step, new_back.  The argument of new_step/new_back is u32
      and is cast with [as i32]; the model takes it below 2^31. *)
  Definition new_next (c : calendar T) := BusinessDays c 0 true.
  Definition new_prev (c : calendar T) := BusinessDays c 0 false.
  Definition new_step (c : calendar T) (n : Z) := BusinessDays c n true.
  Definition new_back (c : calendar T) (n : Z) := BusinessDays c (- n) false.

  (** rules.rs:153-167 [ModifiedFollowing::apply]. *)
  Definition modified_following (c : calendar T) (d : date) : res date :=
    let* following := step c d 0 true in
    let '(_, m1, _) := ymd d in
    let '(_, m2, _) := ymd following in
    if m1 =? m2 then Ok following else step c d 0 false.

  (** rules.rs:57, 126, 153 [DateRule::apply]. *)
  Definition apply_rule (r : date_rule T) (d : date) : res date :=
    match r with
    | NullRule => Ok d
    | BusinessDays c n slip => step c d n slip
    | ModifiedFollowing c => modified_following c d
    end.
End Rules.
