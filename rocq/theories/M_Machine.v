(** Model of src/dates in 32-bit integers.  Rust leaves open what an i32 operation does when its result does not fit: with overflow
    checks (debug builds) it panics, without (release builds) it wraps.  The definitions take that as a parameter [norm], applied to the
    result of every addition, subtraction and multiplication. *)
From Coq Require Import ZArith List String Bool.
From Verif Require Import Prelude M_Dates M_Search M_Calendar.
Import ListNotations.
Open Scope Z_scope.

(** Two's complement, as in a release build.  A debug build's [norm] is [i32] of M_Dates. *)
Definition wrap (z : Z) : Z := (z + 2147483648) mod 4294967296 - 2147483648.
Definition wrapping (z : Z) : res Z := Ok (wrap z).

Section Machine.
  Variable norm : Z -> res Z.
  Definition madd (a b : Z) := norm (a + b).
  Definition msub (a b : Z) := norm (a - b).
  Definition mmul (a b : Z) := norm (a * b).
  Definition mdiv (a b : Z) := norm (Z.quot a b).

  (** dates/mod.rs:244-251 [truncated_julian_from_ymd], in evaluation order. *)
  Definition truncated_julian_m (year month day : Z) : res Z :=
    let* a := msub month 14 in
    let* year_month := mdiv a 12 in
    let* t0 := msub day 32075 in
    let* b := madd year 4800 in
    let* b := madd b year_month in
    let* b := mmul 1461 b in
    let* b := mdiv b 4 in
    let* t1 := madd t0 b in
    let* c := msub month 2 in
    let* c' := mmul year_month 12 in
    let* c := msub c c' in
    let* c := mmul 367 c in
    let* c := mdiv c 12 in
    let* t2 := madd t1 c in
    let* e := madd year 4900 in
    let* e := madd e year_month in
    let* e := mdiv e 100 in
    let* e := mmul 3 e in
    let* e := mdiv e 4 in
    let* julian := msub t2 e in
    msub julian 2440000.

  (** dates/mod.rs:98-126 [Date::from_str]. *)
  Definition from_str_m (s : string) : res date :=
    let fields := split_dash s in
    let* y := parse_field s fields 0 in
    let* m := parse_field s fields 1 in
    let* d := parse_field s fields 2 in
    let* result := truncated_julian_m y m d in
    if is_valid result then Ok result else Err s.

  (** calendar.rs:153-155 [EveryDayCalendar::step], mod.rs:63-66. *)
  Definition every_step_m (from : date) (step : Z) : res date := madd from step.

  (** calendar.rs:274-284 [slip_to_next_weekday].  Here [day_of_week] (mod.rs:236-239) cannot overflow, since it first asserts a valid date. *)
  Definition slip_to_next_weekday_m (from : date) (slip_forward : bool) : res date :=
    let* week_day := day_of_week from in
    if week_day <? 5 then Ok from
    else if slip_forward then let* a := madd from 7 in msub a week_day
    else let* a := madd from 4 in msub a week_day.

  (** calendar.rs:238-249 and 421-431. *)
  Definition calendar_days_of_step_m (week_day step : Z) : res Z :=
    if 0 <? step then
      let* a := madd week_day step in let* a := mdiv a 5 in let* a := mmul a 2 in madd step a
    else
      let* a := msub 4 week_day in let* a := msub a step in let* a := mdiv a 5 in let* a := mmul a 2 in msub step a.

  (** calendar.rs:230-262 [WeekdayCalendar::step]. *)
  Definition wk_step_m (from : date) (step : Z) (slip_forward : bool) : res date :=
    let* adj_from := slip_to_next_weekday_m from slip_forward in
    if step =? 0 then Ok adj_from
    else
      let* week_day := day_of_week adj_from in
      let* days := calendar_days_of_step_m week_day step in
      let* to := madd adj_from days in
      let* week_day := day_of_week to in
      if week_day <? 5 then Ok to
      else if 0 <? step then madd to 2
      else msub to 2.

  (** calendar.rs:324-334 [slip_to_next]. *)
  Fixpoint slip_to_next_m (fuel : nat) (hols : list date) (d : date) (step : Z) : res date :=
    match fuel with
    | O => Panic "fuel"
    | S k => let* h := hol_is_holiday hols d in
             if h then let* d' := madd d step in slip_to_next_m k hols d' step else Ok d
    end.

  (** calendar.rs:338-351 [count_holidays].  The casts of the two offsets from usize wrap in every build. *)
  Definition count_holidays_m (hols : list date) (from to : date) : res Z :=
    let '(start, start_is_holiday) := remaining_holidays hols from in
    let '(end_, _) := remaining_holidays hols to in
    let* count := msub (wrap (Z.of_nat end_)) (wrap (Z.of_nat start)) in
    if start_is_holiday then msub count 1 else Ok count.

  (** calendar.rs:440-464: the final loop of [WeekdayAndHolidayCalendar::step]. *)
  Fixpoint hol_step_loop_m (fuel : nat) (hols : list date) (dir : Z) (d : date) (extra : Z) : res date :=
    match fuel with
    | O => Panic "fuel"
    | S k => let* h := hol_is_holiday hols d in
             if h then let* d' := madd d dir in hol_step_loop_m k hols dir d' extra
             else if 0 <? extra then
               let* d' := madd d dir in let* extra' := msub extra 1 in hol_step_loop_m k hols dir d' extra'
             else Ok d
    end.

  (** calendar.rs:411-466 [WeekdayAndHolidayCalendar::step]. *)
  Definition hol_step_m (hols : list date) (from : date) (step : Z) (slip_forward : bool) : res date :=
    let direction := if slip_forward then 1 else -1 in
    let* adj_from := slip_to_next_m day_fuel hols from direction in
    if step =? 0 then Ok adj_from
    else
      let* week_day := day_of_week adj_from in
      let* days := calendar_days_of_step_m week_day step in
      let* to := madd adj_from days in
      let* week_day := day_of_week to in
      if 0 <? step then
        let* w := msub week_day 4 in
        let weekend_days := Z.max w 0 in
        let* c := count_holidays_m hols adj_from to in
        let* extra := madd c weekend_days in
        hol_step_loop_m day_fuel hols 1 to extra
      else
        let weekend_days := if week_day =? 5 then 1 else 0 in
        let* c := count_holidays_m hols to adj_from in
        let* extra := madd c weekend_days in
        hol_step_loop_m day_fuel hols (-1) to extra.

  (** rules.rs:106-119: the number of days in the rules made by [BusinessDays::new_step] and [new_back] from a u32.  The cast wraps
      in every build. *)
  Definition step_of_u32 (n : Z) : Z := wrap n.
  Definition back_of_u32 (n : Z) : res Z := norm (- wrap n).
End Machine.
