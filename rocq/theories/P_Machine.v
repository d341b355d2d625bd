(** C76: dates in 32-bit integers, with and without overflow checks. *)
From Coq Require Import ZArith List String Bool.
From Verif Require Import Prelude Num M_Dates M_Search M_Calendar M_Machine S_Machine L_Dates L_Machine.
Import ListNotations.
Open Scope Z_scope.

(** A debug build and a release build are both machines in the sense used below. *)
Theorem C76_builds : machine i32 /\ machine wrapping.
Proof. exact (conj checked_machine wrapping_machine). Qed.
Print Assumptions C76_builds.

(** Any text on which a debug build does not stop with an overflow is read alike by every build. *)
Theorem C76_text : forall norm, machine norm -> forall s, from_str s <> Panic "attempt to overflow" -> from_str_m norm s = from_str s.
Proof. exact from_str_any. Qed.
Print Assumptions C76_text.

Example C76_text_applies : from_str "2018-01-01" = Ok 18120 /\ from_str_m wrapping "2018-01-01" = Ok 18120 /\
  from_str "2018-13-45" = Ok 18529 /\ from_str_m wrapping "2018-13-45" = Ok 18529.
Proof. vm_compute. auto. Qed.

(** For a day of a month that exists, that is so up to the year 1465072. *)
Theorem C76_years : forall y m d, 0 <= y <= 2147483647 -> 1 <= m <= 12 -> 1 <= d <= 31 ->
  (exists z, truncated_julian_from_ymd_checked y m d = Ok z) <-> y <= 1465072 + (if m <=? 2 then 1 else 0).
Proof. exact years. Qed.
Print Assumptions C76_years.

(** But a year that is far too late panics in one and is read as this century in the other. *)
Theorem C76_late_years_refuted : exists d, from_str "2941824-01-01" = Panic "attempt to overflow" /\
  from_str_m wrapping "2941824-01-01" = Ok d /\ to_string d = "2018-09-26"%string.
Proof. exact later_years. Qed.
Print Assumptions C76_late_years_refuted.

(** Steps of any number of days that can be passed: the date returned is that of exact arithmetic, in every build, with nothing
    assumed of the date started from. *)
Theorem C76_weekdays : forall norm, machine norm -> forall T (N : Num T) from n fwd e, fits n ->
  wk_step_m norm from n fwd = Ok e <-> step (Weekday : calendar T) from n fwd = Ok e.
Proof. exact (fun norm M T N => wk_step_any norm M). Qed.
Print Assumptions C76_weekdays.

Theorem C76_holidays : forall norm, machine norm -> forall T (N : Num T) name hols from n fwd e,
  Z.of_nat (List.length hols) <= 2147480000 -> fits n ->
  hol_step_m norm hols from n fwd = Ok e <-> step (Holidays name hols : calendar T) from n fwd = Ok e.
Proof. exact (fun norm M T N name => hol_step_any norm M). Qed.
Print Assumptions C76_holidays.

(** With no holidays at all the date is not checked to be valid; if it is, it is right. *)
Theorem C76_every_day : forall norm, machine norm -> forall T (N : Num T) from n fwd e, fits n -> 0 < from < 73000 -> 0 < e < 73000 ->
  every_step_m norm from n = Ok e <-> step (EveryDay : calendar T) from n fwd = Ok e.
Proof. exact every_step_dispatched. Qed.
Print Assumptions C76_every_day.

Example C76_steps_apply : wk_step_m wrapping 18120 300 true = Ok 18540 /\ fits 300 /\
  (exists m, wk_step_m wrapping 18120 2147483647 true = Panic m) /\ every_step_m wrapping 18120 2147483647 = Ok (-2147465529).
Proof. exact steps_case. Qed.

(** A rule that steps by n days, given as an unsigned number, steps by that many only below 2^31; the largest steps back one day. *)
Theorem C76_unsigned : forall n, 0 <= n < 4294967296 -> step_of_u32 n = n <-> n < 2147483648.
Proof. exact u32_steps. Qed.
Print Assumptions C76_unsigned.

Theorem C76_unsigned_refuted : step_of_u32 4294967295 = -1.
Proof. exact (eq_refl (-1)). Qed.
Print Assumptions C76_unsigned_refuted.

(** One that steps back by n days does so below 2^31, in every build, and above it steps forward. *)
Theorem C76_unsigned_back : forall norm, machine norm -> forall n, 0 <= n < 4294967296 ->
  (n < 2147483648 -> back_of_u32 norm n = Ok (- n)) /\ (2147483648 < n -> back_of_u32 norm n = Ok (4294967296 - n)).
Proof. exact u32_back. Qed.
Print Assumptions C76_unsigned_back.

Example C76_unsigned_back_example : back_of_u32 i32 3 = Ok (-3) /\ back_of_u32 wrapping 4294967293 = Ok 3.
Proof. exact (conj eq_refl eq_refl). Qed.

(** The days which can be shown as year, month and day in a debug build.  They are shown right. *)
Theorem C76_shown : forall d, (exists t, ymd_from_truncated_julian_checked d = Ok t) <-> -539379481 <= d <= 534362342.
Proof. exact ymd_range. Qed.
Print Assumptions C76_shown.

Theorem C76_shown_right : forall d t, ymd_from_truncated_julian_checked d = Ok t -> t = ymd d.
Proof. exact ymd_checked_is. Qed.
Print Assumptions C76_shown_right.

(** So the two infinite dates the documentation reserves, the least and the greatest integer, cannot be shown. *)
Theorem C76_infinite_refuted : (forall t, ymd_from_truncated_julian_checked 2147483647 <> Ok t) /\ (forall t, ymd_from_truncated_julian_checked (-2147483648) <> Ok t).
Proof. exact infinite_dates. Qed.
Print Assumptions C76_infinite_refuted.
