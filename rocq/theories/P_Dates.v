(** Properties C01-C05: dates. *)
From Coq Require Import ZArith List String Bool Lia.
From Verif Require Import Prelude M_Dates S_Dates L_DatesSweep L_Dates.
Import ListNotations.
Open Scope Z_scope.

(** C01: [ymd] of the next day is the Gregorian successor, starting from 588 = 1970-01-01. *)
Theorem C01_ymd_anchor : ymd 588 = (1970, 1, 1).
Proof. exact (eq_refl (1970, 1, 1)). Qed.
Print Assumptions C01_ymd_anchor.

Theorem C01_ymd_successor : forall d, -2440000 <= d -> ymd (d + 1) = next_ymd (ymd d).
Proof. exact (fun d H => proj1 (cycle_facts d H)). Qed.
Print Assumptions C01_ymd_successor.

(** C01: every day maps to an existing triple which maps back to it. *)
Theorem C01_from_ymd_of_ymd : forall d, -2440000 <= d ->
  exists_ymd (ymd d) /\ let '(y, m, dd) := ymd d in from_ymd y m dd = d.
Proof. exact (fun d H => conj (proj1 (proj2 (cycle_facts d H))) (proj1 (proj2 (proj2 (cycle_facts d H))))). Qed.
Print Assumptions C01_from_ymd_of_ymd.

(** C01: every existing triple from the year -4713 on maps to a day which maps back to it. *)
Theorem C01_ymd_of_from_ymd : forall y m d, -4713 <= y -> exists_ymd (y, m, d) ->
  ymd (from_ymd y m d) = (y, m, d).
Proof. exact (fun y m d H E => ymd_of_from_ymd y m d H E). Qed.
Print Assumptions C01_ymd_of_from_ymd.

Example C01_example : exists_ymd (2000, 2, 29) /\ from_ymd 2000 2 29 = 11604 /\ ymd 11605 = (2000, 3, 1).
Proof. repeat split; vm_compute; congruence. Qed.

(** C02: day-number order is calendar order. *)
Theorem C02_order : forall d1 d2, -2440000 <= d1 -> -2440000 <= d2 ->
  (d1 < d2 <-> ymd_lt (ymd d1) (ymd d2)).
Proof. exact ymd_order. Qed.
Print Assumptions C02_order.

(** C02: with every i32 operation checked, both conversions succeed on every valid date. *)
Theorem C02_no_overflow : forall d, is_valid d = true ->
  ymd_from_truncated_julian_checked d = Ok (ymd d) /\
  (let '(y, m, dd) := ymd d in truncated_julian_from_ymd_checked y m dd = Ok d).
Proof. exact no_overflow. Qed.
Print Assumptions C02_no_overflow.

Example C02_example : ymd_lt (ymd 588) (ymd 72999) /\ is_valid 72999 = true /\ ymd 72999 = (2168, 4, 3).
Proof. split; [|split]; vm_compute; auto. Qed.

(** C03: weekdays. *)
Theorem C03_panics_iff_invalid : forall d, (exists m, day_of_week d = Panic m) <-> ~ (0 < d < 73000).
Proof. exact day_of_week_panics_iff. Qed.
Print Assumptions C03_panics_iff_invalid.

Theorem C03_weekday_cycle : forall d, 0 < d < 73000 ->
  exists w, day_of_week d = Ok w /\ 0 <= w < 7 /\
    (d + 1 < 73000 -> day_of_week (d + 1) = Ok (if w =? 6 then 0 else w + 1)).
Proof. exact day_of_week_cycle. Qed.
Print Assumptions C03_weekday_cycle.

Theorem C03_weekday_anchor : day_of_week 588 = Ok 3.
Proof. exact (eq_refl (Ok 3)). Qed.
Print Assumptions C03_weekday_anchor.

(** C04: text round trip. *)
Theorem C04_text_round_trip : forall d, 0 < d < 73000 -> from_str (to_string d) = Ok d.
Proof. exact (fun d H => text_round_trip d (proj2 (is_valid_iff d) H)). Qed.
Print Assumptions C04_text_round_trip.

Example C04_example : to_string 588 = "1970-01-01"%string /\ from_str "1970-01-01" = Ok 588.
Proof. split; reflexivity. Qed.

(** C05: a successful parse yields a valid date. *)
Theorem C05_parse_valid : forall s d, from_str s = Ok d -> 0 < d < 73000.
Proof. exact (fun s d H => proj1 (is_valid_iff d) (from_str_valid s d H)). Qed.
Print Assumptions C05_parse_valid.

(** C05: parsing panics with an index error exactly on texts of fewer than three fields which all are integers. *)
Theorem C05_index_panic_iff : forall fs, fs <> [] -> Forall dash_free fs ->
  (from_str (join_dash fs) = Panic "index out of bounds" <->
   (List.length fs < 3)%nat /\ Forall (fun f => parse_i32 f <> None) fs).
Proof. exact from_str_index_panic. Qed.
Print Assumptions C05_index_panic_iff.

(** C05: three integer fields of reasonable size are accepted whatever the month and day are, and surplus fields are ignored. *)
Theorem C05_fields_normalised : forall a b c rest y m d,
  Forall dash_free (a :: b :: c :: rest) ->
  parse_i32 a = Some y -> parse_i32 b = Some m -> parse_i32 c = Some d ->
  -1000000 <= y <= 1000000 -> -1000000 <= m <= 1000000 -> -1000000 <= d <= 1000000 ->
  from_str (join_dash (a :: b :: c :: rest)) =
    if is_valid (from_ymd y m d) then Ok (from_ymd y m d)
    else Err (join_dash (a :: b :: c :: rest)).
Proof. exact from_str_fields. Qed.
Print Assumptions C05_fields_normalised.

(** C05 as a user expects it is false: some text panics, and some impossible date is accepted as another date. *)
Theorem C05_never_panics_refuted : exists s m, from_str s = Panic m.
Proof. exact (ex_intro _ "1970"%string (ex_intro _ "index out of bounds"%string eq_refl)). Qed.
Print Assumptions C05_never_panics_refuted.

Theorem C05_rejects_impossible_refuted : exists s d,
  s = "2018-02-31"%string /\ ~ exists_ymd (2018, 2, 31) /\ from_str s = Ok d /\ to_string d = "2018-03-03"%string.
Proof. exact from_str_impossible. Qed.
Print Assumptions C05_rejects_impossible_refuted.

Example C05_example : Forall dash_free ["2018"%string; "2"%string] /\ join_dash ["2018"%string; "2"%string] = "2018-2"%string
  /\ parse_i32 "2018" = Some 2018.
Proof. repeat constructor; discriminate. Qed.
