(** Properties C06-C11: business-day arithmetic and date rules. *)
From Coq Require Import ZArith List String Bool Lia Reals Lra Sorted.
From Verif Require Import Prelude Num L_Num M_Dates S_Dates M_Calendar S_Calendar L_Calendar L_CalendarCount L_CalendarVol
  L_CalendarCases.
Import ListNotations.
Open Scope Z_scope.

(** [example_cal] is closed on Thursday 1970-01-01 (588) and Monday 1970-01-05 (592). *)
Example example_cal_proper : plain example_cal /\ proper example_cal /\
  business_of example_cal 589 = true /\ business_of example_cal 592 = false /\
  step example_cal 588 0 true = Ok 589 /\ step example_cal 588 2 true = Ok 594 /\ step example_cal 594 (-3) true = Ok 587.
Proof.
  split; [exact I|]. split.
  - split; repeat constructor; lia.
  - repeat split.
Qed.

(** C06: whatever the count returns is the day-by-day weighted time. *)
Theorem C06_count_is_weight_sum : forall (c : calendar R) from ff to tf x,
  plain c -> proper c ->
  count_business_days c from ff to tf = Ok x ->
  x = weighted_time (weight_of (business_of c) 0) from ff to tf.
Proof. exact count_plain. Qed.
Print Assumptions C06_count_is_weight_sum.

(** C06: and it does return when the dates, and the business days they slip to, are valid. *)
Theorem C06_count_total : forall (c : calendar R) from ff to tf a b,
  plain c -> proper c -> covers c from -> covers c to ->
  slips (business_of c) 1 from a -> slips (business_of c) (-1) to b -> covers c a -> covers c b ->
  exists x, count_business_days c from ff to tf = Ok x.
Proof. exact count_plain_total. Qed.
Print Assumptions C06_count_total.

Example C06_example : exists x, count_business_days example_cal 588 0%R 595 (/ 2)%R = Ok x /\ x = (3 + / 2)%R.
Proof. exact count_example. Qed.

(** C06: a weekend date in the holiday list makes the count wrong (the documented requirement is needed). *)
Theorem C06_weekend_holiday_refuted : exists (hols : list Z) from to x,
  StronglySorted Z.lt hols /\
  count_business_days (Holidays "x" hols) from 0%R to 0%R = Ok x /\
  x <> weighted_time (weight_of (business hols) 0) from 0 to 0.
Proof. exact weekend_holiday. Qed.
Print Assumptions C06_weekend_holiday_refuted.

(** C07: any date returned by [step] is reached by slipping and then |n| single moves. *)
Theorem C07_step_sound : forall T (N : Num T) (c : calendar T) from n fwd e, plain c -> orderly c ->
  step c from n fwd = Ok e -> exists s, steps_to (business_of c) from n fwd s e.
Proof. exact @step_ok. Qed.
Print Assumptions C07_step_sound.

(** C07: if those moves stay in range then [step] returns their end. *)
Theorem C07_step_complete : forall T (N : Num T) (c : calendar T) from n fwd s e, plain c -> orderly c ->
  steps_to (business_of c) from n fwd s e -> covers c from -> covers c s -> covers c e ->
  step c from n fwd = Ok e.
Proof. exact @step_reaches. Qed.
Print Assumptions C07_step_complete.

Theorem C07_step_business : forall T (N : Num T) (c : calendar T) from n fwd e, plain c -> orderly c ->
  step c from n fwd = Ok e -> business_of c e = true.
Proof. exact @step_business. Qed.
Print Assumptions C07_step_business.

(** C07: [is_holiday] tells the business days. *)
Theorem C07_is_holiday : forall T (N : Num T) (c : calendar T) d, orderly c -> covers c d ->
  is_holiday c d = Ok (negb (business_of c d)).
Proof. exact @is_holiday_spec. Qed.
Print Assumptions C07_is_holiday.

(** C08 *)
Theorem C08_steps_add : forall T (N : Num T) (c : calendar T) d a b fwd fwd' m e, plain c -> orderly c ->
  (0 <= a /\ 0 <= b) \/ (a <= 0 /\ b <= 0) ->
  step c d a fwd = Ok m -> step c m b fwd' = Ok e -> step c d (a + b) fwd = Ok e.
Proof. exact @step_add. Qed.
Print Assumptions C08_steps_add.

Theorem C08_step_inverse : forall T (N : Num T) (c : calendar T) d n fwd fwd' e, plain c -> orderly c ->
  business_of c d = true -> step c d n fwd = Ok e -> step c e (- n) fwd' = Ok d.
Proof. exact @step_inverse. Qed.
Print Assumptions C08_step_inverse.

Theorem C08_step_monotone : forall T (N : Num T) (c : calendar T) d d' n fwd e e', plain c -> orderly c -> d <= d' ->
  step c d n fwd = Ok e -> step c d' n fwd = Ok e' -> e <= e'.
Proof. exact @step_mono. Qed.
Print Assumptions C08_step_monotone.

Theorem C08_count_of_step : forall (c : calendar R) d n fwd f e, plain c -> proper c ->
  business_of c d = true -> 0 <= n ->
  step c d n fwd = Ok e -> count_business_days c d f e f = Ok (IZR n).
Proof. exact count_step. Qed.
Print Assumptions C08_count_of_step.

Example C08_example : step example_cal 589 3 true = Ok 595 /\ step example_cal 595 (-3) false = Ok 589 /\
  step example_cal 589 1 true = Ok 593 /\ step example_cal 593 2 true = Ok 595.
Proof. repeat split. Qed.

(** C09: the volatility calendar counts 1 for business days and its weight for holidays. *)
Theorem C09_vol_count : forall name inner w from ff to tf x, plain inner -> proper (VolCal name inner w) ->
  count_business_days (VolCal name inner w) from ff to tf = Ok x ->
  x = weighted_time (weight_of (business_of inner) w) from ff to tf.
Proof. exact vol_count_plain. Qed.
Print Assumptions C09_vol_count.

(** C09: any nesting of calendars, weights as in [S_Calendar.weight]. *)
Theorem C09_vol_count_nested : forall (c : calendar R), proper c -> forall from ff to tf x,
  count_business_days c from ff to tf = Ok x -> x = weighted_time (weight c) from ff to tf.
Proof. exact count_sound. Qed.
Print Assumptions C09_vol_count_nested.

Theorem C09_vol_count_total : forall (c : calendar R), proper c -> forall from ff to tf a b,
  covers c from -> covers c to ->
  slips (business_of c) 1 from a -> slips (business_of c) (-1) to b -> covers c a -> covers c b ->
  exists x, count_business_days c from ff to tf = Ok x.
Proof. exact count_total. Qed.
Print Assumptions C09_vol_count_total.

Theorem C09_additive : forall (c : calendar R) from ff mid mf to tf x y z, proper c -> from <= mid <= to ->
  count_business_days c from ff mid mf = Ok x -> count_business_days c mid mf to tf = Ok y ->
  count_business_days c from ff to tf = Ok z -> z = (x + y)%R.
Proof. exact count_additive. Qed.
Print Assumptions C09_additive.

Theorem C09_nonnegative : forall (c : calendar R) from ff to tf x, proper c ->
  (0 <= ff <= 1)%R -> (0 <= tf <= 1)%R -> (from = to -> (ff <= tf)%R) ->
  count_business_days c from ff to tf = Ok x -> (0 <= x)%R.
Proof. exact count_nonneg. Qed.
Print Assumptions C09_nonnegative.

(** C09: later end points give a larger count, later starting points a smaller one. *)
Theorem C09_monotone_end : forall (c : calendar R) from ff to tf to' tf' x y, proper c ->
  from <= to <= to' -> (0 <= tf <= 1)%R -> (0 <= tf' <= 1)%R -> (to = to' -> (tf <= tf')%R) ->
  count_business_days c from ff to tf = Ok x -> count_business_days c from ff to' tf' = Ok y -> (x <= y)%R.
Proof. exact count_mono_end. Qed.
Print Assumptions C09_monotone_end.

Theorem C09_antitone_start : forall (c : calendar R) from ff from' ff' to tf x y, proper c ->
  from <= from' <= to -> (0 <= ff <= 1)%R -> (0 <= ff' <= 1)%R -> (from = from' -> (ff <= ff')%R) ->
  count_business_days c from ff to tf = Ok x -> count_business_days c from' ff' to tf = Ok y -> (y <= x)%R.
Proof. exact count_anti_start. Qed.
Print Assumptions C09_antitone_start.

(** C09: the day weight reported by a calendar is the weight it counts with, unless a volatility calendar is built on
    another one. *)
Theorem C09_day_weight : forall (c : calendar R) d, proper c -> covers c d ->
  match c with VolCal _ inner _ => plain inner | _ => True end ->
  day_weight c d = Ok (weight c d).
Proof. exact day_weight_spec. Qed.
Print Assumptions C09_day_weight.

Theorem C09_day_weight_nested_refuted : exists (c : calendar R) d x,
  proper c /\ covers c d /\ day_weight c d = Ok x /\ x <> weight c d.
Proof. exact day_weight_nested. Qed.
Print Assumptions C09_day_weight_nested_refuted.

Example C09_example : proper (VolCal "v" example_cal (/ 4)%R) /\
  weight (VolCal "v" example_cal (/ 4)%R) 592 = (/ 4)%R /\ weight (VolCal "v" example_cal (/ 4)%R) 593 = 1%R.
Proof. exact vol_example. Qed.

(** C10: of all dates in the slip direction, the one returned has a weighted distance nearest to the request. *)
Theorem C10_nearest : forall name inner w from x fwd r,
  proper (VolCal name inner w) -> (1 / 1000000000000 <= w)%R ->
  step_partial (VolCal name inner w) from x fwd = Ok r ->
  exists k : nat, r = from + dir_of fwd * Z.of_nat k /\
    forall j, (Rabs (distance (weight (VolCal name inner w)) (dir_of fwd) from k - Rabs x)
               <= Rabs (distance (weight (VolCal name inner w)) (dir_of fwd) from j - Rabs x))%R.
Proof. exact step_partial_nearest. Qed.
Print Assumptions C10_nearest.

(** C10: it returns when some date at least that far away is in range (and [from] has business days around it). *)
Theorem C10_total : forall name inner w from x fwd a b K, let c := VolCal name inner w in
  proper c -> (1 / 1000000000000 <= w)%R ->
  (x = 0%R \/ fwd = true /\ (0 < x)%R \/ fwd = false /\ (x < 0)%R) ->
  slips (business_of c) 1 from a -> slips (business_of c) (-1) from b -> covers c a -> covers c b ->
  Z.of_nat K <= 73000 -> covers c (from + dir_of fwd * Z.of_nat K) ->
  (Rabs x <= distance (weight c) (dir_of fwd) from K)%R ->
  exists r, step_partial c from x fwd = Ok r.
Proof. exact step_partial_total. Qed.
Print Assumptions C10_total.

(** C10: the direction of the slip must be that of the step, otherwise the call panics. *)
Theorem C10_wrong_slip_panics : forall name inner w from x fwd,
  (1 / 1000000000000 <= w)%R -> (fwd = true /\ (x < 0)%R \/ fwd = false /\ (0 < x)%R) ->
  exists m, step_partial (VolCal name inner w) from x fwd = Panic m.
Proof. exact step_partial_wrong_slip. Qed.
Print Assumptions C10_wrong_slip_panics.

(** C10: without holiday weight it is a step of the underlying calendar, by the integer part. *)
Theorem C10_no_weight : forall name inner w from x fwd, (w < 1 / 1000000000000)%R ->
  step_partial (VolCal name inner w) from x fwd = step inner from (Rtrunc x) fwd.
Proof. exact step_partial_no_weight. Qed.
Print Assumptions C10_no_weight.

(** C10: a zero step never moves, so the promise that [step] lands on a business day is broken. *)
Theorem C10_zero_step_stays : forall name (inner : calendar R) w from fwd, (1 / 1000000000000 <= w)%R ->
  step (VolCal name inner w) from 0 fwd = Ok from.
Proof. exact step_partial_stays. Qed.
Print Assumptions C10_zero_step_stays.

Theorem C10_lands_on_business_day_refuted : exists (c : calendar R) d n fwd e,
  proper c /\ covers c d /\ step c d n fwd = Ok e /\ business_of c e = false.
Proof. exact vol_step_holiday. Qed.
Print Assumptions C10_lands_on_business_day_refuted.

(** C10: a calendar that is not a volatility calendar takes a whole number of steps, the number nearest to the step asked for, with halves away from zero. *)
Theorem C10_plain_rounds : forall (c : calendar R) from x fwd e, plain c -> orderly c ->
  step_partial c from x fwd = Ok e -> exists n s,
    (Rabs (IZR n - x) <= 1 / 2)%R /\ ((Rabs (IZR n - x) = 1 / 2)%R -> (Rabs x < Rabs (IZR n))%R) /\
    steps_to (business_of c) from n fwd s e.
Proof. exact plain_rounds. Qed.
Print Assumptions C10_plain_rounds.

(** The documentation says that the step is truncated towards zero: a step of less than one day can move a day. *)
Theorem C10_truncates_refuted : exists (c : calendar R) from x e, plain c /\ orderly c /\ (0 < x < 1)%R /\
  step c from 0 true = Ok from /\ step_partial c from x true = Ok e /\ e = from + 1.
Proof. exact not_truncated. Qed.
Print Assumptions C10_truncates_refuted.

(** C11 *)
Theorem C11_null_rule : forall T (N : Num T) d, apply_rule (NullRule : date_rule T) d = Ok d.
Proof. exact (fun T N => (fun d => eq_refl)). Qed.
Print Assumptions C11_null_rule.

(** C11: next/prev return the nearest business day in their direction; n-step and n-back do n moves. *)
Theorem C11_business_days : forall T (N : Num T) (c : calendar T) d e, plain c -> orderly c ->
  (apply_rule (new_next c) d = Ok e -> slips (business_of c) 1 d e) /\
  (apply_rule (new_prev c) d = Ok e -> slips (business_of c) (-1) d e) /\
  (forall n, 0 <= n -> apply_rule (new_step c n) d = Ok e -> exists s,
     slips (business_of c) 1 d s /\ moves_n (business_of c) 1 (Z.to_nat n) s e) /\
  (forall n, 0 <= n -> apply_rule (new_back c n) d = Ok e -> exists s,
     slips (business_of c) (-1) d s /\ moves_n (business_of c) (-1) (Z.to_nat n) s e).
Proof. exact @rules_spec. Qed.
Print Assumptions C11_business_days.

Theorem C11_next_idempotent : forall T (N : Num T) (c : calendar T) d e fwd, plain c -> orderly c -> covers c e ->
  apply_rule (BusinessDays c 0 fwd) d = Ok e -> apply_rule (BusinessDays c 0 fwd) e = Ok e.
Proof. exact @next_idempotent. Qed.
Print Assumptions C11_next_idempotent.

(** C11: ModifiedFollowing is the following business day if its month number is the same, else the preceding one. *)
Theorem C11_modified_following : forall T (N : Num T) (c : calendar T) d r, plain c -> orderly c ->
  apply_rule (ModifiedFollowing c) d = Ok r ->
  business_of c r = true /\
  exists f, slips (business_of c) 1 d f /\
    let '(_, m1, _) := ymd d in let '(_, m2, _) := ymd f in
    (m1 = m2 -> r = f) /\ (m1 <> m2 -> slips (business_of c) (-1) d r).
Proof. exact @mf_spec. Qed.
Print Assumptions C11_modified_following.

Theorem C11_modified_following_idempotent : forall T (N : Num T) (c : calendar T) d r, plain c -> orderly c -> covers c r ->
  apply_rule (ModifiedFollowing c) d = Ok r -> apply_rule (ModifiedFollowing c) r = Ok r.
Proof. exact @mf_idem. Qed.
Print Assumptions C11_modified_following_idempotent.

(** C11: it stays in the month if the month has a business day, unless the market stays closed for 300 days. *)
Theorem C11_modified_following_stays : forall T (N : Num T) (c : calendar T) d r f b, plain c -> orderly c -> 0 <= d -> 0 <= b ->
  apply_rule (ModifiedFollowing c) d = Ok r ->
  slips (business_of c) 1 d f -> f < d + 300 ->
  business_of c b = true -> same_month d b -> same_month d r.
Proof. exact @mf_same_month. Qed.
Print Assumptions C11_modified_following_stays.

(** C11: with a closure of a year it may leave the month: only the month number is compared. *)
Theorem C11_modified_following_leaves_refuted : exists (c : calendar R) d b r,
  plain c /\ proper c /\ business_of c b = true /\ same_month d b /\
  apply_rule (ModifiedFollowing c) d = Ok r /\ ~ same_month d r.
Proof. exact mf_leaves. Qed.
Print Assumptions C11_modified_following_leaves_refuted.

(** 1970-01-31 is a Saturday: the following Monday is in February, so the rule goes back to Friday the 30th. *)
Example C11_example : apply_rule (ModifiedFollowing example_cal) 618 = Ok 617 /\
  ymd 618 = (1970, 1, 31) /\ apply_rule (new_next example_cal) 618 = Ok 620.
Proof. repeat split. Qed.
