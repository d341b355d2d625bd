(** Concrete calendars used as witnesses and examples. *)
From Coq Require Import ZArith List String Bool Lia ZifyBool Sorted Reals Lra.
From Verif Require Import Prelude Num L_Num M_Dates S_Dates M_Search M_Calendar S_Calendar L_Search L_Dates L_Calendar
  L_CalendarCount L_CalendarVol.
Import ListNotations.
Open Scope Z_scope.

Ltac Zify.zify_post_hook ::= Z.div_mod_to_equations.

(** Every weekday of a, a+1, ..., a+n-1. *)
Definition closure (a : Z) (n : nat) : list Z :=
  filter weekday (map (fun i => a + Z.of_nat i) (seq 0 n)).

Lemma closure_in a n x : In x (closure a n) <-> weekday x = true /\ a <= x < a + Z.of_nat n.
Proof.
  unfold closure. rewrite filter_In, in_map_iff. split.
  - intros [(i & <- & Hi) W]. apply in_seq in Hi. split; [exact W|lia].
  - intros [W L]. split; [|exact W]. exists (Z.to_nat (x - a)). split; [lia|]. apply in_seq. lia.
Qed.

Lemma sorted_filter (p : Z -> bool) l : StronglySorted Z.lt l -> StronglySorted Z.lt (filter p l).
Proof.
  induction 1 as [|x l S IH F]; [constructor|]. cbn [filter]. destruct (p x); [|exact IH].
  constructor; [exact IH|]. rewrite Forall_forall in *. intros y Hy. apply filter_In in Hy. apply F. tauto.
Qed.

Lemma sorted_range a n k : StronglySorted Z.lt (map (fun i => a + Z.of_nat i) (seq k n)).
Proof.
  revert k. induction n as [|n IH]; intros k; [constructor|]. cbn [seq map]. constructor; [apply IH|].
  apply Forall_forall. intros y Hy. apply in_map_iff in Hy as (i & <- & Hi). apply in_seq in Hi. lia.
Qed.

Lemma closure_list a n : holiday_list (closure a n).
Proof.
  split; [apply sorted_filter, sorted_range|].
  apply Forall_forall. intros x Hx. apply closure_in in Hx. tauto.
Qed.

Lemma closure_business a n x :
  business (closure a n) x = true <-> weekday x = true /\ (x < a \/ a + Z.of_nat n <= x).
Proof.
  unfold business. fold (mem x (closure a n)).
  destruct (mem x (closure a n)) eqn:M.
  - apply mem_iff, closure_in in M. rewrite andb_false_r. split; [discriminate|]. intros [_ ?]. lia.
  - rewrite andb_true_r. split; [|tauto]. intros W. split; [exact W|].
    assert (~ In x (closure a n)) as N by (intros I; apply mem_iff in I; congruence).
    rewrite closure_in in N. assert (~ (a <= x < a + Z.of_nat n)) by tauto. lia.
Qed.

(** 1999-06-16 is day 11346 (a Wednesday); the market stays closed for 365 days. *)
Definition year_closed : calendar R := Holidays "closed" (closure 11346 365).

Lemma closed_ymd : ymd 11346 = (1999, 6, 16) /\ ymd 11345 = (1999, 6, 15) /\ ymd 11711 = (2000, 6, 15).
Proof. repeat split. Qed.

Lemma year_closed_case :
  proper year_closed /\ business_of year_closed 11345 = true /\
  modified_following year_closed 11346 = Ok 11711.
Proof.
  split; [apply closure_list|]. split; [reflexivity|].
  unfold modified_following.
  rewrite (step_reaches year_closed 11346 0 true 11711 11711).
  - reflexivity.
  - exact I.
  - apply closure_list.
  - split; [|constructor]. exists 365. split; [lia|]. split; [reflexivity|]. split.
    + apply closure_business. split; [reflexivity|]. lia.
    + intros j Hj. destruct (business_of year_closed _) eqn:E; [|reflexivity].
      apply closure_business in E. unfold dir_of in E. lia.
  - cbn. unfold in_range. lia.
  - cbn. unfold in_range. lia.
  - cbn. unfold in_range. lia.
Qed.

Lemma mf_leaves : exists (c : calendar R) d b r,
  plain c /\ proper c /\ business_of c b = true /\ same_month d b /\
  apply_rule (ModifiedFollowing c) d = Ok r /\ ~ same_month d r.
Proof.
  destruct year_closed_case as (P & B & M). destruct closed_ymd as (Y1 & Y2 & Y3).
  exists year_closed, 11346, 11345, 11711.
  split; [exact I|]. split; [exact P|]. split; [exact B|].
  unfold same_month. rewrite Y1, Y2, Y3. split; [split; reflexivity|]. split; [exact M|]. lia.
Qed.

(** Closed on Thursday 1970-01-01 (588) and Monday 1970-01-05 (592). *)
Definition example_cal : calendar R := Holidays "x" [588; 592].

Lemma count_example : exists x, count_business_days example_cal 588 0%R 595 (/ 2)%R = Ok x /\ x = (3 + / 2)%R.
Proof.
  eexists. split.
  - cbn [count_business_days example_cal]. unfold hol_count.
    replace (slip_to_next day_fuel [588; 592] 588 1) with (Ok 589) by (vm_compute; reflexivity).
    replace (slip_to_next day_fuel [588; 592] 595 (-1)) with (Ok 595) by (vm_compute; reflexivity).
    cbn [bind]. replace (595 <? 589) with false by reflexivity.
    replace (week_days_between 589 595) with (Ok 4) by reflexivity.
    replace (hol_is_holiday [588; 592] 588) with (Ok true) by reflexivity.
    replace (hol_is_holiday [588; 592] 595) with (Ok false) by reflexivity.
    cbn [bind]. replace (4 - count_holidays [588; 592] 589 595) with 3 by reflexivity. reflexivity.
  - rnum. lra.
Qed.

Lemma weekend_holiday : exists (hols : list Z) from to x,
  StronglySorted Z.lt hols /\
  count_business_days (Holidays "x" hols) from 0%R to 0%R = Ok x /\
  x <> weighted_time (weight_of (business hols) 0) from 0 to 0.
Proof.
  exists [590], 589, 593, 1%R. split; [repeat constructor|]. split.
  - cbn [count_business_days]. unfold hol_count.
    replace (slip_to_next day_fuel [590] 589 1) with (Ok 589) by (vm_compute; reflexivity).
    replace (slip_to_next day_fuel [590] 593 (-1)) with (Ok 593) by (vm_compute; reflexivity).
    cbn [bind]. replace (593 <? 589) with false by reflexivity.
    replace (week_days_between 589 593) with (Ok 2) by reflexivity.
    replace (hol_is_holiday [590] 589) with (Ok false) by reflexivity.
    replace (hol_is_holiday [590] 593) with (Ok false) by reflexivity.
    cbn [bind]. replace (2 - count_holidays [590] 589 593) with 1 by reflexivity. rnum. f_equal. lra.
  - unfold weighted_time. replace (593 <? 589) with false by reflexivity.
    rewrite sum_days_cnt. replace (cntd (business [590]) 1 (589 - 1) (Z.to_nat (593 - 589 + 1))) with 3 by reflexivity.
    unfold weight_of. replace (business [590] 589) with true by reflexivity.
    replace (business [590] 593) with true by reflexivity. lra.
Qed.

Lemma plain_weight c : plain c -> weight c = weight_of (business_of c) 0.
Proof. destruct c; intros P; try reflexivity. destruct P. Qed.

Lemma count_plain (c : calendar R) from ff to tf x : plain c -> proper c ->
  count_business_days c from ff to tf = Ok x ->
  x = weighted_time (weight_of (business_of c) 0) from ff to tf.
Proof. intros Pl P H. rewrite <- (plain_weight c Pl). now apply count_sound. Qed.

Lemma count_plain_total (c : calendar R) from ff to tf a b :
  plain c -> proper c -> covers c from -> covers c to ->
  slips (business_of c) 1 from a -> slips (business_of c) (-1) to b -> covers c a -> covers c b ->
  exists x, count_business_days c from ff to tf = Ok x.
Proof. intros _ P. apply count_total. exact P. Qed.

Lemma is_holiday_spec {T} {NT : Num T} (c : calendar T) d : orderly c -> covers c d ->
  is_holiday c d = Ok (negb (business_of c d)).
Proof.
  induction c as [| |name hols|name inner IH w]; intros P C; cbn [is_holiday business_of covers] in *.
  - reflexivity.
  - now apply wk_is_holiday_ok.
  - now apply hol_is_holiday_ok.
  - apply IH; [exact P|exact C].
Qed.

Lemma weighted_time_ext w w' from ff to tf : (forall d, w d = w' d) ->
  weighted_time w from ff to tf = weighted_time w' from ff to tf.
Proof. intros E. unfold weighted_time. rewrite (sum_days_ext w w' _ _ E), !E. reflexivity. Qed.

Lemma vol_weight name inner w d : plain inner ->
  weight (VolCal name inner w) d = weight_of (business_of inner) w d.
Proof.
  intros P. cbn [weight]. rewrite (plain_weight inner P). unfold weight_of. destruct (business_of inner d); lra.
Qed.

Lemma vol_count_plain name inner w from ff to tf x : plain inner -> proper (VolCal name inner w) ->
  count_business_days (VolCal name inner w) from ff to tf = Ok x ->
  x = weighted_time (weight_of (business_of inner) w) from ff to tf.
Proof.
  intros Pl P H. apply count_sound in H; [|exact P]. subst x. apply weighted_time_ext. intros d. now apply vol_weight.
Qed.

Lemma count_additive (c : calendar R) from ff mid mf to tf x y z : proper c -> from <= mid <= to ->
  count_business_days c from ff mid mf = Ok x -> count_business_days c mid mf to tf = Ok y ->
  count_business_days c from ff to tf = Ok z -> z = (x + y)%R.
Proof.
  intros P L X Y Z. apply count_sound in X, Y, Z; try exact P. subst. now apply weighted_time_split.
Qed.

Lemma count_nonneg (c : calendar R) from ff to tf x : proper c ->
  (0 <= ff <= 1)%R -> (0 <= tf <= 1)%R -> (from = to -> (ff <= tf)%R) ->
  count_business_days c from ff to tf = Ok x -> (0 <= x)%R.
Proof.
  intros P F T S H. apply count_sound in H; [|exact P]. subst. apply weighted_time_nonneg; try assumption.
  now apply weight_bounds.
Qed.

Lemma count_mono_end (c : calendar R) from ff to tf to' tf' x y : proper c ->
  from <= to <= to' -> (0 <= tf <= 1)%R -> (0 <= tf' <= 1)%R -> (to = to' -> (tf <= tf')%R) ->
  count_business_days c from ff to tf = Ok x -> count_business_days c from ff to' tf' = Ok y -> (x <= y)%R.
Proof.
  intros P L T T' S X Y. apply count_sound in X, Y; try exact P. subst.
  rewrite (weighted_time_split _ from ff to tf to' tf' L).
  pose proof (weighted_time_nonneg (weight c) to tf to' tf' (weight_bounds c P) T T' S). lra.
Qed.

Lemma count_anti_start (c : calendar R) from ff from' ff' to tf x y : proper c ->
  from <= from' <= to -> (0 <= ff <= 1)%R -> (0 <= ff' <= 1)%R -> (from = from' -> (ff <= ff')%R) ->
  count_business_days c from ff to tf = Ok x -> count_business_days c from' ff' to tf = Ok y -> (y <= x)%R.
Proof.
  intros P L T T' S X Y. apply count_sound in X, Y; try exact P. subst.
  rewrite (weighted_time_split _ from ff from' ff' to tf L).
  pose proof (weighted_time_nonneg (weight c) from ff from' ff' (weight_bounds c P) T T' S). lra.
Qed.

Lemma day_weight_spec (c : calendar R) d : proper c -> covers c d ->
  match c with VolCal _ inner _ => plain inner | _ => True end ->
  day_weight c d = Ok (weight c d).
Proof.
  intros P C N. unfold day_weight. rewrite is_holiday_spec by auto using proper_orderly. cbn [bind].
  destruct c as [| |name hols|name inner w]; rnum.
  - reflexivity.
  - cbn [weight business_of]. unfold weight_of. destruct (weekday d); reflexivity.
  - cbn [weight business_of]. unfold weight_of. destruct (business hols d); reflexivity.
  - rewrite vol_weight by exact N. cbn [business_of]. unfold weight_of. destruct (business_of inner d); reflexivity.
Qed.

Lemma day_weight_nested : exists (c : calendar R) d x,
  proper c /\ covers c d /\ day_weight c d = Ok x /\ x <> weight c d.
Proof.
  exists (VolCal "a" (VolCal "b" Weekday (/ 2)) (/ 2))%R, 590, (/ 2)%R.
  split; [cbn; lra|]. split; [cbn; unfold in_range; lia|]. split; [reflexivity|].
  cbn [weight business_of]. unfold weight_of. replace (weekday 590) with false by reflexivity. lra.
Qed.

Lemma vol_example : proper (VolCal "v" example_cal (/ 4)%R) /\
  weight (VolCal "v" example_cal (/ 4)%R) 592 = (/ 4)%R /\ weight (VolCal "v" example_cal (/ 4)%R) 593 = 1%R.
Proof.
  split.
  - split; [|lra]. split; repeat constructor; lia.
  - cbn [weight business_of example_cal]. unfold weight_of.
    replace (business [588; 592] 592) with false by reflexivity.
    replace (business [588; 592] 593) with true by reflexivity. lra.
Qed.

Lemma vol_step_holiday : exists (c : calendar R) d n fwd e,
  proper c /\ covers c d /\ step c d n fwd = Ok e /\ business_of c e = false.
Proof.
  exists (VolCal "v" Weekday (/ 4))%R, 590, 0, true, 590.
  split; [cbn; lra|]. split; [cbn; unfold in_range; lia|]. split; [|reflexivity].
  apply step_partial_stays. lra.
Qed.

Lemma rules_spec {T} {NT : Num T} (c : calendar T) d e : plain c -> orderly c ->
  (apply_rule (new_next c) d = Ok e -> slips (business_of c) 1 d e) /\
  (apply_rule (new_prev c) d = Ok e -> slips (business_of c) (-1) d e) /\
  (forall n, 0 <= n -> apply_rule (new_step c n) d = Ok e -> exists s,
     slips (business_of c) 1 d s /\ moves_n (business_of c) 1 (Z.to_nat n) s e) /\
  (forall n, 0 <= n -> apply_rule (new_back c n) d = Ok e -> exists s,
     slips (business_of c) (-1) d s /\ moves_n (business_of c) (-1) (Z.to_nat n) s e).
Proof.
  intros Pl P. cbn [apply_rule new_next new_prev new_step new_back].
  split; [intros H; now apply step0_slips in H|]. split; [intros H; now apply step0_slips in H|]. split.
  - intros n Hn H. destruct (step_ok _ _ _ _ _ Pl P H) as (s & Sl & M). exists s. split; [exact Sl|].
    destruct (Z.eq_dec n 0) as [->|N]; [inversion M; subst; constructor|].
    replace (Z.abs n) with n in M by lia. unfold dir_of in M. destruct (Z.ltb_spec 0 n); [exact M|lia].
  - intros n Hn H. destruct (step_ok _ _ _ _ _ Pl P H) as (s & Sl & M). exists s. split; [exact Sl|].
    replace (Z.abs (- n)) with n in M by lia. unfold dir_of in M. destruct (Z.ltb_spec 0 (- n)); [lia|exact M].
Qed.

Lemma next_idempotent {T} {NT : Num T} (c : calendar T) d e fwd : plain c -> orderly c -> covers c e ->
  apply_rule (BusinessDays c 0 fwd) d = Ok e -> apply_rule (BusinessDays c 0 fwd) e = Ok e.
Proof.
  intros Pl P C H. cbn [apply_rule] in *. apply step0_fixed; try assumption.
  apply step0_slips in H; try assumption. eapply slips_biz; eauto.
Qed.

Lemma mf_spec {T} {NT : Num T} (c : calendar T) d r : plain c -> orderly c ->
  apply_rule (ModifiedFollowing c) d = Ok r ->
  business_of c r = true /\
  exists f, slips (business_of c) 1 d f /\
    let '(_, m1, _) := ymd d in let '(_, m2, _) := ymd f in
    (m1 = m2 -> r = f) /\ (m1 <> m2 -> slips (business_of c) (-1) d r).
Proof. intros Pl P H. split; [now apply (mf_business c Pl P d)|now apply mf_char]. Qed.

Lemma mf_idem {T} {NT : Num T} (c : calendar T) d r : plain c -> orderly c -> covers c r ->
  apply_rule (ModifiedFollowing c) d = Ok r -> apply_rule (ModifiedFollowing c) r = Ok r.
Proof. intros Pl P C H. now apply (mf_idempotent c Pl P d). Qed.

(** C10: other calendars round the step. *)
Lemma Rround_nearest x : (Rabs (IZR (Rround x) - x) <= 1 / 2)%R /\ ((Rabs (IZR (Rround x) - x) = 1 / 2)%R -> (Rabs x < Rabs (IZR (Rround x)))%R).
Proof.
  unfold Rround. destruct (Rle_dec 0 x) as [P|P].
  - destruct (archimed (x + / 2)) as [A B]. unfold Int_part. rewrite minus_IZR. set (z := IZR (up (x + / 2))) in *.
    rewrite (Rabs_right x) by lra. split.
    + apply Rabs_le. lra.
    + intros E. assert (z - 1 - x = 1 / 2)%R by (unfold Rabs in E; destruct (Rcase_abs _); lra). rewrite Rabs_right; lra.
  - destruct (archimed (- x + / 2)) as [A B]. unfold Int_part. rewrite opp_IZR, minus_IZR. set (z := IZR (up (- x + / 2))) in *.
    rewrite (Rabs_left x) by lra. split.
    + apply Rabs_le. lra.
    + intros E. assert (- (z - 1) - x = - (1 / 2))%R by (unfold Rabs in E; destruct (Rcase_abs _); lra). rewrite Rabs_left1; lra.
Qed.

Lemma plain_rounds (c : calendar R) from x fwd e : plain c -> orderly c -> step_partial c from x fwd = Ok e ->
  exists n s, (Rabs (IZR n - x) <= 1 / 2)%R /\ ((Rabs (IZR n - x) = 1 / 2)%R -> (Rabs x < Rabs (IZR n))%R) /\
    steps_to (business_of c) from n fwd s e.
Proof.
  intros P W S. assert (S' : step c from (Rround x) fwd = Ok e) by (destruct c; [exact S..|destruct P]).
  destruct (step_ok c _ _ _ _ P W S') as (s & St). exists (Rround x), s. destruct (Rround_nearest x). auto.
Qed.

Lemma not_truncated : exists (c : calendar R) from x e, plain c /\ orderly c /\ (0 < x < 1)%R /\ step c from 0 true = Ok from /\
  step_partial c from x true = Ok e /\ e = from + 1.
Proof.
  exists EveryDay, 588, (3 / 4)%R, 589. split; [exact I|]. split; [exact I|]. split; [lra|]. split; [reflexivity|]. split; [|reflexivity].
  cbn [step_partial step]. f_equal. change (nround (3 / 4)%R) with (Rround (3 / 4)). destruct (Rround_nearest (3 / 4)) as [H _].
  assert (B : (- (1 / 2) <= IZR (Rround (3 / 4)) - 3 / 4 <= 1 / 2)%R) by (unfold Rabs in H; destruct (Rcase_abs _) in H; lra).
  assert (Rround (3 / 4) = 1); [|lia].
  assert (A : (0 < IZR (Rround (3 / 4)) < 2)%R) by lra. destruct A as [A A']. apply lt_IZR in A. apply lt_IZR in A'. lia.
Qed.
