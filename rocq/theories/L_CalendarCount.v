From Coq Require Import ZArith List String Bool Lia ZifyBool Sorted Reals Lra.
From Verif Require Import Prelude Num L_Num M_Dates M_Search M_Calendar S_Calendar L_Search L_Dates L_Calendar.
Import ListNotations.
Open Scope Z_scope.

Ltac Zify.zify_post_hook ::= Z.div_mod_to_equations.

(** ** Sums over days *)

Lemma sum_days_cnt biz from n :
  sum_days (weight_of biz 0) from n = IZR (cntd biz 1 (from - 1) n).
Proof.
  revert from. induction n as [|n IH]; intros from; [reflexivity|]. cbn [sum_days].
  rewrite IH. replace (from + 1 - 1) with (from - 1 + 1 * Z.of_nat 1) by lia.
  change (S n) with (1 + n)%nat. rewrite cntd_add, plus_IZR. f_equal.
  cbn [cntd]. replace (from - 1 + 1 * Z.of_nat 1) with from by lia.
  unfold weight_of. destruct (biz from); reflexivity.
Qed.

Lemma sum_days_app w from n m :
  sum_days w from (n + m) = (sum_days w from n + sum_days w (from + Z.of_nat n) m)%R.
Proof.
  revert from. induction n as [|n IH]; intros from.
  - cbn [sum_days plus]. replace (from + Z.of_nat 0) with from by lia. lra.
  - cbn [sum_days plus]. rewrite IH. replace (from + 1 + Z.of_nat n) with (from + Z.of_nat (S n)) by lia. lra.
Qed.

Lemma sum_days_affine w a b from n :
  sum_days (fun d => w d * a + b)%R from n = (sum_days w from n * a + INR n * b)%R.
Proof.
  revert from. induction n as [|n IH]; intros from.
  - cbn. lra.
  - cbn [sum_days]. rewrite IH, S_INR. lra.
Qed.

Lemma sum_days_bounds w from n : (forall d, 0 <= w d <= 1)%R -> (0 <= sum_days w from n <= INR n)%R.
Proof.
  intros W. revert from. induction n as [|n IH]; intros from.
  - cbn. lra.
  - cbn [sum_days]. rewrite S_INR. specialize (IH (from + 1)). specialize (W from). lra.
Qed.

Lemma sum_days_ext w w' from n : (forall d, w d = w' d) -> sum_days w from n = sum_days w' from n.
Proof.
  intros E. revert from. induction n as [|n IH]; intros from; [reflexivity|]. cbn [sum_days]. now rewrite E, IH.
Qed.

(** ** Counting weekdays *)

(** Weekdays among 4..x-1 (minus those below 4), by weeks. *)
Definition cumw (x : Z) : Z := 5 * ((x - 4) / 7) + Z.min ((x - 4) mod 7) 5.

Lemma cntd_week s k : cntd weekday 1 s k = cumw (s + Z.of_nat k + 1) - cumw (s + 1).
Proof.
  induction k as [|k IH]; cbn [cntd].
  - replace (s + Z.of_nat 0 + 1) with (s + 1) by lia. lia.
  - rewrite IH. unfold cumw, weekday. destruct ((s + 1 * Z.of_nat (S k) - 4) mod 7 <? 5) eqn:E; lia.
Qed.

Lemma week_days_between_ok a b : in_range a -> in_range b -> weekday a = true -> weekday b = true -> a <= b ->
  week_days_between a b = Ok (cntd weekday 1 a (Z.to_nat (b - a))).
Proof.
  intros Ra Rb Wa Wb L. unfold week_days_between. rewrite !dow_ok by assumption. cbn [bind]. f_equal.
  apply weekday_iff in Wa. apply weekday_iff in Wb.
  rewrite cntd_week, Z2Nat.id by lia. unfold cumw. rewrite Z.quot_div_nonneg by lia.
  destruct (0 <=? (b - 4) mod 7 - (a - 4) mod 7) eqn:E; lia.
Qed.

Lemma week_days_between_inv a b n : week_days_between a b = Ok n -> in_range a /\ in_range b.
Proof.
  unfold week_days_between. intros H. inv_bind H. inv_bind H.
  apply dow_inv in E. apply dow_inv in E0. tauto.
Qed.

(** ** The two ends of the interval *)

(** Business days of from..=to, given the slipped end points. *)
Lemma slipped_sum biz from to a b : from <= to -> slips biz 1 from a -> slips biz (-1) to b ->
  (b < a -> sum_days (weight_of biz 0) from (Z.to_nat (to - from + 1)) = 0%R /\
            biz from = false /\ biz to = false) /\
  (a <= b -> sum_days (weight_of biz 0) from (Z.to_nat (to - from + 1))
             = IZR (1 + cntd biz 1 a (Z.to_nat (b - a)))).
Proof.
  intros L (k & Hk & Ea & Ba & Na) (j & Hj & Eb & Bb & Nb).
  rewrite sum_days_cnt. split; intros O.
  - assert (N : forall i, from <= i <= to -> biz i = false).
    { intros i Hi. destruct (Z.lt_ge_cases i a) as [La|Ga].
      - replace i with (from + 1 * (i - from)) by lia. apply Na. lia.
      - replace i with (to + -1 * (to - i)) by lia. apply Nb. lia. }
    split; [|split; apply N; lia].
    rewrite cntd_none; [reflexivity|]. intros i Hi. apply N. lia.
  - f_equal.
    assert (Hn : Z.to_nat (to - from + 1) = (Z.to_nat k + (1 + (Z.to_nat (b - a) + Z.to_nat j)))%nat) by lia.
    rewrite Hn, !cntd_add.
    rewrite (cntd_none biz 1 (from - 1)).
    2:{ intros i Hi. replace (from - 1 + 1 * i) with (from + 1 * (i - 1)) by lia. apply Na. lia. }
    replace (from - 1 + 1 * Z.of_nat (Z.to_nat k)) with (a - 1) by lia.
    replace (a - 1 + 1 * Z.of_nat 1) with a by lia.
    replace (a + 1 * Z.of_nat (Z.to_nat (b - a))) with b by lia.
    rewrite (cntd_none biz 1 b).
    2:{ intros i Hi. replace (b + 1 * i) with (to + -1 * (j - i)) by lia. apply Nb. lia. }
    cbn [cntd]. replace (a - 1 + 1 * Z.of_nat 1) with a by lia. rewrite Ba. lia.
Qed.

Lemma slips_le biz d e : slips biz 1 d e -> d <= e.
Proof. intros (k & Hk & -> & _). lia. Qed.
Lemma slips_ge biz d e : slips biz (-1) d e -> e <= d.
Proof. intros (k & Hk & -> & _). lia. Qed.

Lemma count_core biz from ff to tf a b : slips biz 1 from a -> slips biz (-1) to b ->
  (if b <? a then 0
   else IZR (cntd biz 1 a (Z.to_nat (b - a)))
        + ((if negb (biz to) then 1 else tf) - (if negb (biz from) then 0 else ff)))%R
  = weighted_time (weight_of biz 0) from ff to tf.
Proof.
  intros Sa Sb. pose proof (slips_le _ _ _ Sa). pose proof (slips_ge _ _ _ Sb).
  unfold weighted_time. destruct (Z.ltb_spec to from).
  - destruct (Z.ltb_spec b a); [reflexivity|lia].
  - destruct (slipped_sum biz from to a b ltac:(lia) Sa Sb) as [H2 H3].
    destruct (Z.ltb_spec b a).
    + destruct (H2 ltac:(lia)) as (-> & Bf & Bt). unfold weight_of. rewrite Bf, Bt. lra.
    + rewrite (H3 ltac:(lia)), plus_IZR. unfold weight_of. destruct (biz from), (biz to); cbn [negb]; lra.
Qed.

(** ** The counts of the plain calendars *)

Lemma wk_is_holiday_ok d : in_range d -> wk_is_holiday d = Ok (negb (weekday d)).
Proof. intros R. unfold wk_is_holiday. rewrite dow_ok by exact R. cbn [bind]. f_equal. unfold weekday. lia. Qed.

Lemma every_count_eq from ff to tf :
  every_count from ff to tf = Ok (weighted_time (weight_of (fun _ => true) 0) from ff to tf).
Proof.
  unfold every_count, weighted_time. destruct (to <? from) eqn:E; rnum; [reflexivity|]. f_equal.
  rewrite sum_days_cnt. unfold weight_of.
  assert (C : forall s k, cntd (fun _ => true) 1 s k = Z.of_nat k).
  { intros s k. induction k as [|k IH]; [reflexivity|]. cbn [cntd]. lia. }
  rewrite C, Z2Nat.id by lia. rewrite plus_IZR. lra.
Qed.

Lemma wk_count_sound from ff to tf x : wk_count from ff to tf = Ok x ->
  x = weighted_time (weight_of weekday 0) from ff to tf.
Proof.
  intros H. unfold wk_count in H. inv_bind H. inv_bind H. rename a into s, a0 into e.
  pose proof (wk_slip_range _ _ _ E) as Rf. pose proof (wk_slip_range _ _ _ E0) as Rt.
  destruct (wk_slip_spec from true Rf) as (s' & Es & Sl). rewrite E in Es. injection Es as <-.
  destruct (wk_slip_spec to false Rt) as (e' & Ee & Sl'). rewrite E0 in Ee. injection Ee as <-.
  rewrite <- (count_core weekday from ff to tf s e Sl Sl').
  destruct (Z.ltb_spec e s) as [L|L].
  - injection H as <-. reflexivity.
  - inv_bind H. rewrite !wk_is_holiday_ok in H by assumption. cbn [bind] in H. injection H as <-.
    pose proof (week_days_between_inv _ _ _ E1) as [Rs Re].
    rewrite week_days_between_ok in E1 by (assumption || (eapply slips_biz; eassumption)).
    injection E1 as <-. rnum. reflexivity.
Qed.

Lemma wk_count_total from ff to tf a b : in_range from -> in_range to ->
  slips weekday 1 from a -> slips weekday (-1) to b -> in_range a -> in_range b ->
  exists x, wk_count from ff to tf = Ok (x : R).
Proof.
  intros Rf Rt Sa Sb Ra Rb. unfold wk_count.
  destruct (wk_slip_spec from true Rf) as (s' & -> & Sl). assert (s' = a) by (eapply slips_det; eauto). subst s'.
  destruct (wk_slip_spec to false Rt) as (e' & -> & Sl'). assert (e' = b) by (eapply slips_det; eauto). subst e'.
  cbn [bind]. destruct (Z.ltb_spec b a); [eauto|].
  rewrite week_days_between_ok by (assumption || (eapply slips_biz; eassumption)). cbn [bind].
  rewrite !wk_is_holiday_ok by assumption. cbn [bind]. eauto.
Qed.

Section Hols.
  Variable hols : list date.
  Hypothesis HL : holiday_list hols.
  Let biz := business hols.

  Lemma biz_weekday d : biz d = true -> weekday d = true.
  Proof. unfold biz, business. intros H. now apply andb_prop in H. Qed.

  Lemma biz_count a b : a <= b -> biz b = true ->
    cntd weekday 1 a (Z.to_nat (b - a)) - count_holidays hols a b = cntd biz 1 a (Z.to_nat (b - a)).
  Proof.
    intros L B. rewrite (count_holidays_spec hols HL). unfold biz. rewrite (cnt_split hols HL).
    rewrite (cnt_mem_forward hols HL). rewrite Z2Nat.id by lia. replace (a + (b - a) + 1) with (b + 1) by lia.
    rewrite (below_succ hols b (sorted_hols hols HL)).
    assert (M : mem b hols = false).
    { unfold biz, business in B. apply andb_prop in B as [_ B]. now apply negb_true_iff in B. }
    rewrite M. lia.
  Qed.

  Lemma hol_count_sound from ff to tf x : hol_count hols from ff to tf = Ok x ->
    x = weighted_time (weight_of biz 0) from ff to tf.
  Proof.
    intros H. unfold hol_count in H. inv_bind H. inv_bind H. rename a into s, a0 into e.
    apply (slip_to_next_sound hols HL) in E as (Rf & Rs & Sl).
    apply (slip_to_next_sound hols HL) in E0 as (Rt & Re & Sl').
    rewrite <- (count_core biz from ff to tf s e Sl Sl').
    destruct (Z.ltb_spec e s) as [L|L].
    - injection H as <-. reflexivity.
    - rewrite week_days_between_ok in H by (assumption || (apply biz_weekday; eapply slips_biz; eassumption)).
      cbn [bind] in H. rewrite !(hol_is_holiday_ok hols HL) in H by assumption. cbn [bind] in H. injection H as <-.
      rewrite biz_count by (assumption || (eapply slips_biz; eassumption)). rnum. reflexivity.
  Qed.

  Lemma hol_count_total from ff to tf a b : in_range from -> in_range to ->
    slips biz 1 from a -> slips biz (-1) to b -> in_range a -> in_range b ->
    exists x, hol_count hols from ff to tf = Ok (x : R).
  Proof.
    intros Rf Rt Sa Sb Ra Rb. unfold hol_count.
    rewrite (slip_to_next_complete hols HL 1) with (e := a);
      [|lia|assumption|assumption|assumption|rewrite day_fuel_eq; unfold in_range in *; lia].
    rewrite (slip_to_next_complete hols HL (-1)) with (e := b);
      [|lia|assumption|assumption|assumption|rewrite day_fuel_eq; unfold in_range in *; lia].
    cbn [bind]. destruct (Z.ltb_spec b a); [eauto|].
    rewrite week_days_between_ok by (assumption || (apply biz_weekday; eapply slips_biz; eassumption)). cbn [bind].
    rewrite !(hol_is_holiday_ok hols HL) by assumption. cbn [bind]. eauto.
  Qed.
End Hols.

(** ** Any calendar *)

Lemma weighted_time_affine w a b from ff to tf : from <= to ->
  weighted_time (fun d => w d * a + b)%R from ff to tf
  = (weighted_time w from ff to tf * a + (IZR (to - from) + tf - ff) * b)%R.
Proof.
  intros L. unfold weighted_time. destruct (Z.ltb_spec to from); [lia|].
  rewrite sum_days_affine, INR_IZR_INZ, Z2Nat.id, plus_IZR by lia. lra.
Qed.

Lemma weighted_time_empty w from ff to tf : to < from -> weighted_time w from ff to tf = 0%R.
Proof. intros L. unfold weighted_time. destruct (Z.ltb_spec to from); [reflexivity|lia]. Qed.

Lemma count_sound c : proper c -> forall from ff to tf x,
  count_business_days c from ff to tf = Ok x -> x = weighted_time (weight c) from ff to tf.
Proof.
  induction c as [| |name hols|name inner IH w]; intros P from ff to tf x H; cbn [count_business_days] in H.
  - rewrite every_count_eq in H. injection H as <-. reflexivity.
  - now apply wk_count_sound.
  - now apply hol_count_sound.
  - destruct P as [Pi Pw]. unfold vol_count in H. destruct (Z.ltb_spec to from).
    + injection H as <-. rewrite weighted_time_empty by assumption. reflexivity.
    + inv_bind H. apply (IH Pi) in E. injection H as <-. subst a. rnum.
      change (weight (VolCal name inner w)) with (fun d => weight inner d * (1 - w) + w)%R.
      rewrite weighted_time_affine by assumption. reflexivity.
Qed.

(** The count does not fail when the days at both ends and the business days they slip to are in range. *)
Lemma count_total c : proper c -> forall from ff to tf a b,
  covers c from -> covers c to ->
  slips (business_of c) 1 from a -> slips (business_of c) (-1) to b -> covers c a -> covers c b ->
  exists x, count_business_days c from ff to tf = Ok (x : R).
Proof.
  induction c as [| |name hols|name inner IH w]; intros P from ff to tf a b Rf Rt Sa Sb Ra Rb;
    cbn [count_business_days covers business_of] in *.
  - rewrite every_count_eq. eauto.
  - eapply wk_count_total; eauto.
  - eapply hol_count_total; eauto.
  - destruct P as [Pi Pw]. unfold vol_count. destruct (Z.ltb_spec to from); [eauto|].
    destruct (IH Pi from ff to tf a b) as (x & ->); eauto. cbn [bind]. eauto.
Qed.

Lemma weight_bounds c : proper c -> forall d, (0 <= weight c d <= 1)%R.
Proof.
  induction c as [| |name hols|name inner IH w]; intros P d; cbn [weight business_of].
  - unfold weight_of. lra.
  - unfold weight_of. destruct (weekday d); lra.
  - unfold weight_of. destruct (business hols d); lra.
  - destruct P as [Pi Pw]. specialize (IH Pi d). nra.
Qed.

Lemma weight_business c : proper c -> forall d, business_of c d = true -> weight c d = 1%R.
Proof.
  induction c as [| |name hols|name inner IH w]; intros P d B; cbn [weight business_of] in *.
  - reflexivity.
  - unfold weight_of. now rewrite B.
  - unfold weight_of. now rewrite B.
  - destruct P as [Pi Pw]. rewrite IH by assumption. lra.
Qed.

Lemma weighted_time_split w from ff mid mf to tf : from <= mid <= to ->
  weighted_time w from ff to tf = (weighted_time w from ff mid mf + weighted_time w mid mf to tf)%R.
Proof.
  intros L. unfold weighted_time.
  destruct (Z.ltb_spec to from); [lia|]. destruct (Z.ltb_spec mid from); [lia|]. destruct (Z.ltb_spec to mid); [lia|].
  replace (Z.to_nat (to - from + 1)) with (Z.to_nat (mid - from) + S (Z.to_nat (to - mid)))%nat by lia.
  replace (Z.to_nat (mid - from + 1)) with (Z.to_nat (mid - from) + 1)%nat by lia.
  replace (Z.to_nat (to - mid + 1)) with (S (Z.to_nat (to - mid)))%nat by lia.
  rewrite !sum_days_app. replace (from + Z.of_nat (Z.to_nat (mid - from))) with mid by lia.
  cbn [sum_days]. lra.
Qed.

Lemma weighted_time_nonneg w from ff to tf : (forall d, 0 <= w d <= 1)%R ->
  (0 <= ff <= 1)%R -> (0 <= tf <= 1)%R -> (from = to -> ff <= tf)%R ->
  (0 <= weighted_time w from ff to tf)%R.
Proof.
  intros W Hff Htf Hs. unfold weighted_time. destruct (Z.ltb_spec to from); [lra|].
  destruct (Z.eq_dec from to) as [->|N].
  - replace (Z.to_nat (to - to + 1)) with 1%nat by lia. cbn [sum_days].
    pose proof (W to). specialize (Hs eq_refl). nra.
  - replace (Z.to_nat (to - from + 1)) with (1 + (Z.to_nat (to - from - 1) + 1))%nat by lia.
    rewrite !sum_days_app. cbn [sum_days].
    replace (from + Z.of_nat 1 + Z.of_nat (Z.to_nat (to - from - 1))) with to by lia.
    pose proof (sum_days_bounds w (from + Z.of_nat 1) (Z.to_nat (to - from - 1)) W).
    pose proof (W from). pose proof (W to). nra.
Qed.

(** ** Steps of plain calendars *)

Lemma moves_n_all dir n d : moves_n (fun _ => true) dir n d (d + dir * Z.of_nat n).
Proof.
  induction n as [|n IH].
  - replace (d + dir * Z.of_nat 0) with d by lia. constructor.
  - econstructor; [exact IH|]. exists 1. split; [lia|]. split; [lia|]. split; [reflexivity|]. intros; lia.
Qed.

Lemma step_sound {T} `{Num T} (c : calendar T) from n fwd e :
  plain c -> (forall name hols, c = Holidays name hols -> holiday_list hols) ->
  step c from n fwd = Ok e ->
  covers c from /\ exists s, steps_to (business_of c) from n fwd s e /\ (n <> 0 -> covers c s /\ covers c e).
Proof.
  intros P W S. destruct c as [| |name hols|]; cbn [step covers business_of] in *.
  - injection S as <-. split; [exact I|]. exists from. split; [|tauto]. split.
    + now apply slips_self.
    + replace (from + n) with (from + dir_of (0 <? n) * Z.of_nat (Z.to_nat (Z.abs n))) by (unfold dir_of; destruct (Z.ltb_spec 0 n); destruct (Z.ltb_spec 0 (- n)); lia).
      apply moves_n_all.
  - now apply wk_step_sound in S.
  - apply (hol_step_sound hols (W _ _ eq_refl)) in S as (R & s & St & Rs & Re). eauto.
  - destruct P.
Qed.

Lemma step_complete {T} `{Num T} (c : calendar T) from n fwd s e :
  plain c -> (forall name hols, c = Holidays name hols -> holiday_list hols) ->
  steps_to (business_of c) from n fwd s e -> covers c from -> covers c s -> covers c e ->
  step c from n fwd = Ok e.
Proof.
  intros P W S Rf Rs Re. destruct c as [| |name hols|]; cbn [step covers business_of] in *.
  - f_equal. destruct S as [Sl M].
    assert (from = s) by (eapply slips_det; [apply slips_self; reflexivity|exact Sl]). subst s.
    pose proof (moves_n_det _ _ _ _ _ _ M (moves_n_all _ _ _)) as ->. unfold dir_of. destruct (Z.ltb_spec 0 n); lia.
  - eapply wk_step_complete; eauto.
  - eapply hol_step_complete; eauto.
  - destruct P.
Qed.

Definition well {T} (c : calendar T) : Prop := plain c /\ orderly c.

Lemma well_hols {T} (c : calendar T) : well c -> forall name hols, c = Holidays name hols -> holiday_list hols.
Proof. intros [_ P] name hols ->. exact P. Qed.

Lemma proper_orderly c : proper c -> orderly c.
Proof. induction c as [| |name hols|name c IH w]; cbn [proper orderly]; tauto. Qed.

Lemma step_iff {T} {NT : Num T} (c : calendar T) from n fwd e : plain c -> orderly c -> n <> 0 ->
  (step c from n fwd = Ok e <->
   exists s, steps_to (business_of c) from n fwd s e /\ covers c from /\ covers c s /\ covers c e).
Proof.
  intros P W NZ. split.
  - intros S. apply step_sound in S as (R & s & St & C); [|exact P|apply well_hols; split; assumption].
    exists s. split; [exact St|]. split; [exact R|]. apply C, NZ.
  - intros (s & St & Rf & Rs & Re). eapply step_complete; eauto. apply well_hols. split; assumption.
Qed.

Lemma step_ok {T} {NT : Num T} (c : calendar T) from n fwd e : plain c -> orderly c -> step c from n fwd = Ok e ->
  exists s, steps_to (business_of c) from n fwd s e.
Proof.
  intros P W S. apply step_sound in S as (R & s & St & C); [eauto|exact P|apply well_hols; split; assumption].
Qed.

Lemma step_reaches {T} {NT : Num T} (c : calendar T) from n fwd s e : plain c -> orderly c ->
  steps_to (business_of c) from n fwd s e -> covers c from -> covers c s -> covers c e ->
  step c from n fwd = Ok e.
Proof. intros P W. apply step_complete; [exact P|]. apply well_hols. split; assumption. Qed.

Lemma step_business {T} {NT : Num T} (c : calendar T) from n fwd e : plain c -> orderly c -> step c from n fwd = Ok e ->
  business_of c e = true.
Proof. intros P W S. destruct (step_ok _ _ _ _ _ P W S) as (s & St). eapply steps_to_biz; eauto. Qed.

Lemma same_sign a b : (0 <= a /\ 0 <= b) \/ (a <= 0 /\ b <= 0) -> a <> 0 -> b <> 0 ->
  dir_of (0 <? a) = dir_of (0 <? a + b) /\ dir_of (0 <? b) = dir_of (0 <? a + b) /\
  Z.to_nat (Z.abs (a + b)) = (Z.to_nat (Z.abs b) + Z.to_nat (Z.abs a))%nat.
Proof.
  intros S A B. split; [|split]; [| |lia].
  - f_equal. lia.
  - f_equal. lia.
Qed.

Lemma step_add {T} {NT : Num T} (c : calendar T) d a b fwd fwd' m e : plain c -> orderly c ->
  (0 <= a /\ 0 <= b) \/ (a <= 0 /\ b <= 0) ->
  step c d a fwd = Ok m -> step c m b fwd' = Ok e -> step c d (a + b) fwd = Ok e.
Proof.
  intros P W Sg Sa Sb. pose proof (well_hols c (conj P W)) as WH.
  pose proof (step_business _ _ _ _ _ P W Sa) as Bm.
  pose proof (step_sound c d a fwd m P WH Sa) as (Rd & s & [Sl M] & Ca).
  pose proof (step_sound c m b fwd' e P WH Sb) as (Rm & s' & [Sl' M'] & Cb).
  assert (s' = m) by (eapply slips_det; [exact Sl'|now apply slips_self]). subst s'.
  destruct (Z.eq_dec b 0) as [->|NB].
  { inversion M'; subst. now rewrite Z.add_0_r. }
  destruct (Cb NB) as [_ Re].
  destruct (Z.eq_dec a 0) as [->|NA].
  - inversion M; subst. cbn [Z.add]. apply (step_reaches c d b fwd m e P W); auto. split; assumption.
  - destruct (Ca NA) as [Rs _]. destruct (same_sign a b Sg NA NB) as (D1 & D2 & D3).
    apply (step_reaches c d (a + b) fwd s e P W); auto. split; [exact Sl|]. rewrite D1 in M. rewrite D2 in M'. rewrite D3.
    eapply moves_n_app; [exact M|exact M'].
Qed.

Lemma step_inverse {T} {NT : Num T} (c : calendar T) d n fwd fwd' e : plain c -> orderly c -> business_of c d = true ->
  step c d n fwd = Ok e -> step c e (- n) fwd' = Ok d.
Proof.
  intros P W B S. pose proof (well_hols c (conj P W)) as WH.
  pose proof (step_business _ _ _ _ _ P W S) as Be.
  pose proof (step_sound c d n fwd e P WH S) as (Rd & s & [Sl M] & C).
  assert (s = d) by (eapply slips_det; [exact Sl|now apply slips_self]). subst s.
  destruct (Z.eq_dec n 0) as [->|N].
  - inversion M; subst. apply (step_reaches c e (- 0) fwd' e e P W); auto. split; [now apply slips_self|constructor].
  - destruct (C N) as [_ Re]. apply (step_reaches c e (- n) fwd' e d P W); auto. split; [now apply slips_self|].
    rewrite Z.abs_opp. replace (dir_of (0 <? - n)) with (- dir_of (0 <? n)) by (unfold dir_of; destruct (Z.ltb_spec 0 n); destruct (Z.ltb_spec 0 (- n)); lia).
    now apply moves_n_sym.
Qed.

Lemma slips_mono biz fwd d d' e e' : slips biz (dir_of fwd) d e -> slips biz (dir_of fwd) d' e' -> d <= d' -> e <= e'.
Proof.
  intros (k & Hk & Ee & B & N) (k' & Hk' & Ee' & B' & N') L.
  destruct (Z.le_gt_cases e e') as [|G]; [assumption|exfalso].
  unfold dir_of in *. destruct fwd.
  - assert (biz (d + 1 * (e' - d)) = false) by (apply N; lia).
    replace (d + 1 * (e' - d)) with e' in H by lia. congruence.
  - assert (biz (d' + -1 * (d' - e)) = false) by (apply N'; lia).
    replace (d' + -1 * (d' - e)) with e in H by lia. congruence.
Qed.

Lemma moves_mono biz fwd d d' e e' : moves biz (dir_of fwd) d e -> moves biz (dir_of fwd) d' e' -> d <= d' -> e <= e'.
Proof.
  intros (k & Hk & Ee & B & N) (k' & Hk' & Ee' & B' & N') L.
  destruct (Z.le_gt_cases e e') as [|G]; [assumption|exfalso].
  unfold dir_of in *. destruct fwd.
  - assert (biz (d + 1 * (e' - d)) = false) by (apply N; lia).
    replace (d + 1 * (e' - d)) with e' in H by lia. congruence.
  - assert (biz (d' + -1 * (d' - e)) = false) by (apply N'; lia).
    replace (d' + -1 * (d' - e)) with e in H by lia. congruence.
Qed.

Lemma moves_n_mono biz fwd n : forall d d' e e',
  moves_n biz (dir_of fwd) n d e -> moves_n biz (dir_of fwd) n d' e' -> d <= d' -> e <= e'.
Proof.
  induction n as [|n IH]; intros d d' e e' M M' L; inversion M; inversion M'; subst; [exact L|].
  eapply moves_mono; eauto.
Qed.

Lemma step_mono {T} {NT : Num T} (c : calendar T) d d' n fwd e e' : plain c -> orderly c -> d <= d' ->
  step c d n fwd = Ok e -> step c d' n fwd = Ok e' -> e <= e'.
Proof.
  intros P W L S S'.
  destruct (step_ok _ _ _ _ _ P W S) as (s & Sl & M). destruct (step_ok _ _ _ _ _ P W S') as (s' & Sl' & M').
  eapply moves_n_mono; [exact M|exact M'|]. eapply slips_mono; eauto.
Qed.

Lemma moves_n_time biz d e n f : biz d = true -> moves_n biz 1 n d e ->
  weighted_time (weight_of biz 0) d f e f = INR n.
Proof.
  intros B M. pose proof (moves_n_biz _ _ _ _ _ B M) as Be.
  destruct (moves_n_cnt _ _ _ _ _ M) as (k & -> & C & _ & _).
  unfold weighted_time. destruct (Z.ltb_spec (d + 1 * Z.of_nat k) d); [lia|].
  rewrite sum_days_cnt. unfold weight_of. rewrite B, Be.
  replace (Z.to_nat (d + 1 * Z.of_nat k - d + 1)) with (1 + k)%nat by lia.
  rewrite cntd_add. replace (d - 1 + 1 * Z.of_nat 1) with d by lia. rewrite C.
  cbn [cntd]. replace (d - 1 + 1 * Z.of_nat 1) with d by lia. rewrite B, INR_IZR_INZ, plus_IZR. cbn. lra.
Qed.

Lemma covers_slips (c : calendar R) d : business_of c d = true -> forall dir, slips (business_of c) dir d d.
Proof. intros B dir. now apply slips_self. Qed.

Lemma count_step (c : calendar R) d n fwd f e : plain c -> proper c -> business_of c d = true -> 0 <= n ->
  step c d n fwd = Ok e -> count_business_days c d f e f = Ok (IZR n).
Proof.
  intros P W B N S. pose proof (well_hols c (conj P (proper_orderly c W))) as WH.
  pose proof (step_business _ _ _ _ _ P (proper_orderly c W) S) as Be.
  pose proof (step_sound c d n fwd e P WH S) as (Rd & s & [Sl M] & C).
  assert (s = d) by (eapply slips_det; [exact Sl|now apply slips_self]). subst s.
  assert (Re : covers c e).
  { destruct (Z.eq_dec n 0) as [->|N0]; [inversion M; subst; exact Rd|apply C, N0]. }
  destruct (count_total c W d f e f d e) as (x & E); eauto using slips_self.
  rewrite E. f_equal. apply count_sound in E; [|exact W]. subst x.
  assert (EW : weight c = weight_of (business_of c) 0) by (destruct c; try reflexivity; destruct P).
  rewrite EW.
  assert (M' : moves_n (business_of c) 1 (Z.to_nat (Z.abs n)) d e).
  { destruct (Z.eq_dec n 0) as [->|N0]; [inversion M; subst; constructor|].
    unfold dir_of in M. destruct (Z.ltb_spec 0 n); [exact M|lia]. }
  rewrite (moves_n_time _ _ _ _ _ B M'), INR_IZR_INZ. f_equal. lia.
Qed.
