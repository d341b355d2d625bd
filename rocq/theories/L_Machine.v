(** Date arithmetic in 32-bit integers. *)
From Coq Require Import ZArith List String Bool Lia.
From Verif Require Import Prelude Num L_Num M_Dates M_Search M_Calendar M_Machine S_Dates S_Machine L_Search L_DatesSweep L_Dates.
Import ListNotations.
Open Scope Z_scope.

Ltac quots := Z.to_euclidean_division_equations; lia.

Lemma in_i32_fits z : in_i32 z = true <-> fits z.
Proof. unfold in_i32, fits. rewrite andb_true_iff, !Z.leb_le. reflexivity. Qed.
Lemma checked_machine : machine i32.
Proof.
  split; [|split].
  - intros z F. unfold i32. apply in_i32_fits in F. now rewrite F.
  - intros z r. unfold i32. destruct (in_i32 z) eqn:E; [|discriminate]. intros [= <-]. split; [now apply in_i32_fits|]. exists 0. lia.
  - intros z m. unfold i32. destruct (in_i32 z); discriminate.
Qed.
Lemma wrap_fits z : fits (wrap z).
Proof. unfold fits, wrap. pose proof (Z.mod_pos_bound (z + 2147483648) 4294967296). lia. Qed.
Lemma wrap_id z : fits z -> wrap z = z.
Proof. unfold fits, wrap. intros F. rewrite Z.mod_small; lia. Qed.
Lemma wrapping_machine : machine wrapping.
Proof.
  split; [|split].
  - intros z F. unfold wrapping. now rewrite wrap_id.
  - intros z r [= <-]. split; [apply wrap_fits|]. exists (- ((z + 2147483648) / 4294967296)). unfold wrap. pose proof (Z.div_mod (z + 2147483648) 4294967296). lia.
  - intros z m. discriminate.
Qed.

Lemma checked_same y m d : truncated_julian_m i32 y m d = truncated_julian_from_ymd_checked y m d.
Proof. reflexivity. Qed.
Lemma from_str_same s : from_str_m i32 s = from_str s.
Proof. reflexivity. Qed.

Section Machine.
  Variable norm : Z -> res Z.
  Hypothesis M : machine norm.
  Lemma norm_fits z : fits z -> norm z = Ok z.
  Proof. apply M. Qed.
  Lemma norm_ok z r : norm z = Ok r -> fits r /\ exists k, r = z + k * 4294967296.
  Proof. apply M. Qed.
  Lemma norm_checked z r : i32 z = Ok r -> norm z = Ok r.
  Proof. unfold i32. destruct (in_i32 z) eqn:E; [|discriminate]. intros [= <-]. apply norm_fits. now apply in_i32_fits. Qed.

  (** Where a debug build gets an answer every build gets it. *)
  Lemma julian_checked y m d z : truncated_julian_m i32 y m d = Ok z -> truncated_julian_m norm y m d = Ok z.
  Proof.
    unfold truncated_julian_m, madd, msub, mmul, mdiv. intros E.
    repeat (let a := fresh "a" in let H := fresh "H" in apply bind_ok in E as (a & H & E); apply norm_checked in H; rewrite H; cbn [bind]; clear H).
    now apply norm_checked.
  Qed.

  Lemma i32_or z : (exists r, i32 z = Ok r) \/ i32 z = Panic "attempt to overflow".
  Proof. unfold i32. destruct (in_i32 z); eauto. Qed.
  Lemma bind_or (A B : Type) (x : res A) (f : A -> res B) msg : (exists r, x = Ok r) \/ x = Panic msg ->
    (forall a, (exists r, f a = Ok r) \/ f a = Panic msg) -> (exists r, bind x f = Ok r) \/ bind x f = Panic msg.
  Proof. intros [(r & ->)| ->] H; cbn; auto. Qed.
  Lemma julian_or y m d : (exists z, truncated_julian_m i32 y m d = Ok z) \/ truncated_julian_m i32 y m d = Panic "attempt to overflow".
  Proof. unfold truncated_julian_m, madd, msub, mmul, mdiv. repeat (apply bind_or; [apply i32_or|intros]). apply i32_or. Qed.

  Lemma from_str_any s : from_str s <> Panic "attempt to overflow" -> from_str_m norm s = from_str s.
  Proof.
    rewrite <- from_str_same. unfold from_str_m. destruct (parse_field s (split_dash s) 0) as [y|m|m]; cbn [bind]; [|reflexivity..].
    destruct (parse_field s (split_dash s) 1) as [mo|m|m]; cbn [bind]; [|reflexivity..].
    destruct (parse_field s (split_dash s) 2) as [d|m|m]; cbn [bind]; [|reflexivity..].
    destruct (julian_or y mo d) as [(z & E)|E].
    - rewrite (julian_checked _ _ _ _ E), E. reflexivity.
    - rewrite E. cbn [bind]. intros H. now elim H.
  Qed.

  (** Steps. *)
  Lemma valid_fits d : is_valid d = true -> 0 < d < 73000.
  Proof. unfold is_valid. rewrite andb_true_iff, !Z.ltb_lt. lia. Qed.
  Lemma weekday_valid d w : day_of_week d = Ok w -> 0 < d < 73000 /\ 0 <= w < 7.
  Proof. unfold day_of_week. destruct (is_valid d) eqn:V; [|discriminate]. apply valid_fits in V. intros [= <-]. split; [exact V|]. quots. Qed.

  Ltac fit := apply norm_fits; unfold fits in *; try quots.

  Lemma slip_weekday_m from fwd : slip_to_next_weekday_m norm from fwd = slip_to_next_weekday from fwd.
  Proof.
    unfold slip_to_next_weekday_m, slip_to_next_weekday, madd, msub. destruct (day_of_week from) as [w|m|m] eqn:D; cbn [bind]; [|reflexivity..].
    apply weekday_valid in D. destruct (w <? 5); [reflexivity|]. destruct fwd; rewrite norm_fits by (unfold fits; lia); cbn [bind]; rewrite norm_fits by (unfold fits; lia); f_equal; lia.
  Qed.

  (** The date reached, if a valid one, is as in exact arithmetic. *)
  Lemma days_m adj w n to : 0 < adj < 73008 -> 0 <= w < 7 -> fits n -> n <> 0 -> 0 < to < 73000 ->
    (let* days := calendar_days_of_step_m norm w n in madd norm adj days) = Ok to <-> adj + calendar_days_of_step w n = to.
  Proof.
    intros A W F N V. unfold calendar_days_of_step_m, calendar_days_of_step, madd, msub, mmul, mdiv. unfold fits in F. split.
    - intros E. destruct (Z.ltb_spec 0 n).
      + apply bind_ok in E as (x & E & E5). apply bind_ok in E as (x1 & E1 & E). apply bind_ok in E as (x2 & E2 & E). apply bind_ok in E as (x3 & E3 & E4).
        apply norm_ok in E1 as (F1 & k1 & ->). apply norm_ok in E2 as (F2 & k2 & ->). apply norm_ok in E3 as (F3 & k3 & ->). apply norm_ok in E4 as (F4 & k4 & ->).
        apply norm_ok in E5 as (F5 & k5 & ->). unfold fits in *. quots.
      + apply bind_ok in E as (x & E & E5). apply bind_ok in E as (x0 & E0 & E). apply bind_ok in E as (x1 & E1 & E). apply bind_ok in E as (x2 & E2 & E). apply bind_ok in E as (x3 & E3 & E4).
        apply norm_ok in E0 as (F0 & k0 & ->). apply norm_ok in E1 as (F1 & k1 & ->). apply norm_ok in E2 as (F2 & k2 & ->). apply norm_ok in E3 as (F3 & k3 & ->). apply norm_ok in E4 as (F4 & k4 & ->).
        apply norm_ok in E5 as (F5 & k5 & ->). unfold fits in *. quots.
    - destruct (Z.ltb_spec 0 n); intros E.
      + assert (n <= 73000) by quots. rewrite norm_fits by (unfold fits; lia). cbn [bind]. rewrite norm_fits by (unfold fits; quots). cbn [bind].
        rewrite norm_fits by (unfold fits; quots). cbn [bind]. rewrite norm_fits by (unfold fits; quots). cbn [bind]. rewrite norm_fits by (unfold fits; quots). f_equal. exact E.
      + assert (-73010 <= n) by quots. rewrite norm_fits by (unfold fits; lia). cbn [bind]. rewrite norm_fits by (unfold fits; quots). cbn [bind]. rewrite norm_fits by (unfold fits; quots). cbn [bind].
        rewrite norm_fits by (unfold fits; quots). cbn [bind]. rewrite norm_fits by (unfold fits; quots). cbn [bind]. rewrite norm_fits by (unfold fits; quots). f_equal. exact E.
  Qed.

  Lemma wk_step_any from n fwd e : fits n -> wk_step_m norm from n fwd = Ok e <-> wk_step from n fwd = Ok e.
  Proof.
    intros F. unfold wk_step_m, wk_step. rewrite slip_weekday_m. destruct (slip_to_next_weekday from fwd) as [adj|m|m]; cbn [bind]; [|reflexivity..].
    destruct (Z.eqb_spec n 0); [reflexivity|]. destruct (day_of_week adj) as [w|m|m] eqn:D; cbn [bind]; [|reflexivity..]. apply weekday_valid in D.
    assert (LAST : forall to w', 0 < to < 73000 -> (if w' <? 5 then Ok to else if 0 <? n then madd norm to 2 else msub norm to 2) =
      (if w' <? 5 then Ok to else if 0 <? n then Ok (to + 2) else Ok (to - 2))).
    { intros to w' V. unfold madd, msub. rewrite !norm_fits by (unfold fits; lia). reflexivity. }
    split.
    - intros E. apply bind_ok in E as (days & E1 & E). apply bind_ok in E as (to & E2 & E). apply bind_ok in E as (w' & E3 & E).
      pose proof (weekday_valid _ _ E3) as V. rewrite LAST in E by tauto.
      assert (T : adj + calendar_days_of_step w n = to) by (apply days_m; try tauto; [lia|rewrite E1; exact E2]).
      rewrite T, E3. exact E.
    - intros E. apply bind_ok in E as (w' & E3 & E). pose proof (weekday_valid _ _ E3) as V. set (to := adj + calendar_days_of_step w n) in *.
      assert (T : (let* days := calendar_days_of_step_m norm w n in madd norm adj days) = Ok to) by (apply days_m; try tauto; lia).
      apply bind_ok in T as (days & T1 & T2). rewrite T1. cbn [bind]. rewrite T2. cbn [bind]. rewrite E3. cbn [bind]. rewrite LAST by tauto. exact E.
  Qed.

  Lemma holiday_valid hols d h : hol_is_holiday hols d = Ok h -> 0 < d < 73000.
  Proof. unfold hol_is_holiday. intros E. apply bind_ok in E as (w & E & _). now apply weekday_valid in E. Qed.

  Lemma slip_next_m hols dir : (dir = 1 \/ dir = -1) -> forall fuel d, slip_to_next_m norm fuel hols d dir = slip_to_next fuel hols d dir.
  Proof.
    intros Dir. induction fuel as [|k IH]; intros d; [reflexivity|]. cbn [slip_to_next_m slip_to_next].
    destruct (hol_is_holiday hols d) as [h|m|m] eqn:H; cbn [bind]; [|reflexivity..]. apply holiday_valid in H. destruct h; [|reflexivity].
    unfold madd. rewrite norm_fits by (unfold fits; lia). apply IH.
  Qed.
  Lemma slip_next_valid hols dir : forall fuel d e, slip_to_next fuel hols d dir = Ok e -> 0 < e < 73000.
  Proof.
    induction fuel as [|k IH]; intros d e; [discriminate|]. cbn [slip_to_next].
    destruct (hol_is_holiday hols d) as [h|m|m] eqn:H; cbn [bind]; try discriminate. apply holiday_valid in H. destruct h; [apply IH|]. now intros [= <-].
  Qed.

  Lemma remaining_bound hols x : (fst (remaining_holidays hols x) <= List.length hols)%nat.
  Proof.
    unfold remaining_holidays, binary_search_by. destruct hols as [|h l]; [cbn; lia|].
    set (hols := h :: l). pose proof (bs_loop_bound hols (fun h => (h ?= x)) (List.length hols) (List.length hols) 0 ltac:(subst hols; cbn; lia)) as B.
    cbv zeta.
    destruct (nth_error _ _) as [a|]; [destruct (a ?= x)|]; cbn [fst]; lia.
  Qed.

  Lemma count_m hols from to : Z.of_nat (List.length hols) <= 2147480000 -> count_holidays_m norm hols from to = Ok (count_holidays hols from to) /\
    -2147480001 <= count_holidays hols from to <= 2147480000.
  Proof.
    intros L. unfold count_holidays_m, count_holidays. pose proof (remaining_bound hols from) as A. pose proof (remaining_bound hols to) as B.
    destruct (remaining_holidays hols from) as [a ah]. destruct (remaining_holidays hols to) as [b bh]. cbn [fst] in A, B.
    rewrite !wrap_id by (unfold fits; lia). unfold msub. rewrite norm_fits by (unfold fits; lia). cbn [bind].
    destruct ah; [rewrite norm_fits by (unfold fits; lia)|]; split; try reflexivity; lia.
  Qed.

  Lemma loop_m hols dir : (dir = 1 \/ dir = -1) -> forall fuel d extra, fits extra ->
    hol_step_loop_m norm fuel hols dir d extra = hol_step_loop fuel hols dir d extra.
  Proof.
    intros Dir. induction fuel as [|k IH]; intros d extra F; [reflexivity|]. cbn [hol_step_loop_m hol_step_loop].
    destruct (hol_is_holiday hols d) as [h|m|m] eqn:H; cbn [bind]; [|reflexivity..]. apply holiday_valid in H.
    unfold madd, msub. destruct h.
    - rewrite norm_fits by (unfold fits; lia). now apply IH.
    - destruct (Z.ltb_spec 0 extra); [|reflexivity]. rewrite norm_fits by (unfold fits; lia). cbn [bind]. unfold fits in F. rewrite norm_fits by (unfold fits; lia). cbn [bind].
      apply IH. unfold fits. lia.
  Qed.

  Lemma hol_step_any hols from n fwd e : Z.of_nat (List.length hols) <= 2147480000 -> fits n ->
    hol_step_m norm hols from n fwd = Ok e <-> hol_step hols from n fwd = Ok e.
  Proof.
    intros L F. unfold hol_step_m, hol_step. rewrite slip_next_m by (destruct fwd; auto).
    destruct (slip_to_next day_fuel hols from _) as [adj|m|m]; cbn [bind]; [|reflexivity..].
    destruct (Z.eqb_spec n 0); [reflexivity|]. destruct (day_of_week adj) as [w|m|m] eqn:D; cbn [bind]; [|reflexivity..]. apply weekday_valid in D.
    assert (LAST : forall to w', 0 < to < 73000 -> 0 <= w' < 7 ->
      (if 0 <? n then let* w := msub norm w' 4 in let weekend_days := Z.max w 0 in let* c := count_holidays_m norm hols adj to in
        let* extra := madd norm c weekend_days in hol_step_loop_m norm day_fuel hols 1 to extra
       else let weekend_days := if w' =? 5 then 1 else 0 in let* c := count_holidays_m norm hols to adj in
        let* extra := madd norm c weekend_days in hol_step_loop_m norm day_fuel hols (-1) to extra) =
      (if 0 <? n then let weekend_days := Z.max (w' - 4) 0 in let extra := count_holidays hols adj to + weekend_days in hol_step_loop day_fuel hols 1 to extra
       else let weekend_days := if w' =? 5 then 1 else 0 in let extra := count_holidays hols to adj + weekend_days in hol_step_loop day_fuel hols (-1) to extra)).
    { intros to w' V W. unfold madd, msub. destruct (0 <? n).
      - rewrite norm_fits by (unfold fits; lia). cbn [bind]. cbv zeta. destruct (count_m hols adj to L) as (-> & B). cbn [bind]. rewrite norm_fits by (unfold fits; lia). cbn [bind].
        apply loop_m; [auto|unfold fits; lia].
      - cbv zeta. destruct (count_m hols to adj L) as (-> & B). cbn [bind]. assert (0 <= (if w' =? 5 then 1 else 0) <= 1) by (destruct (w' =? 5); lia).
        rewrite norm_fits by (unfold fits; lia). cbn [bind]. apply loop_m; [auto|unfold fits; lia]. }
    split.
    - intros E. apply bind_ok in E as (days & E1 & E). apply bind_ok in E as (to & E2 & E). apply bind_ok in E as (w' & E3 & E).
      pose proof (weekday_valid _ _ E3) as V. rewrite LAST in E by tauto.
      assert (T : adj + calendar_days_of_step w n = to) by (apply days_m; try tauto; [lia|rewrite E1; exact E2]).
      rewrite T, E3. exact E.
    - intros E. apply bind_ok in E as (w' & E3 & E). pose proof (weekday_valid _ _ E3) as V. set (to := adj + calendar_days_of_step w n) in *.
      assert (T : (let* days := calendar_days_of_step_m norm w n in madd norm adj days) = Ok to) by (apply days_m; try tauto; lia).
      apply bind_ok in T as (days & T1 & T2). rewrite T1. cbn [bind]. rewrite T2. cbn [bind]. rewrite E3. cbn [bind]. rewrite LAST by tauto. exact E.
  Qed.

  Lemma every_step_any from n e : fits n -> 0 < from < 73000 -> 0 < e < 73000 -> every_step_m norm from n = Ok e <-> from + n = e.
  Proof.
    intros F V W. unfold every_step_m, madd, fits in *. split.
    - intros E. apply norm_ok in E as (G & k & ->). lia.
    - intros <-. apply norm_fits. unfold fits. lia.
  Qed.
End Machine.

(** What goes wrong. *)
Lemma later_years : exists d, from_str "2941824-01-01" = Panic "attempt to overflow" /\ from_str_m wrapping "2941824-01-01" = Ok d /\ to_string d = "2018-09-26"%string.
Proof. eexists. split; [reflexivity|]. split; [vm_compute; reflexivity|]. vm_compute. reflexivity. Qed.
Lemma u32_steps n : 0 <= n < 4294967296 -> step_of_u32 n = n <-> n < 2147483648.
Proof. intros B. unfold step_of_u32. split; [intros <-; pose proof (wrap_fits n) as F; unfold fits in F; lia|intros L; apply wrap_id; unfold fits; lia]. Qed.

(** The days that have a year, month and day at all. *)
Lemma i32_fits z : fits z -> i32 z = Ok z.
Proof. apply checked_machine. Qed.
Lemma i32_inv z r : i32 z = Ok r -> r = z /\ fits z.
Proof. unfold i32. destruct (in_i32 z) eqn:E; [|discriminate]. intros [= <-]. split; [reflexivity|now apply in_i32_fits]. Qed.
Lemma ymd_range d : (exists t, ymd_from_truncated_julian_checked d = Ok t) <-> -539379481 <= d <= 534362342.
Proof.
  unfold ymd_from_truncated_julian_checked, cadd, cmul, csub, cdiv. split.
  - intros (t & E). apply bind_ok in E as (a & A & E). apply bind_ok in E as (b & B & E). apply bind_ok in E as (c & C & E). clear E.
    apply i32_inv in A as (-> & A). apply i32_inv in B as (-> & B). apply i32_inv in C as (-> & C). unfold fits in *. lia.
  - intros B.
    rewrite i32_fits by (unfold fits; lia). cbn [bind]. rewrite i32_fits by (unfold fits; lia). cbn [bind]. set (l1 := d + 2440000 + 68569).
    assert (L1 : -536870912 <= l1 <= 536870911) by (unfold l1; lia). clearbody l1.
    rewrite i32_fits by (unfold fits; lia). cbn [bind].
    rewrite i32_fits by (unfold fits; quots). cbn [bind]. set (n := Z.quot (4 * l1) 146097).
    assert (N : -146096 <= 4 * l1 - 146097 * n <= 146096 /\ (0 <= l1 -> 0 <= 4 * l1 - 146097 * n) /\ (l1 <= 0 -> 4 * l1 - 146097 * n <= 0)) by (unfold n; quots). clearbody n.
    rewrite i32_fits by (unfold fits; lia). cbn [bind]. rewrite i32_fits by (unfold fits; lia). cbn [bind].
    rewrite i32_fits by (unfold fits; quots). cbn [bind]. rewrite i32_fits by (unfold fits; quots). cbn [bind].
    set (l2 := l1 - Z.quot (146097 * n + 3) 4). assert (L2 : -36526 <= l2 <= 36526) by (unfold l2; quots). 
    assert (NB : -14700 <= n <= 14700) by lia. clearbody l2. clear N L1 l1 B.
    rewrite i32_fits by (unfold fits; lia). cbn [bind]. rewrite i32_fits by (unfold fits; lia). cbn [bind]. rewrite i32_fits by (unfold fits; quots). cbn [bind].
    set (i1 := Z.quot (4000 * (l2 + 1)) 1461001). assert (I1 : -101 <= i1 <= 101) by (unfold i1; quots). clearbody i1.
    rewrite i32_fits by (unfold fits; lia). cbn [bind]. rewrite i32_fits by (unfold fits; quots). cbn [bind]. rewrite i32_fits by (unfold fits; quots). cbn [bind].
    rewrite i32_fits by (unfold fits; quots). cbn [bind]. set (l3 := l2 - Z.quot (1461 * i1) 4 + 31). assert (L3 : -74000 <= l3 <= 74000) by (unfold l3; quots). clearbody l3.
    rewrite i32_fits by (unfold fits; lia). cbn [bind]. rewrite i32_fits by (unfold fits; quots). cbn [bind].
    set (j1 := Z.quot (80 * l3) 2447). assert (J1 : -3000 <= j1 <= 3000) by (unfold j1; quots). clearbody j1.
    rewrite i32_fits by (unfold fits; lia). cbn [bind]. rewrite i32_fits by (unfold fits; quots). cbn [bind]. rewrite i32_fits by (unfold fits; quots). cbn [bind].
    rewrite i32_fits by (unfold fits; quots). cbn [bind]. set (l4 := Z.quot j1 11). assert (L4 : -3000 <= l4 <= 3000) by (unfold l4; quots). clearbody l4.
    repeat (rewrite i32_fits by (unfold fits; lia); cbn [bind]). eexists. reflexivity.
Qed.
Lemma ymd_checked_is d t : ymd_from_truncated_julian_checked d = Ok t -> t = ymd d.
Proof.
  unfold ymd_from_truncated_julian_checked, cadd, cmul, csub, cdiv, ymd, ymd_from_truncated_julian. intros E.
  repeat (let a := fresh "a" in let H := fresh "H" in apply bind_ok in E as (a & H & E); apply i32_inv in H as (-> & _)). now injection E as <-.
Qed.
Lemma infinite_dates : (forall t, ymd_from_truncated_julian_checked 2147483647 <> Ok t) /\ (forall t, ymd_from_truncated_julian_checked (-2147483648) <> Ok t).
Proof. split; intros t E; pose proof (proj1 (ymd_range _) (ex_intro _ t E)); lia. Qed.
Lemma every_step_dispatched norm : machine norm -> forall T (N : Num T) from n (fwd : bool) e, fits n -> 0 < from < 73000 -> 0 < e < 73000 ->
  every_step_m norm from n = Ok e <-> step (EveryDay : calendar T) from n fwd = Ok e.
Proof. intros M T N from n fwd e F V W. rewrite (every_step_any norm M from n e F V W). cbn [step]. split; [intros ->; reflexivity|now intros [= ->]]. Qed.
Lemma steps_case : wk_step_m wrapping 18120 300 true = Ok 18540 /\ fits 300 /\
  (exists m, wk_step_m wrapping 18120 2147483647 true = Panic m) /\ every_step_m wrapping 18120 2147483647 = Ok (-2147465529).
Proof. split; [reflexivity|]. split; [unfold fits; lia|]. split; [eexists; reflexivity|reflexivity]. Qed.
(** The years up to which a debug build reads dates without overflow. *)
Lemma years y m d : 0 <= y <= 2147483647 -> 1 <= m <= 12 -> 1 <= d <= 31 ->
  (exists z, truncated_julian_from_ymd_checked y m d = Ok z) <-> y <= 1465072 + (if m <=? 2 then 1 else 0).
Proof.
  intros Y Mo D. unfold truncated_julian_from_ymd_checked, cadd, cmul, csub, cdiv.
  assert (YM : Z.quot (m - 14) 12 = if m <=? 2 then -1 else 0) by (destruct (Z.leb_spec m 2); quots). split.
  - intros (z & E). apply bind_ok in E as (a & A & E). apply bind_ok in E as (ym & B & E). apply bind_ok in E as (t0 & C & E). apply bind_ok in E as (b & F & E). apply bind_ok in E as (b' & G & E). apply bind_ok in E as (b'' & H & E). clear E.
    apply i32_inv in A as (-> & A). apply i32_inv in B as (-> & B). apply i32_inv in C as (-> & C). apply i32_inv in F as (-> & F). apply i32_inv in G as (-> & G). apply i32_inv in H as (-> & H).
    rewrite YM in *. unfold fits in *. destruct (Z.leb_spec m 2); lia.
  - intros L. assert (L' : 0 <= y <= 1465073) by (destruct (m <=? 2); lia).
    rewrite i32_fits by (unfold fits; lia). cbn [bind]. rewrite i32_fits by (unfold fits; quots). cbn [bind]. rewrite YM. set (ym := if m <=? 2 then -1 else 0) in *.
    assert (V : -1 <= ym <= 0 /\ y + ym <= 1465072) by (unfold ym; destruct (m <=? 2); lia). clearbody ym. clear YM L.
    rewrite i32_fits by (unfold fits; lia). cbn [bind]. rewrite i32_fits by (unfold fits; lia). cbn [bind]. rewrite i32_fits by (unfold fits; lia). cbn [bind]. rewrite i32_fits by (unfold fits; lia). cbn [bind].
    rewrite i32_fits by (unfold fits; quots). cbn [bind]. set (b := Z.quot (1461 * (y + 4800 + ym)) 4). assert (0 <= b <= 536870912) by (unfold b; quots). clearbody b.
    rewrite i32_fits by (unfold fits; lia). cbn [bind]. rewrite i32_fits by (unfold fits; lia). cbn [bind]. rewrite i32_fits by (unfold fits; lia). cbn [bind]. rewrite i32_fits by (unfold fits; lia). cbn [bind]. rewrite i32_fits by (unfold fits; lia). cbn [bind].
    rewrite i32_fits by (unfold fits; quots). cbn [bind]. set (c := Z.quot (367 * (m - 2 - ym * 12)) 12). assert (-1000 <= c <= 1000) by (unfold c; quots). clearbody c.
    rewrite i32_fits by (unfold fits; lia). cbn [bind]. rewrite i32_fits by (unfold fits; lia). cbn [bind]. rewrite i32_fits by (unfold fits; lia). cbn [bind]. rewrite i32_fits by (unfold fits; quots). cbn [bind].
    set (e := Z.quot (y + 4900 + ym) 100). assert (0 <= e <= 15000) by (unfold e; quots). clearbody e. rewrite i32_fits by (unfold fits; lia). cbn [bind]. rewrite i32_fits by (unfold fits; quots). cbn [bind].
    set (f := Z.quot (3 * e) 4). assert (0 <= f <= 45000) by (unfold f; quots). clearbody f. rewrite i32_fits by (unfold fits; lia). cbn [bind]. rewrite i32_fits by (unfold fits; lia). eexists. reflexivity.
Qed.

(** Unsigned numbers of days to step back. *)
Lemma u32_back norm : machine norm -> forall n, 0 <= n < 4294967296 ->
  (n < 2147483648 -> back_of_u32 norm n = Ok (- n)) /\ (2147483648 < n -> back_of_u32 norm n = Ok (4294967296 - n)).
Proof.
  intros (F & _) n R. unfold back_of_u32, wrap. split; intros L.
  - rewrite Z.mod_small by lia. replace (- (n + 2147483648 - 2147483648)) with (- n) by lia. apply F. unfold fits. lia.
  - replace (n + 2147483648) with (n - 2147483648 + 1 * 4294967296) by lia. rewrite Z.mod_add, Z.mod_small by lia.
    replace (- (n - 2147483648 - 2147483648)) with (4294967296 - n) by lia. apply F. unfold fits. lia.
Qed.
