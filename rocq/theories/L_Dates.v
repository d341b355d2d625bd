From Coq Require Import ZArith List String Ascii Bool Lia ZifyBool.
From Verif Require Import Prelude M_Dates S_Dates L_DatesSweep.
Import ListNotations.
Open Scope Z_scope.

Ltac Zify.zify_post_hook ::= Z.div_mod_to_equations.


Definition day_min : Z := -2440000.

Lemma exists_ymd_month y m d : exists_ymd (y, m, d) ->
  m = 1 \/ m = 2 \/ m = 3 \/ m = 4 \/ m = 5 \/ m = 6 \/ m = 7 \/ m = 8 \/ m = 9 \/ m = 10 \/ m = 11 \/ m = 12.
Proof. unfold exists_ymd. lia. Qed.

(** ** The successor law for [from_ymd] *)

Lemma from_ymd_day y m d : from_ymd y m (d + 1) = from_ymd y m d + 1.
Proof. unfold from_ymd, truncated_julian_from_ymd. lia. Qed.

(** [from_ymd] with the truncating divisions replaced by floor divisions, for existing months. *)
Lemma from_ymd_floor y m d : -4713 <= y -> 1 <= m <= 12 ->
  from_ymd y m d =
    let ym := if m <=? 2 then -1 else 0 in
    d - 32075 + 1461 * (y + 4800 + ym) / 4 + 367 * (m - 2 - ym * 12) / 12
    - 3 * ((y + 4900 + ym) / 100) / 4 - 2440000.
Proof.
  intros Hy Hm. unfold from_ymd, truncated_julian_from_ymd.
  assert (E : Z.quot (m - 14) 12 = if m <=? 2 then -1 else 0).
  { rewrite <- (Z.opp_involutive (m - 14)).
    rewrite Z.quot_opp_l by lia. rewrite Z.quot_div_nonneg by lia. destruct (Z.leb_spec m 2); lia. }
  rewrite E. set (ym := if m <=? 2 then -1 else 0). cbv zeta.
  assert (Hym : -1 <= ym <= 0) by (unfold ym; destruct (m <=? 2); lia).
  assert (Hc : 1 <= m - 2 - ym * 12) by (unfold ym; destruct (Z.leb_spec m 2); lia).
  rewrite (Z.quot_div_nonneg (1461 * (y + 4800 + ym)) 4) by lia.
  rewrite (Z.quot_div_nonneg (367 * _) 12) by lia.
  rewrite (Z.quot_div_nonneg (y + 4900 + ym) 100) by lia.
  rewrite (Z.quot_div_nonneg (3 * _) 4) by lia.
  reflexivity.
Qed.

Lemma from_ymd_month y m : -4713 <= y -> 1 <= m <= 11 ->
  from_ymd y (m + 1) 1 = from_ymd y m (days_in_month y m) + 1.
Proof.
  intros Hy Hm. rewrite !from_ymd_floor by lia.
  assert (C : m = 1 \/ m = 2 \/ m = 3 \/ m = 4 \/ m = 5 \/ m = 6 \/ m = 7 \/ m = 8 \/ m = 9 \/ m = 10 \/ m = 11) by lia.
  destruct C as [->|[->|[->|[->|[->|[->|[->|[->|[->|[->| ->]]]]]]]]]];
    unfold days_in_month; cbn [Z.eqb Z.leb Z.compare Pos.compare Pos.compare_cont Pos.eqb orb Z.add Pos.add Pos.succ];
    try (cbv zeta; lia).
  unfold leap. cbv zeta.
  destruct (Z.eqb_spec (y mod 4) 0), (Z.eqb_spec (y mod 100) 0), (Z.eqb_spec (y mod 400) 0);
    cbn [andb negb orb]; lia.
Qed.

Lemma from_ymd_year y : -4713 <= y -> from_ymd (y + 1) 1 1 = from_ymd y 12 31 + 1.
Proof. intros Hy. rewrite !from_ymd_floor by lia. cbn [Z.leb Z.compare Pos.compare Pos.compare_cont]. cbv zeta. lia. Qed.

Lemma from_ymd_next t : let '(y, m, d) := t in -4713 <= y -> exists_ymd t ->
  let '(y', m', d') := next_ymd t in from_ymd y' m' d' = from_ymd y m d + 1.
Proof.
  destruct t as [[y m] d]. intros Hy [Hm Hd]. unfold next_ymd.
  destruct (Z.ltb_spec d (days_in_month y m)); [apply from_ymd_day|].
  assert (E : d = days_in_month y m) by lia. subst d.
  destruct (Z.ltb_spec m 12).
  - apply from_ymd_month; lia.
  - replace m with 12 by lia. apply from_ymd_year. exact Hy.
Qed.

(** ** [ymd] inverts [from_ymd] *)

(** The last step of the algorithm: month and day from the day within the March-based year. *)
Lemma month_of_day M d : 1 <= M <= 12 -> 1 <= d <= 31 ->
  (M = 2 \/ M = 4 \/ M = 7 \/ M = 9 -> d <= 30) -> (M = 12 -> d <= 29) ->
  let l3 := d + 367 * M / 12 in
  80 * l3 / 2447 = M /\ l3 - 2447 * M / 80 = d.
Proof.
  intros HM Hd H30 H29.
  assert (C : M = 1 \/ M = 2 \/ M = 3 \/ M = 4 \/ M = 5 \/ M = 6 \/ M = 7 \/ M = 8 \/ M = 9 \/ M = 10 \/ M = 11 \/ M = 12) by lia.
  destruct C as [->|[->|[->|[->|[->|[->|[->|[->|[->|[->|[->| ->]]]]]]]]]]]; cbv zeta; lia.
Qed.

(** With C the century index, r the year in the century and e the day in the (March-based) year. *)
Lemma ymd_core C r M d e : 0 <= C -> 0 <= r <= 99 -> 1 <= M <= 12 -> 1 <= d <= 31 ->
  (M = 2 \/ M = 4 \/ M = 7 \/ M = 9 -> d <= 30) -> (M = 12 -> d <= 29) ->
  e = d + 367 * M / 12 - 31 ->
  (e = 365 -> (r + 1) mod 4 = 0 /\ (r = 99 -> C mod 4 = 0)) ->
  ymd ((146097 * C + 3) / 4 + 1461 * r / 4 + e - 68569 - 2440000)
  = (100 * (C - 49) + r + M / 11, M + 2 - 12 * (M / 11), d).
Proof.
  intros HC Hr HM Hd H30 H29 He Hleap.
  assert (Be : 0 <= e <= 365).
  { assert (M = 1 \/ M = 2 \/ M = 3 \/ M = 4 \/ M = 5 \/ M = 6 \/ M = 7 \/ M = 8 \/ M = 9 \/ M = 10 \/ M = 11 \/ M = 12) as K by lia.
    destruct K as [->|[->|[->|[->|[->|[->|[->|[->|[->|[->|[->| ->]]]]]]]]]]]; lia. }
  pose proof (month_of_day M d HM Hd H30 H29) as [MD1 MD2]. cbv zeta in MD1, MD2.
  replace (d + 367 * M / 12) with (e + 31) in MD1, MD2 by lia.
  clear He HM H30 H29.
  unfold ymd, ymd_from_truncated_julian. cbv zeta.
  set (w := 1461 * r / 4 + e).
  assert (Bw : 0 <= w) by (unfold w; lia).
  replace ((146097 * C + 3) / 4 + 1461 * r / 4 + e - 68569 - 2440000 + 2440000 + 68569)
    with ((146097 * C + 3) / 4 + w) by (unfold w; lia).
  assert (HwC : 4 * w + 3 < 146097 \/ (4 * w < 146097 /\ C mod 4 = 0)).
  { unfold w. destruct (Z.eq_dec e 365) as [E|E].
    - destruct (Hleap E) as [L1 L2]. destruct (Z.eq_dec r 99) as [->|N]; [right|left]; lia.
    - left. lia. }
  assert (N : Z.quot (4 * ((146097 * C + 3) / 4 + w)) 146097 = C).
  { rewrite Z.quot_div_nonneg by lia.
    symmetry. apply Z.div_unique with (r := 4 * ((146097 * C + 3) / 4 + w) - 146097 * C); [left|lia].
    clear MD1 MD2 Hleap. lia. }
  rewrite N.
  rewrite (Z.quot_div_nonneg (146097 * C + 3) 4) by lia.
  replace ((146097 * C + 3) / 4 + w - (146097 * C + 3) / 4) with w by lia.
  assert (I1 : Z.quot (4000 * (w + 1)) 1461001 = r).
  { rewrite Z.quot_div_nonneg by lia.
    symmetry. apply Z.div_unique with (r := 4000 * (w + 1) - 1461001 * r); [left|lia].
    clear MD1 MD2 N HwC. unfold w. destruct (Z.eq_dec e 365) as [E|E].
    - destruct (Hleap E) as [L1 _]. lia.
    - lia. }
  rewrite I1. rewrite (Z.quot_div_nonneg (1461 * r) 4) by lia.
  replace (w - 1461 * r / 4 + 31) with (e + 31) by (unfold w; lia).
  assert (HM : 0 <= M) by (rewrite <- MD1; apply Z.div_pos; lia).
  rewrite (Z.quot_div_nonneg (80 * (e + 31)) 2447) by lia. rewrite MD1.
  rewrite (Z.quot_div_nonneg (2447 * M) 80) by lia.
  rewrite (Z.quot_div_nonneg M 11) by lia. rewrite MD2. reflexivity.
Qed.

Lemma from_ymd_core y m d : -4800 <= y -> exists_ymd (y, m, d) ->
  exists C r M e, 0 <= C /\ 0 <= r <= 99 /\ 1 <= M <= 12 /\ 1 <= d <= 31 /\
  (M = 2 \/ M = 4 \/ M = 7 \/ M = 9 -> d <= 30) /\ (M = 12 -> d <= 29) /\
  e = d + 367 * M / 12 - 31 /\
  (e = 365 -> (r + 1) mod 4 = 0 /\ (r = 99 -> C mod 4 = 0)) /\
  100 * (C - 49) + r + M / 11 = y /\ M + 2 - 12 * (M / 11) = m /\
  d - 32075 + 1461 * (y + 4800 + (if m <=? 2 then -1 else 0)) / 4
    + 367 * (m - 2 - (if m <=? 2 then -1 else 0) * 12) / 12
    - 3 * ((y + 4900 + (if m <=? 2 then -1 else 0)) / 100) / 4 - 2440000
  = (146097 * C + 3) / 4 + 1461 * r / 4 + e - 68569 - 2440000.
Proof.
  intros Hy E. pose proof (exists_ymd_month _ _ _ E) as Cm. destruct E as [Hm Hd].
  set (ym := if m <=? 2 then -1 else 0).
  set (M := m - 2 - 12 * ym). set (Y := y + 4900 + ym).
  exists (Y / 100), (Y mod 100), M, (d + 367 * M / 12 - 31).
  assert (Hym : ym = if m <=? 2 then -1 else 0) by reflexivity.
  assert (HM : M = m - 2 - 12 * ym) by reflexivity.
  assert (HY : Y = y + 4900 + ym) by reflexivity.
  clearbody M Y ym.
  assert (D : 1461 * (Y - 100) / 4 - 3 * (Y / 100) / 4 = (146097 * (Y / 100) + 3) / 4 + 1461 * (Y mod 100) / 4 - 36525).
  { clear. pose proof (Z.div_mod Y 100 ltac:(lia)) as DM.
    set (c := Y / 100) in *. set (r := Y mod 100) in *. clearbody c r. subst Y.
    replace (1461 * (100 * c + r - 100)) with (1461 * r + (36525 * (c - 1)) * 4) by lia.
    rewrite Z.div_add by lia. lia. }
  assert (L : M = 12 -> d <= 29 /\ (d = 29 -> leap y = true)).
  { intros K. assert (m = 2) by (destruct (Z.leb_spec m 2); lia). subst m.
    unfold days_in_month in Hd. cbn [Z.eqb Pos.eqb] in Hd. destruct (leap y); split; lia || reflexivity. }
  assert (Bd : d <= 31) by (unfold days_in_month in Hd; destruct (m =? 2), (leap y); try lia;
     destruct ((m =? 4) || (m =? 6) || (m =? 9) || (m =? 11)); lia).
  assert (B30 : M = 2 \/ M = 4 \/ M = 7 \/ M = 9 -> d <= 30).
  { intros K. assert (m = 4 \/ m = 6 \/ m = 9 \/ m = 11) as K' by (destruct (Z.leb_spec m 2); lia).
    destruct K' as [->|[->|[->| ->]]]; exact (proj2 Hd). }
  assert (HMr : 1 <= M <= 12) by (destruct (Z.leb_spec m 2); lia).
  assert (Hd1 : 1 <= d) by lia.
  repeat match goal with |- _ /\ _ => split end; try (clear Hd L D; lia).
  - clear - L. intros K. apply L in K. tauto.
  - intros K. assert (M = 12 /\ d = 29) as [K1 K2].
    { clear - K HMr Bd B30 L.
      assert (M = 1 \/ M = 2 \/ M = 3 \/ M = 4 \/ M = 5 \/ M = 6 \/ M = 7 \/ M = 8 \/ M = 9 \/ M = 10 \/ M = 11 \/ M = 12) as K' by lia.
      destruct K' as [->|[->|[->|[->|[->|[->|[->|[->|[->|[->|[->| ->]]]]]]]]]]]; lia. }
    destruct (L K1) as [_ L2]. specialize (L2 K2).
    assert (m = 2) by (destruct (Z.leb_spec m 2); lia). subst m. cbn [Z.leb Z.compare Pos.compare Pos.compare_cont] in Hym.
    subst ym. clear - HY L2. unfold leap in L2. split; lia.
Qed.

Lemma ymd_of_from_ymd y m d : -4713 <= y -> exists_ymd (y, m, d) ->
  ymd (from_ymd y m d) = (y, m, d).
Proof.
  intros Hy E. rewrite from_ymd_floor by (exact Hy || exact (proj1 E)). cbv zeta.
  destruct (from_ymd_core y m d ltac:(lia) E) as (C & r & M & e & H0 & H1 & H2 & H3 & H4 & H5 & H6 & H7 & H8 & H9 & H10).
  rewrite H10, (ymd_core C r M d e) by assumption. rewrite H8, H9. reflexivity.
Qed.

(** ** Every day from -2440000 on is the image of an existing triple *)

Lemma next_ymd_exists t : exists_ymd t -> exists_ymd (next_ymd t).
Proof.
  destruct t as [[y m] d]. intros [Hm Hd]. unfold next_ymd.
  assert (B : forall a b, 1 <= days_in_month a b).
  { intros a b. unfold days_in_month. destruct (b =? 2); [destruct (leap a); lia|].
    destruct ((b =? 4) || (b =? 6) || (b =? 9) || (b =? 11)); lia. }
  destruct (Z.ltb_spec d (days_in_month y m)); [split; lia|].
  destruct (Z.ltb_spec m 12); (split; [lia|]); [pose proof (B y (m + 1))|pose proof (B (y + 1) 1)]; lia.
Qed.

Lemma next_ymd_year t : let '(y, _, _) := t in let '(y', _, _) := next_ymd t in y <= y'.
Proof.
  destruct t as [[y m] d]. unfold next_ymd. destruct (d <? _); [lia|]. destruct (m <? 12); lia.
Qed.

Lemma from_ymd_surj n : 0 <= n ->
  exists y m d, -4713 <= y /\ exists_ymd (y, m, d) /\ from_ymd y m d = day_min + n.
Proof.
  revert n. apply natlike_ind.
  - exists (-4713), 11, 24. repeat split; try lia; vm_compute; congruence.
  - intros n Hn (y & m & d & Hy & E & F).
    pose proof (from_ymd_next (y, m, d) Hy E) as N. pose proof (next_ymd_exists _ E) as E'.
    pose proof (next_ymd_year (y, m, d)) as Y.
    destruct (next_ymd (y, m, d)) as [[y' m'] d']. exists y', m', d'.
    split; [lia|]. split; [exact E'|]. lia.
Qed.

Lemma cycle_facts d : day_min <= d ->
  ymd (d + 1) = next_ymd (ymd d) /\ exists_ymd (ymd d) /\
  (let '(y, m, dd) := ymd d in from_ymd y m dd = d) /\
  (let '(y, m, dd) := ymd d in -4713 <= y).
Proof.
  intros H. destruct (from_ymd_surj (d - day_min) ltac:(lia)) as (y & m & dd & Hy & E & F).
  replace (day_min + (d - day_min)) with d in F by lia.
  assert (Yd : ymd d = (y, m, dd)) by (rewrite <- F; apply ymd_of_from_ymd; assumption).
  rewrite Yd. repeat split; try (apply E); try lia.
  pose proof (from_ymd_next (y, m, dd) Hy E) as N. pose proof (next_ymd_exists _ E) as E'.
  pose proof (next_ymd_year (y, m, dd)) as Y.
  destruct (next_ymd (y, m, dd)) as [[y' m'] d'].
  rewrite F in N. rewrite <- N. apply ymd_of_from_ymd; [lia|exact E'].
Qed.

(** ** Order *)

Lemma next_ymd_lt t : exists_ymd t -> ymd_lt t (next_ymd t).
Proof.
  destruct t as [[y m] d]. unfold exists_ymd, next_ymd, ymd_lt. intros [Hm Hd].
  destruct (Z.ltb_spec d (days_in_month y m)); [lia|].
  destruct (Z.ltb_spec m 12); lia.
Qed.

Lemma ymd_lt_trans a b c : ymd_lt a b -> ymd_lt b c -> ymd_lt a c.
Proof.
  destruct a as [[? ?] ?], b as [[? ?] ?], c as [[? ?] ?]. unfold ymd_lt. lia.
Qed.
Lemma ymd_lt_irrefl a : ~ ymd_lt a a.
Proof. destruct a as [[? ?] ?]. unfold ymd_lt. lia. Qed.

Lemma ymd_increasing n d : day_min <= d -> 0 <= n -> ymd_lt (ymd d) (ymd (d + 1 + n)).
Proof.
  intros Hd Hn. revert n Hn.
  apply (natlike_ind (fun n => ymd_lt (ymd d) (ymd (d + 1 + n)))).
  - replace (d + 1 + 0) with (d + 1) by lia.
    destruct (cycle_facts d Hd) as (-> & E & _). now apply next_ymd_lt.
  - intros n Hn IH. replace (d + 1 + Z.succ n) with (d + 1 + n + 1) by lia.
    eapply ymd_lt_trans; [exact IH|].
    destruct (cycle_facts (d + 1 + n) ltac:(lia)) as (-> & E & _). now apply next_ymd_lt.
Qed.

Lemma ymd_order d1 d2 : day_min <= d1 -> day_min <= d2 ->
  (d1 < d2 <-> ymd_lt (ymd d1) (ymd d2)).
Proof.
  intros H1 H2. split; intros H.
  - replace d2 with (d1 + 1 + (d2 - d1 - 1)) by lia. apply ymd_increasing; lia.
  - destruct (Z.lt_trichotomy d1 d2) as [L|[->|G]]; [exact L| |].
    + now apply ymd_lt_irrefl in H.
    + exfalso. apply (ymd_lt_irrefl (ymd d1)). eapply ymd_lt_trans; [exact H|].
      replace d1 with (d2 + 1 + (d1 - d2 - 1)) by lia. apply ymd_increasing; lia.
Qed.

(** ** Overflow *)

Lemma is_valid_iff d : is_valid d = true <-> 0 < d < 73000.
Proof. unfold is_valid. lia. Qed.

Lemma i32_ok z : -2147483648 <= z <= 2147483647 -> i32 z = Ok z.
Proof. intros H. unfold i32, in_i32. now replace (_ && _) with true by lia. Qed.

Lemma quot_bound a b : 0 < b -> - Z.abs a <= Z.quot a b <= Z.abs a.
Proof.
  intros Hb. assert (H := Z.quot_abs a b ltac:(lia)). rewrite (Z.abs_eq b) in H by lia.
  assert (0 <= Z.quot (Z.abs a) b <= Z.abs a).
  { split; [apply Z.quot_pos; lia|].
    rewrite Z.quot_div_nonneg by lia. apply Z.div_le_upper_bound; nia. }
  lia.
Qed.

(** Fields of at most a million in absolute value cannot overflow. *)
Lemma from_ymd_checked_ok y m d :
  -1000000 <= y <= 1000000 -> -1000000 <= m <= 1000000 -> -1000000 <= d <= 1000000 ->
  truncated_julian_from_ymd_checked y m d = Ok (from_ymd y m d).
Proof.
  intros Hy Hm Hd. unfold truncated_julian_from_ymd_checked, from_ymd, truncated_julian_from_ymd.
  unfold csub, cadd, cmul, cdiv.
  set (ym := Z.quot (m - 14) 12).
  assert (Hym : -83335 <= ym <= 83335).
  { unfold ym. pose proof (Z.quot_rem' (m - 14) 12). pose proof (Z.rem_bound_abs (m - 14) 12 ltac:(lia)). lia. }
  assert (Hc : -13 <= m - 2 - ym * 12 <= 24).
  { unfold ym. pose proof (Z.quot_rem' (m - 14) 12). pose proof (Z.rem_bound_abs (m - 14) 12 ltac:(lia)). lia. }
  cbv zeta. cbn [bind].
  rewrite (i32_ok (m - 14)) by lia. cbn [bind]. fold ym.
  rewrite (i32_ok ym) by lia. cbn [bind].
  rewrite (i32_ok (d - 32075)) by lia. cbn [bind].
  rewrite (i32_ok (y + 4800)) by lia. cbn [bind].
  rewrite (i32_ok (y + 4800 + ym)) by lia. cbn [bind].
  rewrite (i32_ok (1461 * (y + 4800 + ym))) by lia. cbn [bind].
  set (b := Z.quot (1461 * (y + 4800 + ym)) 4).
  assert (Hb : -500000000 <= b <= 500000000).
  { unfold b. pose proof (Z.quot_rem' (1461 * (y + 4800 + ym)) 4).
    pose proof (Z.rem_bound_abs (1461 * (y + 4800 + ym)) 4 ltac:(lia)). lia. }
  rewrite (i32_ok b) by lia. cbn [bind].
  rewrite (i32_ok (d - 32075 + b)) by lia. cbn [bind].
  rewrite (i32_ok (m - 2)) by lia. cbn [bind].
  rewrite (i32_ok (ym * 12)) by lia. cbn [bind].
  rewrite (i32_ok (m - 2 - ym * 12)) by lia. cbn [bind].
  rewrite (i32_ok (367 * (m - 2 - ym * 12))) by lia. cbn [bind].
  set (c := Z.quot (367 * (m - 2 - ym * 12)) 12).
  assert (Hc' : -10000 <= c <= 10000).
  { unfold c. pose proof (quot_bound (367 * (m - 2 - ym * 12)) 12 ltac:(lia)). lia. }
  rewrite (i32_ok c) by lia. cbn [bind].
  rewrite (i32_ok (d - 32075 + b + c)) by lia. cbn [bind].
  rewrite (i32_ok (y + 4900)) by lia. cbn [bind].
  rewrite (i32_ok (y + 4900 + ym)) by lia. cbn [bind].
  set (e := Z.quot (y + 4900 + ym) 100).
  assert (He : -1100000 <= e <= 1100000).
  { unfold e. pose proof (quot_bound (y + 4900 + ym) 100 ltac:(lia)). lia. }
  rewrite (i32_ok e) by lia. cbn [bind].
  rewrite (i32_ok (3 * e)) by lia. cbn [bind].
  set (g := Z.quot (3 * e) 4).
  assert (Hg : -3300000 <= g <= 3300000).
  { unfold g. pose proof (quot_bound (3 * e) 4 ltac:(lia)). lia. }
  rewrite (i32_ok g) by lia. cbn [bind].
  rewrite (i32_ok (d - 32075 + b + c - g)) by lia. cbn [bind].
  apply i32_ok. lia.
Qed.

Lemma ymd_checked_ok d : 0 < d < 73000 -> ymd_from_truncated_julian_checked d = Ok (ymd d).
Proof.
  intros H. unfold ymd, ymd_from_truncated_julian_checked, ymd_from_truncated_julian.
  unfold csub, cadd, cmul, cdiv. cbv zeta.
  set (l1 := d + 2440000 + 68569).
  assert (B1 : 2508569 < l1 < 2581569) by (unfold l1; lia).
  rewrite (i32_ok (d + 2440000)) by lia. cbn [bind]. fold l1.
  rewrite (i32_ok l1) by lia. cbn [bind].
  rewrite (i32_ok (4 * l1)) by lia. cbn [bind].
  set (n := Z.quot (4 * l1) 146097).
  assert (Bn : 68 <= n <= 70).
  { unfold n. rewrite Z.quot_div_nonneg by lia. clear - B1. lia. }
  assert (Bn' : 146097 * n <= 4 * l1 < 146097 * n + 146097).
  { unfold n. rewrite Z.quot_div_nonneg by lia. clear - B1. lia. }
  clearbody l1 n.
  rewrite (i32_ok n) by lia. cbn [bind].
  rewrite (i32_ok (146097 * n)) by lia. cbn [bind].
  rewrite (i32_ok (146097 * n + 3)) by lia. cbn [bind].
  rewrite (Z.quot_div_nonneg (146097 * n + 3) 4) by lia.
  set (b := (146097 * n + 3) / 4).
  assert (Bb : 146097 * n <= 4 * b <= 146097 * n + 3) by (unfold b; clear; lia).
  clearbody b.
  rewrite (i32_ok b) by lia. cbn [bind].
  set (l2 := l1 - b). assert (B2 : -1 <= l2 <= 36524) by (unfold l2; lia). clearbody l2.
  rewrite (i32_ok l2) by lia. cbn [bind].
  rewrite (i32_ok (l2 + 1)) by lia. cbn [bind].
  rewrite (i32_ok (4000 * (l2 + 1))) by lia. cbn [bind].
  rewrite (Z.quot_div_nonneg (4000 * (l2 + 1)) 1461001) by lia.
  set (i1 := 4000 * (l2 + 1) / 1461001).
  assert (Bi : 1461001 * i1 <= 4000 * (l2 + 1) < 1461001 * i1 + 1461001) by (unfold i1; clear; lia).
  clearbody i1.
  rewrite (i32_ok i1) by lia. cbn [bind].
  rewrite (i32_ok (1461 * i1)) by lia. cbn [bind].
  rewrite (Z.quot_div_nonneg (1461 * i1) 4) by lia.
  set (e := 1461 * i1 / 4).
  assert (Be : 1461 * i1 - 3 <= 4 * e <= 1461 * i1) by (unfold e; clear; lia).
  clearbody e.
  rewrite (i32_ok e) by lia. cbn [bind].
  rewrite (i32_ok (l2 - e)) by lia. cbn [bind].
  set (l3 := l2 - e + 31). assert (B3 : 0 <= l3 <= 500) by (unfold l3; lia). clearbody l3.
  rewrite (i32_ok l3) by lia. cbn [bind].
  rewrite (i32_ok (80 * l3)) by lia. cbn [bind].
  rewrite (Z.quot_div_nonneg (80 * l3) 2447) by lia.
  set (j1 := 80 * l3 / 2447).
  assert (Bj : 0 <= j1 <= 20) by (unfold j1; clear - B3; lia). clearbody j1.
  rewrite (i32_ok j1) by lia. cbn [bind].
  rewrite (i32_ok (2447 * j1)) by lia. cbn [bind].
  rewrite (Z.quot_div_nonneg (2447 * j1) 80) by lia.
  set (h := 2447 * j1 / 80). assert (Bh : 0 <= h <= 1000) by (unfold h; clear - Bj; lia). clearbody h.
  rewrite (i32_ok h) by lia. cbn [bind].
  rewrite (i32_ok (l3 - h)) by lia. cbn [bind].
  rewrite (Z.quot_div_nonneg j1 11) by lia.
  set (l4 := j1 / 11). assert (B4 : 0 <= l4 <= 2) by (unfold l4; clear - Bj; lia). clearbody l4.
  rewrite (i32_ok l4) by lia. cbn [bind].
  rewrite (i32_ok (j1 + 2)) by lia. cbn [bind].
  rewrite (i32_ok (12 * l4)) by lia. cbn [bind].
  rewrite (i32_ok (j1 + 2 - 12 * l4)) by lia. cbn [bind].
  rewrite (i32_ok (n - 49)) by lia. cbn [bind].
  rewrite (i32_ok (100 * (n - 49))) by lia. cbn [bind].
  rewrite (i32_ok (100 * (n - 49) + i1)) by lia. cbn [bind].
  rewrite (i32_ok (100 * (n - 49) + i1 + l4)) by lia. cbn [bind]. reflexivity.
Qed.

(** Years of valid dates. *)
Lemma ymd_bounds d : is_valid d = true ->
  let '(y, m, dd) := ymd d in 1968 <= y <= 2168 /\ 1 <= m <= 12 /\ 1 <= dd <= 31.
Proof.
  intros H. apply is_valid_iff in H.
  pose proof (proj1 (ymd_order 0 d ltac:(unfold day_min; lia) ltac:(unfold day_min; lia)) ltac:(lia)) as L.
  pose proof (proj1 (ymd_order d 73000 ltac:(unfold day_min; lia) ltac:(unfold day_min; lia)) ltac:(lia)) as U.
  destruct (cycle_facts d ltac:(unfold day_min; lia)) as (_ & E & _).
  replace (ymd 0) with (1968, 5, 23) in L by reflexivity.
  replace (ymd 73000) with (2168, 4, 4) in U by reflexivity.
  destruct (ymd d) as [[y m] dd]. unfold ymd_lt in *. destruct E as [Em Ed].
  assert (days_in_month y m <= 31).
  { unfold days_in_month. destruct (m =? 2); [destruct (leap y); lia|].
    destruct ((m =? 4) || (m =? 6) || (m =? 9) || (m =? 11)); lia. }
  lia.
Qed.

Lemma no_overflow d : is_valid d = true ->
  ymd_from_truncated_julian_checked d = Ok (ymd d) /\
  (let '(y, m, dd) := ymd d in truncated_julian_from_ymd_checked y m dd = Ok d).
Proof.
  intros H. pose proof (ymd_bounds d H) as B. pose proof (proj1 (is_valid_iff d) H) as V.
  split; [apply ymd_checked_ok; exact V|].
  destruct (cycle_facts d ltac:(unfold day_min; lia)) as (_ & _ & F & _).
  destruct (ymd d) as [[y m] dd]. rewrite from_ymd_checked_ok by lia. now rewrite F.
Qed.

(** ** Weekdays *)

Lemma day_of_week_panics d : (exists m, day_of_week d = Panic m) <-> is_valid d = false.
Proof.
  unfold day_of_week. destruct (is_valid d); split; intros H; try discriminate; eauto.
  destruct H as [m H]; discriminate.
Qed.

Lemma day_of_week_ok d : is_valid d = true -> day_of_week d = Ok ((d + 3) mod 7).
Proof.
  intros H. unfold day_of_week. rewrite H. apply is_valid_iff in H.
  now rewrite Z.rem_mod_nonneg by lia.
Qed.

(** ** Text *)


Lemma from_str_valid s d : from_str s = Ok d -> is_valid d = true.
Proof.
  unfold from_str. intros H.
  destruct (parse_field s (split_dash s) 0) as [y| |]; try discriminate.
  destruct (parse_field s (split_dash s) 1) as [m| |]; try discriminate.
  destruct (parse_field s (split_dash s) 2) as [dd| |]; try discriminate.
  cbn [bind] in H.
  destruct (truncated_julian_from_ymd_checked y m dd) as [r| |]; try discriminate.
  cbn [bind] in H. destruct (is_valid r) eqn:E; [|discriminate]. now injection H as <-.
Qed.

(** ** Malformed text *)

Lemma split_dash_field f : dash_free f -> split_dash f = [f].
Proof.
  induction f as [|c f IH]; intros H; [reflexivity|].
  destruct H as [Hc Hf]. cbn [split_dash].
  destruct (Ascii.eqb_spec c "-"); [contradiction|]. now rewrite IH.
Qed.

Lemma split_dash_append f s : dash_free f -> split_dash (append f (String "-" s)) = f :: split_dash s.
Proof.
  induction f as [|c f IH]; intros H; [reflexivity|].
  destruct H as [Hc Hf]. cbn [append split_dash].
  destruct (Ascii.eqb_spec c "-"); [contradiction|]. now rewrite IH.
Qed.

Lemma split_join fs : fs <> [] -> Forall dash_free fs -> split_dash (join_dash fs) = fs.
Proof.
  induction fs as [|f fs IH]; intros Hne H; [contradiction|].
  inversion_clear H. destruct fs as [|g fs].
  - cbn [join_dash]. now apply split_dash_field.
  - change (join_dash (f :: g :: fs)) with (append f (String "-" (join_dash (g :: fs)))).
    rewrite split_dash_append by assumption. rewrite IH by (assumption || discriminate). reflexivity.
Qed.

Lemma from_str_index_panic fs : fs <> [] -> Forall dash_free fs ->
  (from_str (join_dash fs) = Panic "index out of bounds" <->
   (List.length fs < 3)%nat /\ Forall (fun f => parse_i32 f <> None) fs).
Proof.
  intros Hne H. unfold from_str. rewrite split_join by assumption.
  set (s := join_dash fs). clearbody s. unfold parse_field, nth_field.
  assert (CP : forall y m d, truncated_julian_from_ymd_checked y m d <> Panic "index out of bounds").
  { intros y m d. unfold truncated_julian_from_ymd_checked, csub, cadd, cmul, cdiv.
    repeat match goal with
    | |- bind (i32 ?z) _ <> _ => unfold i32 at 1; destruct (in_i32 z); cbn [bind]; [|discriminate]
    end.
    unfold i32. destruct (in_i32 _); discriminate. }
  destruct fs as [|a fs]; [contradiction|]. cbn [nth_error].
  destruct fs as [|b fs].
  - cbn [nth_error bind]. destruct (parse_i32 a) eqn:Ea; cbn [bind].
    + split; intros _; [|reflexivity]. split; [cbn; lia|]. constructor; [congruence|constructor].
    + split; [discriminate|]. intros [_ F]. inversion_clear F. congruence.
  - cbn [nth_error bind]. destruct (parse_i32 a) eqn:Ea; cbn [bind].
    + destruct (parse_i32 b) eqn:Eb; cbn [bind].
      * destruct fs as [|c fs]; cbn [nth_error bind].
        -- split; intros _; [|reflexivity]. split; [cbn; lia|].
           constructor; [congruence|constructor; [congruence|constructor]].
        -- split.
           ++ destruct (parse_i32 c); cbn [bind]; [|discriminate].
              destruct (truncated_julian_from_ymd_checked z z0 z1) eqn:E; cbn [bind]; try discriminate.
              ** destruct (is_valid a0); discriminate.
              ** intros K. injection K as K. subst. now apply CP in E.
           ++ intros [L _]. cbn in L. lia.
      * split; [discriminate|]. intros [_ F]. inversion_clear F. inversion_clear H1. congruence.
    + split; [discriminate|]. intros [_ F]. inversion_clear F. congruence.
Qed.

Lemma from_str_fields a b c rest y m d :
  Forall dash_free (a :: b :: c :: rest) ->
  parse_i32 a = Some y -> parse_i32 b = Some m -> parse_i32 c = Some d ->
  -1000000 <= y <= 1000000 -> -1000000 <= m <= 1000000 -> -1000000 <= d <= 1000000 ->
  from_str (join_dash (a :: b :: c :: rest)) =
    if is_valid (from_ymd y m d) then Ok (from_ymd y m d)
    else Err (join_dash (a :: b :: c :: rest)).
Proof.
  intros F Ha Hb Hc By Bm Bd. unfold from_str. rewrite split_join by (assumption || discriminate).
  unfold parse_field, nth_field. cbn [nth_error bind]. rewrite Ha, Hb, Hc. cbn [bind].
  rewrite from_ymd_checked_ok by assumption. reflexivity.
Qed.

Lemma field_ok_spec w z : field_ok w z = true -> dash_free (fmt_pad w z) /\ parse_i32 (fmt_pad w z) = Some z.
Proof.
  unfold field_ok. intros H. apply andb_prop in H as [H1 H2]. split; [now apply dash_freeb_ok|].
  destruct (parse_i32 (fmt_pad w z)); [|discriminate]. apply Z.eqb_eq in H2. now subst.
Qed.

Lemma text_round_trip d : is_valid d = true -> from_str (to_string d) = Ok d.
Proof.
  intros H. pose proof (ymd_bounds d H) as B. pose proof (proj1 (is_valid_iff d) H) as V.
  destruct (cycle_facts d ltac:(unfold day_min; lia)) as (_ & _ & F & _).
  unfold to_string. destruct (ymd d) as [[y m] dd]. destruct B as (By & Bm & Bd).
  destruct (field_ok_spec 4 y (forallZ_range _ _ _ years_ok y ltac:(lia))) as [Dy Py].
  destruct (field_ok_spec 2 m (forallZ_range _ _ _ days_ok m ltac:(lia))) as [Dm Pm].
  destruct (field_ok_spec 2 dd (forallZ_range _ _ _ days_ok dd ltac:(lia))) as [Dd Pd].
  change (from_str (join_dash [fmt_pad 4 y; fmt_pad 2 m; fmt_pad 2 dd]) = Ok d).
  rewrite (from_str_fields _ _ _ [] y m dd) by (auto || lia).
  rewrite F, H. reflexivity.
Qed.

Lemma from_str_impossible : exists s d,
  s = "2018-02-31"%string /\ ~ exists_ymd (2018, 2, 31) /\ from_str s = Ok d /\ to_string d = "2018-03-03"%string.
Proof.
  exists "2018-02-31"%string, 18181. split; [reflexivity|]. split; [|split; reflexivity].
  intros [_ [_ H]]. vm_compute in H. now apply H.
Qed.

Lemma day_of_week_panics_iff d : (exists m, day_of_week d = Panic m) <-> ~ (0 < d < 73000).
Proof.
  rewrite day_of_week_panics. pose proof (is_valid_iff d) as I.
  destruct (is_valid d); split; intros H; try lia; intuition congruence.
Qed.

Lemma day_of_week_cycle d : 0 < d < 73000 ->
  exists w, day_of_week d = Ok w /\ 0 <= w < 7 /\
    (d + 1 < 73000 -> day_of_week (d + 1) = Ok (if w =? 6 then 0 else w + 1)).
Proof.
  intros H. exists ((d + 3) mod 7). rewrite day_of_week_ok by (apply is_valid_iff; exact H).
  split; [reflexivity|]. split; [lia|]. intros H1.
  rewrite day_of_week_ok by (apply is_valid_iff; lia). f_equal.
  destruct (Z.eqb_spec ((d + 3) mod 7) 6); lia.
Qed.
