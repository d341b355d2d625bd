From Coq Require Import ZArith List String Bool Lia ZifyBool Sorted Reals Lra.
From Verif Require Import Prelude Num L_Num M_Dates S_Dates M_Search M_Calendar S_Calendar L_Search L_Dates L_Calendar
  L_CalendarCount.
Import ListNotations.
Open Scope Z_scope.

Ltac Zify.zify_post_hook ::= Z.div_mod_to_equations.

(** ** Distances *)

Lemma sum_days_last w from n :
  sum_days w from (S n) = (sum_days w from n + w (from + Z.of_nat n)%Z)%R.
Proof.
  replace (S n) with (n + 1)%nat by lia. rewrite sum_days_app. cbn [sum_days]. lra.
Qed.

Lemma distance_forward w from j : weighted_time w from 0 (from + 1 * Z.of_nat j) 0 = distance w 1 from j.
Proof.
  unfold weighted_time. destruct (Z.ltb_spec (from + 1 * Z.of_nat j) from); [lia|].
  replace (Z.to_nat (from + 1 * Z.of_nat j - from + 1)) with (S j) by lia.
  rewrite sum_days_last. replace (from + Z.of_nat j) with (from + 1 * Z.of_nat j) by lia.
  assert (E : sum_days w from j = distance w 1 from j).
  { induction j as [|j IH]; [reflexivity|]. rewrite sum_days_last. cbn [distance]. rewrite IH by lia.
    replace (1 * Z.of_nat j) with (Z.of_nat j) by lia. reflexivity. }
  rewrite E. lra.
Qed.

Lemma distance_backward w from j : weighted_time w (from + -1 * Z.of_nat j) 1 from 1 = distance w (-1) from j.
Proof.
  unfold weighted_time. destruct (Z.ltb_spec from (from + -1 * Z.of_nat j)); [lia|].
  replace (Z.to_nat (from - (from + -1 * Z.of_nat j) + 1)) with (S j) by lia.
  cbn [sum_days].
  assert (E : sum_days w (from + -1 * Z.of_nat j + 1) j = distance w (-1) from j).
  { clear. induction j as [|j IH]; [reflexivity|]. cbn [sum_days distance].
    replace (from + -1 * Z.of_nat (S j) + 1) with (from + -1 * Z.of_nat j) by lia.
    rewrite IH. lra. }
  rewrite E. lra.
Qed.

Section Dist.
  Variable w : Z -> R.
  Hypothesis W : forall d, (0 <= w d <= 1)%R.

  Lemma distance_step dir from k j : (k <= j)%nat ->
    (distance w dir from k <= distance w dir from j <= distance w dir from k + IZR (Z.of_nat j - Z.of_nat k))%R.
  Proof.
    induction 1 as [|j L IH].
    - replace (Z.of_nat k - Z.of_nat k) with 0 by lia. lra.
    - cbn [distance]. pose proof (W (from + dir * Z.of_nat j)).
      replace (Z.of_nat (S j) - Z.of_nat k) with (Z.of_nat j - Z.of_nat k + 1) by lia. rewrite plus_IZR. lra.
  Qed.
End Dist.

(** ** The loop of [step_partial] *)

  Lemma tiny_pos : (0 < @tiny R _ < / 4)%R.
  Proof. unfold tiny. rnum. lra. Qed.

  Lemma jump needed : (0 < needed)%R ->
    let m := Z.max (Rtrunc (needed + tiny)) 1 in
    1 <= m /\ (m = 1 \/ (2 <= m /\ (IZR m <= needed + tiny)%R)).
  Proof.
    intros H m. pose proof tiny_pos. assert (HT : (0 <= needed + tiny)%R) by lra. destruct (Rtrunc_nonneg _ HT) as [T1 T2].
    unfold m. destruct (Z.max_spec (Rtrunc (needed + tiny)) 1) as [[L E]|[L E]]; rewrite E.
    - lia.
    - split; [lia|]. destruct (Z.eq_dec (Rtrunc (needed + tiny)) 1); [lia|]. right. split; [lia|lra].
  Qed.

Section Loop.
  Variable c : calendar R.
  Hypothesis P : proper c.
  Variable fwd : bool.
  Variable from : date.
  Variable total : R.
  Let dir := dir_of fwd.
  Let D := distance (weight c) dir from.
  Let count := count_business_days c.

  Lemma taken_sound k x :
    (if fwd then count from n0 (from + dir * Z.of_nat k) n0 else count (from + dir * Z.of_nat k) n1 from n1) = Ok x ->
    x = D k.
  Proof.
    unfold D, dir, dir_of, count. rnum. destruct fwd; intros E; apply (count_sound c P) in E; subst x.
    - apply distance_forward.
    - apply distance_backward.
  Qed.

  (** How the loop ended: at k, coming from p. *)
  Definition ended (k p : nat) : Prop :=
    (p < k)%nat /\ (total - D k <= 0 < total - D p)%R /\
    (k = S p \/ (2 <= Z.of_nat k - Z.of_nat p /\ (IZR (Z.of_nat k - Z.of_nat p) <= total - D p + tiny)%R)).

  Lemma loop_sound : forall fuel k needed prev ps d' needed' prev' ps',
    needed = (total - D k)%R ->
    ((needed <= 0)%R -> exists p, prev = from + dir * Z.of_nat p /\ ps = (total - D p)%R /\ ended k p) ->
    vol_step_loop fuel count from total fwd (from + dir * Z.of_nat k) needed prev ps = Ok (d', needed', prev', ps') ->
    exists k p, d' = from + dir * Z.of_nat k /\ needed' = (total - D k)%R /\
      prev' = from + dir * Z.of_nat p /\ ps' = (total - D p)%R /\ ended k p.
  Proof.
    induction fuel as [|fuel IH]; intros k needed prev ps d' needed' prev' ps' Hn Hend H; [discriminate|].
    cbn [vol_step_loop] in H. rnum. destruct (Rltb_spec 0 needed) as [Pos|Neg].
    - set (m := Z.max (Rtrunc (needed + tiny)) 1) in *.
      destruct (jump needed Pos) as [M1 M2]. fold m in M1, M2.
      assert (Ed : from + dir * Z.of_nat k + m * (if fwd then 1 else -1) = from + dir * Z.of_nat (k + Z.to_nat m)).
      { change (if fwd then 1 else -1) with dir. rewrite Nat2Z.inj_add, Z2Nat.id by lia. ring. }
      rewrite Ed in H. inv_bind H. inv_bind H. apply taken_sound in E. subst a.
      eapply (IH (k + Z.to_nat m)%nat); [|intros Le|exact H].
      + reflexivity.
      + exists k. split; [reflexivity|]. split; [exact Hn|].
        split; [lia|]. split; [lra|].
        destruct M2 as [M2|[M2 M3]]; [left; lia|]. right. split; [lia|].
        replace (Z.of_nat (k + Z.to_nat m) - Z.of_nat k) with m by lia. lra.
    - injection H as <- <- <- <-. destruct (Hend Neg) as (p & -> & -> & En). exists k, p. auto.
  Qed.

  Lemma ended_nearest k p : ended k p ->
    let r := if Rltb (total - D k) 0 && Rltb (total - D p) (- (total - D k)) then p else k in
    forall j, (Rabs (D r - total) <= Rabs (D j - total))%R.
  Proof.
    intros (Lt & Cross & Step) r j. pose proof tiny_pos as T.
    pose proof (weight_bounds c P) as W.
    assert (Mono : forall a b, (a <= b)%nat -> (D a <= D b <= D a + IZR (Z.of_nat b - Z.of_nat a))%R).
    { intros a b L. apply distance_step; assumption. }
    assert (Small : forall x, (0 <= x -> Rabs x = x)%R) by (intros; apply Rabs_pos_eq; assumption).
    assert (Neg : forall x, (x <= 0 -> Rabs x = - x)%R) by (intros; apply Rabs_left1; assumption).
    destruct Step as [->|[M2 M3]].
    - assert (Rr : (Rabs (D r - total) <= total - D p /\ Rabs (D r - total) <= D (S p) - total)%R).
      { unfold r. destruct (Rltb_spec (total - D (S p)) 0); cbn [andb].
        - destruct (Rltb_spec (total - D p) (- (total - D (S p)))).
          + rewrite Neg by lra. lra.
          + rewrite Small by lra. lra.
        - rewrite Small by lra. lra. }
      destruct (Nat.le_gt_cases j p) as [L|G].
      + pose proof (Mono j p L). rewrite (Neg (D j - total)%R) by lra. lra.
      + pose proof (Mono (S p) j G). rewrite (Small (D j - total)%R) by lra. lra.
    - pose proof (Mono p k ltac:(lia)) as Mpk.
      assert (R2 : (2 <= IZR (Z.of_nat k - Z.of_nat p))%R) by (apply IZR_le; exact M2).
      assert (r = k).
      { unfold r. destruct (Rltb_spec (total - D k) 0); cbn [andb]; [|reflexivity].
        destruct (Rltb_spec (total - D p) (- (total - D k))); [lra|reflexivity]. }
      rewrite H. clear r H. rewrite (Small (D k - total)%R) by lra.
      destruct (Nat.le_gt_cases k j) as [L|G].
      + pose proof (Mono k j L). rewrite Small by lra. lra.
      + assert (B : (D j <= D p + IZR (Z.of_nat k - Z.of_nat p) - 1)%R).
        { destruct (Nat.le_gt_cases j p) as [L|G'].
          - pose proof (Mono j p L). lra.
          - pose proof (Mono p j ltac:(lia)).
            assert (IZR (Z.of_nat j - Z.of_nat p) <= IZR (Z.of_nat k - Z.of_nat p - 1))%R by (apply IZR_le; lia).
            rewrite (minus_IZR (Z.of_nat k - Z.of_nat p) 1) in H0. lra. }
        rewrite Neg by lra. lra.
  Qed.
End Loop.

Lemma tiny_val : @tiny R _ = (1 / 1000000000000)%R.
Proof. reflexivity. Qed.

Lemma step_partial_nearest name inner w from x fwd r :
  proper (VolCal name inner w) -> (1 / 1000000000000 <= w)%R ->
  step_partial (VolCal name inner w) from x fwd = Ok r ->
  exists k : nat, r = from + dir_of fwd * Z.of_nat k /\
    forall j, (Rabs (distance (weight (VolCal name inner w)) (dir_of fwd) from k - Rabs x)
               <= Rabs (distance (weight (VolCal name inner w)) (dir_of fwd) from j - Rabs x))%R.
Proof.
  intros P Hw H. cbn [step_partial] in H. unfold vol_step_partial in H. rewrite tiny_val in H. rnum.
  destruct (Rltb_spec w (1 / 1000000000000)); [lra|]. inv_bind H. inv_bind H.
  destruct a0 as [[[d needed] prev] ps].
  destruct (Rlt_dec 0 (Rabs x)) as [Px|Nx].
  - change (vol_count w (count_business_days inner)) with (count_business_days (VolCal name inner w)) in E0.
    assert (E0' : vol_step_loop day_fuel (count_business_days (VolCal name inner w)) from (Rabs x) fwd
              (from + dir_of fwd * Z.of_nat 0) (Rabs x) from (Rabs x) = Ok (d, needed, prev, ps)).
    { replace (from + dir_of fwd * Z.of_nat 0) with from by lia. exact E0. }
    apply (loop_sound (VolCal name inner w) P fwd from (Rabs x)) in E0'.
    + destruct E0' as (k & p & -> & -> & -> & -> & En).
      pose proof (ended_nearest _ P _ _ _ _ _ En) as N. cbv zeta in N.
      destruct (Rltb _ 0 && Rltb _ _); injection H as <-; eauto.
    + cbn [distance]. lra.
    + intros. lra.
  - assert (Z0 : Rabs x = 0%R) by (pose proof (Rabs_pos x); lra).
    rewrite Z0 in E0.
    assert (Hf : exists f, day_fuel = S f).
    { pose proof day_fuel_eq. destruct day_fuel; [cbn in *; lia|eauto]. }
    destruct Hf as [f Hf]. rewrite Hf in E0. cbn [vol_step_loop] in E0. rnum.
    rewrite Rltb_irrefl in E0. injection E0 as <- <- <- <-. rewrite Rltb_irrefl in H. cbn [andb] in H. injection H as <-.
    exists O. split; [lia|]. intros j. rewrite Z0. cbn [distance].
    replace (0 - 0)%R with 0%R by lra. rewrite Rabs_R0. apply Rabs_pos.
Qed.

(** ** Totality *)

Lemma slips_exist biz fwd d b k : biz b = true -> 0 <= k -> b = d + dir_of fwd * k ->
  exists e j, slips biz (dir_of fwd) d e /\ 0 <= j <= k /\ e = d + dir_of fwd * j.
Proof.
  intros B Hk. rewrite <- (Z2Nat.id k) by exact Hk. generalize (Z.to_nat k) as n. clear Hk k.
  intros n. revert d. induction n as [|n IH]; intros d E.
  - assert (d = b) by lia. subst d. exists b, 0. split; [now apply slips_self|]. lia.
  - destruct (biz d) eqn:Bd.
    + exists d, 0. split; [now apply slips_self|]. lia.
    + destruct (IH (d + dir_of fwd) ltac:(lia)) as (e & j & (i & Hi & Ee & Be & N) & Hj & Ej).
      exists e, (j + 1). split; [|lia].
      exists (i + 1). repeat split; [lia|lia|exact Be|].
      intros l Hl. destruct (Z.eq_dec l 0) as [->|]; [now replace (d + dir_of fwd * 0) with d by lia|].
      replace (d + dir_of fwd * l) with (d + dir_of fwd + dir_of fwd * (l - 1)) by lia. apply N. lia.
Qed.

Lemma covers_convex {T} (c : calendar T) a b d : covers c a -> covers c b -> a <= d <= b -> covers c d.
Proof.
  induction c as [| |name hols|name inner IH w]; cbn [covers]; intros; try exact I; try (unfold in_range in *; lia).
  auto.
Qed.

Section Total.
  Variable c : calendar R.
  Hypothesis P : proper c.
  Variable fwd : bool.
  Variable from : date.
  Variable total : R.
  Let dir := dir_of fwd.
  Let D := distance (weight c) dir from.
  Let count := count_business_days c.
  (** The nearest business days on both sides of [from], both in range. *)
  Variable a b : date.
  Hypothesis Sa : slips (business_of c) 1 from a.
  Hypothesis Sb : slips (business_of c) (-1) from b.
  Hypothesis Ca : covers c a.
  Hypothesis Cb : covers c b.
  (** A point at least as far as wanted, with all dates up to it in range. *)
  Variable K : nat.
  Hypothesis Far : (total <= D K)%R.
  Hypothesis InR : covers c (from + dir * Z.of_nat K).

  Lemma from_covered : covers c from.
  Proof. pose proof (slips_le _ _ _ Sa). pose proof (slips_ge _ _ _ Sb). eapply covers_convex; [exact Cb|exact Ca|lia]. Qed.

  Lemma taken_total k : (k <= K)%nat ->
    exists x, (if fwd then count from n0 (from + dir * Z.of_nat k) n0 else count (from + dir * Z.of_nat k) n1 from n1) = Ok x.
  Proof.
    intros L. pose proof from_covered as Cf. pose proof (slips_le _ _ _ Sa). pose proof (slips_ge _ _ _ Sb).
    pose proof (slips_biz _ _ _ _ Sa) as Ba. pose proof (slips_biz _ _ _ _ Sb) as Bb.
    assert (Ck : covers c (from + dir * Z.of_nat k)).
    { unfold dir, dir_of in *. destruct fwd.
      - eapply covers_convex; [exact Cf|exact InR|lia].
      - eapply covers_convex; [exact InR|exact Cf|lia]. }
    unfold count, dir, dir_of in *. destruct fwd.
    - destruct (slips_exist (business_of c) false (from + 1 * Z.of_nat k) b (from + 1 * Z.of_nat k - b))
        as (e & j & Se & Hj & Ej); [exact Bb|lia|unfold dir_of; lia|].
      unfold dir_of in *. eapply (count_total c P from _ _ _ a e); eauto.
      eapply covers_convex; [exact Cb|exact Ck|lia].
    - destruct (slips_exist (business_of c) true (from + -1 * Z.of_nat k) a (a - (from + -1 * Z.of_nat k)))
        as (e & j & Se & Hj & Ej); [exact Ba|lia|unfold dir_of; lia|].
      unfold dir_of in *. eapply (count_total c P _ _ from _ e b); eauto.
      eapply covers_convex; [exact Ck|exact Ca|lia].
  Qed.

  Lemma loop_total : forall fuel k needed prev ps, needed = (total - D k)%R ->
    (k <= K)%nat -> (Z.of_nat K - Z.of_nat k < Z.of_nat fuel) ->
    exists r, vol_step_loop fuel count from total fwd (from + dir * Z.of_nat k) needed prev ps = Ok r.
  Proof.
    induction fuel as [|fuel IH]; intros k needed prev ps Hn Hk Hf; [lia|].
    cbn [vol_step_loop]. rnum. destruct (Rltb_spec 0 needed) as [Pos|Neg]; [|eauto].
    set (m := Z.max (Rtrunc (needed + tiny)) 1) in *.
    destruct (jump needed Pos) as [M1 M2]. fold m in M1, M2.
    assert (Ed : from + dir * Z.of_nat k + m * (if fwd then 1 else -1) = from + dir * Z.of_nat (k + Z.to_nat m)).
    { change (if fwd then 1 else -1) with dir. rewrite Nat2Z.inj_add, Z2Nat.id by lia. ring. }
    pose proof tiny_pos as T.
    pose proof (distance_step _ (weight_bounds c P) dir from k K Hk) as DK. fold D in DK.
    assert (Lk : (k + Z.to_nat m <= K)%nat).
    { assert (Gap : (needed <= IZR (Z.of_nat K - Z.of_nat k))%R) by lra.
      assert (m <= Z.of_nat K - Z.of_nat k); [|lia].
      destruct M2 as [->|[M2 M3]].
      - assert (0 < Z.of_nat K - Z.of_nat k); [|lia]. apply lt_IZR. lra.
      - assert (m < Z.of_nat K - Z.of_nat k + 1); [|lia]. apply lt_IZR. rewrite plus_IZR. lra. }
    rewrite Ed. destruct (taken_total _ Lk) as [x Ex]. pose proof (taken_sound c P fwd from _ _ Ex) as Ex'. rnum.
    rewrite Ex. cbn [bind]. clear Ex. rename Ex' into Ex. fold dir D in Ex. subst x.
    pose proof (distance_step _ (weight_bounds c P) dir from k (k + Z.to_nat m) ltac:(lia)) as DS. fold D in DS.
    replace (Z.of_nat (k + Z.to_nat m) - Z.of_nat k) with m in DS by lia.
    assert (A : Rleb (- (1)) (total - D (k + Z.to_nat m)%nat) = true).
    { apply Rleb_iff. destruct M2 as [->|[M2 M3]]; lra. }
    rewrite A. cbn [assert_ bind]. apply IH; [reflexivity|exact Lk|lia].
  Qed.
End Total.

Lemma step_partial_total name inner w from x fwd a b K : let c := VolCal name inner w in
  proper c -> (1 / 1000000000000 <= w)%R ->
  (x = 0%R \/ fwd = true /\ (0 < x)%R \/ fwd = false /\ (x < 0)%R) ->
  slips (business_of c) 1 from a -> slips (business_of c) (-1) from b -> covers c a -> covers c b ->
  Z.of_nat K <= 73000 -> covers c (from + dir_of fwd * Z.of_nat K) ->
  (Rabs x <= distance (weight c) (dir_of fwd) from K)%R ->
  exists r, step_partial c from x fwd = Ok r.
Proof.
  intros c P Hw Sg Sa Sb Ca Cb HK CK Far. unfold c. cbn [step_partial]. unfold vol_step_partial.
  rewrite tiny_val. rnum. destruct (Rltb_spec w (1 / 1000000000000)); [lra|].
  assert (A : Reqb x 0 || Bool.eqb fwd (Rltb 0 x) = true).
  { destruct Sg as [->|[[-> L]|[-> L]]].
    - rewrite Reqb_refl. reflexivity.
    - apply Rltb_iff in L. rewrite L. now rewrite orb_true_r.
    - assert (F : Rltb 0 x = false) by (apply Rltb_false; lra). rewrite F. now rewrite orb_true_r. }
  rewrite A. cbn [assert_ bind].
  change (vol_count w (count_business_days inner)) with (count_business_days c).
  destruct (loop_total c P fwd from (Rabs x) a b Sa Sb Ca Cb K Far CK day_fuel 0 (Rabs x) from (Rabs x)) as [[[[d n] p] s] E].
  - cbn [distance]. lra.
  - lia.
  - rewrite day_fuel_eq. lia.
  - replace (from + dir_of fwd * Z.of_nat 0) with from in E by lia. rewrite E. cbn [bind].
    destruct (_ && _); eauto.
Qed.

Lemma step_partial_wrong_slip name inner w from x fwd :
  (1 / 1000000000000 <= w)%R -> (fwd = true /\ (x < 0)%R \/ fwd = false /\ (0 < x)%R) ->
  exists m, step_partial (VolCal name inner w) from x fwd = Panic m.
Proof.
  intros Hw Sg. cbn [step_partial]. unfold vol_step_partial. rewrite tiny_val. rnum.
  destruct (Rltb_spec w (1 / 1000000000000)); [lra|].
  assert (A : Reqb x 0 || Bool.eqb fwd (Rltb 0 x) = false).
  { apply orb_false_intro; [apply Reqb_false; destruct Sg; lra|].
    destruct Sg as [[-> L]|[-> L]].
    - assert (F : Rltb 0 x = false) by (apply Rltb_false; lra). now rewrite F.
    - apply Rltb_iff in L. now rewrite L. }
  rewrite A. cbn. eauto.
Qed.

Lemma step_partial_no_weight name inner w from x fwd : (w < 1 / 1000000000000)%R ->
  step_partial (VolCal name inner w) from x fwd = step inner from (Rtrunc x) fwd.
Proof.
  intros Hw. cbn [step_partial]. unfold vol_step_partial. rewrite tiny_val. rnum.
  destruct (Rltb_spec w (1 / 1000000000000)); [reflexivity|lra].
Qed.

Lemma step_partial_stays name inner w from fwd : (1 / 1000000000000 <= w)%R ->
  step (VolCal name inner w) from 0 fwd = Ok from.
Proof.
  intros Hw. cbn [step]. unfold vol_step_partial. rewrite tiny_val. rnum.
  destruct (Rltb_spec w (1 / 1000000000000)); [lra|].
  rewrite Reqb_refl. cbn [orb assert_ bind]. rewrite Rabs_R0.
  assert (Hf : exists f, day_fuel = S f).
  { pose proof day_fuel_eq. destruct day_fuel; [cbn in *; lia|eauto]. }
  destruct Hf as [f ->]. cbn [vol_step_loop]. rnum. rewrite Rltb_irrefl. cbn [bind].
  rewrite Rltb_irrefl. reflexivity.
Qed.

(** ** Date rules *)

Section RuleLemmas.
  Context {T : Type} {NT : Num T}.
  Variable c : calendar T.
  Hypothesis Pl : plain c.
  Hypothesis P : orderly c.

  Lemma step0_slips d fwd e : step c d 0 fwd = Ok e -> slips (business_of c) (dir_of fwd) d e.
  Proof. intros S. destruct (step_ok _ _ _ _ _ Pl P S) as (s & Sl & M). inversion M; subst. exact Sl. Qed.

  Lemma step0_fixed d fwd' : covers c d -> business_of c d = true -> step c d 0 fwd' = Ok d.
  Proof.
    intros R B. apply (step_reaches c d 0 fwd' d d Pl P); auto. split; [now apply slips_self|constructor].
  Qed.

  Lemma step0_range d fwd e : step c d 0 fwd = Ok e -> covers c d.
  Proof. intros S. apply step_sound in S as (R & _); [exact R|exact Pl|apply well_hols; split; assumption]. Qed.

  Lemma mf_char d r : modified_following c d = Ok r ->
    exists f, slips (business_of c) 1 d f /\
      let '(_, m1, _) := ymd d in let '(_, m2, _) := ymd f in
      (m1 = m2 -> r = f) /\ (m1 <> m2 -> slips (business_of c) (-1) d r).
  Proof.
    intros H. unfold modified_following in H. inv_bind H.
    apply step0_slips in E. exists a. split; [exact E|].
    destruct (ymd d) as [[y1 m1] d1]. destruct (ymd a) as [[y2 m2] d2].
    destruct (Z.eqb_spec m1 m2).
    - injection H as <-. tauto.
    - apply step0_slips in H. tauto.
  Qed.

  Lemma mf_business d r : modified_following c d = Ok r -> business_of c r = true.
  Proof.
    intros H. destruct (mf_char d r H) as (f & Sl & C).
    destruct (ymd d) as [[y1 m1] d1]. destruct (ymd f) as [[y2 m2] d2]. destruct C as [C1 C2].
    destruct (Z.eq_dec m1 m2) as [E|E].
    - rewrite (C1 E). eapply slips_biz; eauto.
    - eapply slips_biz; eauto.
  Qed.

  Lemma mf_idempotent d r : modified_following c d = Ok r -> covers c r -> modified_following c r = Ok r.
  Proof.
    intros H R. pose proof (mf_business d r H) as B. unfold modified_following.
    rewrite (step0_fixed r true R B). cbn [bind]. destruct (ymd r) as [[y m] dd]. now rewrite Z.eqb_refl.
  Qed.
End RuleLemmas.

Lemma ymd_le d e : day_min <= d -> d <= e ->
  let '(y1, m1, _) := ymd d in let '(y2, m2, _) := ymd e in y1 < y2 \/ (y1 = y2 /\ m1 <= m2).
Proof.
  intros Hd L. destruct (Z.eq_dec d e) as [->|N].
  - destruct (ymd e) as [[y m] dd]. lia.
  - pose proof (proj1 (ymd_order d e Hd ltac:(lia)) ltac:(lia)) as O.
    destruct (ymd d) as [[y1 m1] d1]. destruct (ymd e) as [[y2 m2] d2]. unfold ymd_lt in O. lia.
Qed.

Lemma same_month_between a b d : day_min <= a -> a <= d <= b -> same_month a b -> same_month a d /\ same_month d b.
Proof.
  intros Ha L S. pose proof (ymd_le a d Ha ltac:(lia)) as L1. pose proof (ymd_le d b ltac:(lia) ltac:(lia)) as L2.
  unfold same_month in *. destruct (ymd a) as [[ya ma] da]. destruct (ymd b) as [[yb mb] db].
  destruct (ymd d) as [[yd md] dd]. lia.
Qed.

Lemma month_gap d e : 0 <= d -> d <= e < d + 300 ->
  (let '(_, m1, _) := ymd d in let '(_, m2, _) := ymd e in m1 = m2) -> same_month d e.
Proof.
  intros Hd L E. unfold same_month.
  destruct (cycle_facts d ltac:(unfold day_min; lia)) as (_ & Ed & Fd & Yd).
  destruct (cycle_facts e ltac:(unfold day_min; lia)) as (_ & Ee & Fe & Ye).
  pose proof (ymd_le d e ltac:(unfold day_min; lia) ltac:(lia)) as O.
  destruct (ymd d) as [[y1 m1] d1]. destruct (ymd e) as [[y2 m2] d2]. subst m2. split; [|reflexivity].
  destruct (Z.eq_dec y1 y2) as [|N]; [assumption|exfalso].
  assert (y1 < y2) by lia.
  destruct Ed as [Md Dd]. destruct Ee as [Me De].
  assert (D31 : days_in_month y1 m1 <= 31).
  { unfold days_in_month. destruct (m1 =? 2); [destruct (leap y1); lia|].
    destruct ((m1 =? 4) || (m1 =? 6) || (m1 =? 9) || (m1 =? 11)); lia. }
  rewrite from_ymd_floor in Fd, Fe by lia. cbv zeta in Fd, Fe.
  set (ym := if m1 <=? 2 then -1 else 0) in *.
  assert (Hym : -1 <= ym <= 0) by (unfold ym; destruct (m1 <=? 2); lia).
  set (A := 367 * (m1 - 2 - ym * 12) / 12) in *. clearbody ym A.
  assert (Q1 : 1461 * (y1 + 4800 + ym) / 4 + 365 * (y2 - y1) <= 1461 * (y2 + 4800 + ym) / 4) by lia.
  assert (Q2 : 3 * ((y2 + 4900 + ym) / 100) / 4 <= 3 * ((y1 + 4900 + ym) / 100) / 4 + (y2 - y1)) by lia.
  lia.
Qed.

Lemma mf_same_month {T} {NT : Num T} (c : calendar T) d r f b : plain c -> orderly c -> 0 <= d -> 0 <= b ->
  modified_following c d = Ok r ->
  slips (business_of c) 1 d f -> f < d + 300 ->
  business_of c b = true -> same_month d b -> same_month d r.
Proof.
  intros Pl P Hd Hb H Sl Gap Bb Sm.
  destruct (mf_char c Pl P d r H) as (f' & Sl' & C). assert (f' = f) by (eapply slips_det; eauto). subst f'.
  pose proof (slips_le _ _ _ Sl) as Lf.
  pose proof (month_gap d f Hd ltac:(lia)) as MG.
  assert (C' : (same_month d f /\ r = f) \/ (~ same_month d f /\ slips (business_of c) (-1) d r)).
  { unfold same_month in *. destruct (ymd d) as [[y1 m1] d1]. destruct (ymd f) as [[y2 m2] d2].
    destruct C as [C1 C2]. destruct (Z.eq_dec m1 m2) as [E|E]; [left; auto|right]. split; [tauto|auto]. }
  clear C. destruct C' as [[S ->]|[NS Sr]]; [exact S|].
  destruct (Z.le_gt_cases d b) as [L|L].
  - exfalso. apply NS. destruct Sl as (k & Hk & Ef & Bf & Nf).
    assert (f <= b).
    { destruct (Z.le_gt_cases f b) as [|G]; [assumption|].
      assert (business_of c (d + 1 * (b - d)) = false) by (apply Nf; lia).
      replace (d + 1 * (b - d)) with b in H0 by lia. congruence. }
    apply (same_month_between d b f); [unfold day_min; lia|lia|exact Sm].
  - destruct Sr as (k & Hk & Er & Br & Nr).
    assert (b <= r).
    { destruct (Z.le_gt_cases b r) as [|G]; [assumption|].
      assert (business_of c (d + -1 * (d - b)) = false) by (apply Nr; lia).
      replace (d + -1 * (d - b)) with b in H0 by lia. congruence. }
    assert (Sm' : same_month b d).
    { unfold same_month in *. destruct (ymd d) as [[y1 m1] d1]. destruct (ymd b) as [[y2 m2] d2]. lia. }
    destruct (same_month_between b d r ltac:(unfold day_min; lia) ltac:(lia) Sm') as [_ S].
    unfold same_month in *. destruct (ymd d) as [[y1 m1] d1]. destruct (ymd r) as [[y2 m2] d2]. lia.
Qed.
