From Coq Require Import ZArith List String Bool Lia ZifyBool Sorted Reals.
From Verif Require Import Prelude Num M_Dates M_Search M_Calendar S_Calendar L_Search L_Dates.
Import ListNotations.
Open Scope Z_scope.

Ltac Zify.zify_post_hook ::= Z.div_mod_to_equations.

(** ** Fuel *)

Lemma day_fuel_eq : Z.of_nat day_fuel = 73001.
Proof. unfold day_fuel. apply Z2Nat.id. lia. Qed.
Global Opaque day_fuel.

(** ** Weekdays *)

Lemma in_range_valid d : in_range d <-> is_valid d = true.
Proof. unfold in_range. symmetry. apply is_valid_iff. Qed.

Lemma dow_ok d : in_range d -> day_of_week d = Ok ((d - 4) mod 7).
Proof.
  intros H. rewrite day_of_week_ok by now apply in_range_valid. f_equal. lia.
Qed.

Lemma dow_inv d w : day_of_week d = Ok w -> in_range d /\ w = (d - 4) mod 7.
Proof.
  intros H. assert (in_range d).
  { apply in_range_valid. unfold day_of_week in H. destruct (is_valid d); [reflexivity|discriminate]. }
  rewrite dow_ok in H by assumption. injection H as <-. auto.
Qed.

Lemma weekday_iff d : weekday d = true <-> (d - 4) mod 7 < 5.
Proof. unfold weekday. lia. Qed.

Lemma weekday_false d : weekday d = false <-> 5 <= (d - 4) mod 7.
Proof. unfold weekday. lia. Qed.

(** ** Sorted holiday lists *)

Definition mem (x : Z) (l : list Z) : bool := existsb (Z.eqb x) l.
Lemma mem_iff x l : mem x l = true <-> In x l.
Proof.
  unfold mem. rewrite existsb_exists. split.
  - intros (y & H & E). apply Z.eqb_eq in E. now subst.
  - intros H. exists x. split; [exact H|apply Z.eqb_refl].
Qed.

(** Number of entries below x. *)
Definition below (l : list Z) (x : Z) : nat := List.length (filter (fun h => h <? x) l).

Lemma sorted_nth (l : list Z) : StronglySorted Z.lt l ->
  forall i j a b, (i < j)%nat -> nth_error l i = Some a -> nth_error l j = Some b -> a < b.
Proof.
  induction 1 as [|x l S IH F]; intros i j a b Hij Ha Hb.
  - destruct i; discriminate.
  - destruct j as [|j]; [lia|]. cbn in Hb. destruct i as [|i]; cbn in Ha.
    + injection Ha as <-. rewrite Forall_forall in F. apply F. eapply nth_error_In; eauto.
    + eapply (IH i j); eauto. lia.
Qed.

Lemma below_split l x i : (i <= List.length l)%nat ->
  (forall j a, nth_error l j = Some a -> (j < i)%nat -> a < x) ->
  (forall j a, nth_error l j = Some a -> (i <= j)%nat -> x <= a) ->
  below l x = i.
Proof.
  revert i. unfold below. induction l as [|h l IH]; intros i Hi Lo Hi'; cbn [filter].
  - cbn in *. lia.
  - destruct i as [|i].
    + pose proof (Hi' 0%nat h eq_refl ltac:(lia)). destruct (Z.ltb_spec h x); [lia|].
      apply (IH 0%nat); [lia| |].
      * intros; lia.
      * intros j a Ha _. apply (Hi' (S j) a Ha). lia.
    + pose proof (Lo 0%nat h eq_refl ltac:(lia)). destruct (Z.ltb_spec h x); [|lia].
      cbn [List.length]. f_equal. apply IH.
      * cbn in Hi. lia.
      * intros j a Ha Hj. apply (Lo (S j) a Ha). lia.
      * intros j a Ha Hj. apply (Hi' (S j) a Ha). lia.
Qed.

Lemma probe_sorted_Z l x : StronglySorted Z.lt l -> probe_sorted l (fun h => Z.compare h x).
Proof.
  intros S i j a b Hij Ha Hb. pose proof (sorted_nth l S i j a b Hij Ha Hb).
  split; intros K.
  - destruct (Z.compare_spec b x); try congruence; apply Z.compare_lt_iff; lia.
  - destruct (Z.compare_spec a x); try congruence; apply Z.compare_gt_iff; lia.
Qed.

Lemma remaining_holidays_spec l x : StronglySorted Z.lt l ->
  remaining_holidays l x = (below l x, mem x l).
Proof.
  intros S. unfold remaining_holidays, date.
  pose proof (binary_search_spec l (fun h => h ?= x) (probe_sorted_Z l x S)) as B.
  destruct (binary_search_by l (fun h => h ?= x)) as [i|i].
  - destruct B as (a & Ha & Ea). apply Z.compare_eq in Ea. subst a.
    f_equal.
    + symmetry. apply below_split.
      * assert (nth_error l i <> None) by congruence. apply nth_error_Some in H. lia.
      * intros j a Hj Hji. apply (sorted_nth l S j i a x Hji Hj Ha).
      * intros j a Hj Hji. destruct (Nat.eq_dec i j) as [->|N]; [assert (a = x) by congruence; lia|].
        assert (x < a) by (apply (sorted_nth l S i j x a); [lia|exact Ha|exact Hj]). lia.
    + symmetry. apply mem_iff. eapply nth_error_In; eauto.
  - destruct B as (Li & Lo & Hi). f_equal.
    + symmetry. apply below_split; [exact Li| |].
      * intros j a Hj Hji. apply Z.compare_lt_iff. exact (Lo j a Hj Hji).
      * intros j a Hj Hji. apply Z.lt_le_incl, Z.compare_gt_iff. exact (Hi j a Hj Hji).
    + symmetry. destruct (mem x l) eqn:E; [|reflexivity].
      apply mem_iff in E. apply In_nth_error in E as [j Hj].
      destruct (Nat.lt_ge_cases j i) as [L|G].
      * apply (Lo j x Hj) in L. rewrite Z.compare_refl in L. discriminate.
      * apply (Hi j x Hj) in G. rewrite Z.compare_refl in G. discriminate.
Qed.

Lemma below_succ l x : StronglySorted Z.lt l ->
  Z.of_nat (below l (x + 1)) = Z.of_nat (below l x) + (if mem x l then 1 else 0).
Proof.
  induction 1 as [|h l S IH F]; [reflexivity|].
  unfold below in *. cbn [filter mem existsb]. fold (mem x l).
  destruct (Z.eqb_spec x h) as [->|N]; cbn [orb].
  - destruct (Z.ltb_spec h (h + 1)); [|lia]. destruct (Z.ltb_spec h h); [lia|].
    cbn [List.length].
    assert (M : mem h l = false).
    { destruct (mem h l) eqn:E; [|reflexivity]. apply mem_iff in E. rewrite Forall_forall in F. apply F in E. lia. }
    rewrite M in IH. lia.
  - destruct (Z.ltb_spec h (x + 1)), (Z.ltb_spec h x); try lia; cbn [List.length]; lia.
Qed.

(** ** Counting in a direction *)

(** Number of days satisfying p among s+dir, s+2dir, ..., s+k*dir. *)
Fixpoint cntd (p : Z -> bool) (dir s : Z) (k : nat) : Z :=
  match k with
  | O => 0
  | S j => cntd p dir s j + (if p (s + dir * Z.of_nat (S j)) then 1 else 0)
  end.

Lemma cntd_bound p dir s k : 0 <= cntd p dir s k <= Z.of_nat k.
Proof. induction k; cbn [cntd]; [lia|]. destruct (p _); lia. Qed.

Lemma cntd_mono p dir s k j : (k <= j)%nat -> cntd p dir s k <= cntd p dir s j.
Proof.
  induction 1; [lia|]. cbn [cntd]. destruct (p _); lia.
Qed.

Lemma cntd_add p dir s k j : cntd p dir s (k + j) = cntd p dir s k + cntd p dir (s + dir * Z.of_nat k) j.
Proof.
  induction j as [|j IH]; [rewrite Nat.add_0_r; cbn; lia|].
  rewrite Nat.add_succ_r. cbn [cntd]. rewrite IH.
  replace (s + dir * Z.of_nat (S (k + j))) with (s + dir * Z.of_nat k + dir * Z.of_nat (S j)) by lia. lia.
Qed.

Lemma cntd_none p dir s k : (forall j, 0 < j <= Z.of_nat k -> p (s + dir * j) = false) -> cntd p dir s k = 0.
Proof.
  induction k as [|k IH]; intros H; [reflexivity|]. cbn [cntd].
  rewrite H by lia. rewrite IH; [reflexivity|]. intros j Hj. apply H. lia.
Qed.

Lemma moves_n_cnt biz dir n s e : moves_n biz dir n s e ->
  exists k, e = s + dir * Z.of_nat k /\ cntd biz dir s k = Z.of_nat n /\
    (n = O -> k = O) /\ (n <> O -> biz e = true).
Proof.
  induction 1 as [d|n d e f M IH Mv].
  - exists O. repeat split; try reflexivity; lia || congruence.
  - destruct IH as (k & -> & C & _ & _). destruct Mv as (j & Hj & -> & B & N).
    exists (k + Z.to_nat j)%nat. repeat split.
    + lia.
    + rewrite cntd_add, C.
      destruct (Z.to_nat j) as [|j'] eqn:Ej; [lia|]. cbn [cntd].
      replace (Z.of_nat (S j')) with j by lia. rewrite B.
      rewrite cntd_none; [lia|]. intros i Hi. apply N. lia.
    + lia.
    + intros _. exact B.
Qed.

Lemma cnt_moves biz dir s : forall k n, cntd biz dir s k = Z.of_nat n ->
  exists k', (k' <= k)%nat /\ moves_n biz dir n s (s + dir * Z.of_nat k') /\
    (forall j, Z.of_nat k' < j <= Z.of_nat k -> biz (s + dir * j) = false).
Proof.
  induction k as [|k IH]; intros n C; cbn [cntd] in C.
  - exists O. assert (n = O) by lia. subst n. split; [lia|]. split.
    + replace (s + dir * Z.of_nat 0) with s by lia. constructor.
    + intros j Hj. lia.
  - destruct (biz (s + dir * Z.of_nat (S k))) eqn:B.
    + destruct n as [|n]; [pose proof (cntd_bound biz dir s k); lia|].
      destruct (IH n ltac:(lia)) as (k' & Hk & M & N).
      exists (S k). split; [lia|]. split; [|intros; lia].
      econstructor; [exact M|]. exists (Z.of_nat (S k) - Z.of_nat k').
      repeat split; [lia|lia|exact B|].
      intros j Hj. replace (s + dir * Z.of_nat k' + dir * j) with (s + dir * (Z.of_nat k' + j)) by lia.
      apply N. lia.
    + destruct (IH n ltac:(lia)) as (k' & Hk & M & N).
      exists k'. split; [lia|]. split; [exact M|].
      intros j Hj. destruct (Z.eq_dec j (Z.of_nat (S k))) as [->|]; [exact B|]. apply N. lia.
Qed.

Lemma cnt_moves_at biz dir s k n : cntd biz dir s k = Z.of_nat n ->
  k = O \/ biz (s + dir * Z.of_nat k) = true ->
  moves_n biz dir n s (s + dir * Z.of_nat k).
Proof.
  intros C B. destruct (cnt_moves biz dir s k n C) as (k' & Hk & M & N).
  destruct (Nat.eq_dec k' k) as [->|D]; [exact M|].
  destruct B as [->|B]; [lia|]. rewrite N in B by lia. discriminate.
Qed.

(** ** Determinism and laws of the specification *)

Lemma slips_det biz dir d e e' : slips biz dir d e -> slips biz dir d e' -> e = e'.
Proof.
  intros (k & Hk & -> & B & N) (k' & Hk' & -> & B' & N').
  destruct (Z.lt_trichotomy k k') as [L|[->|G]]; [|reflexivity|].
  - rewrite N' in B by lia. discriminate.
  - rewrite N in B' by lia. discriminate.
Qed.

Lemma moves_det biz dir d e e' : moves biz dir d e -> moves biz dir d e' -> e = e'.
Proof.
  intros (k & Hk & -> & B & N) (k' & Hk' & -> & B' & N').
  destruct (Z.lt_trichotomy k k') as [L|[->|G]]; [|reflexivity|].
  - rewrite N' in B by lia. discriminate.
  - rewrite N in B' by lia. discriminate.
Qed.

Lemma moves_n_det biz dir n : forall d e e', moves_n biz dir n d e -> moves_n biz dir n d e' -> e = e'.
Proof.
  induction n as [|n IH]; intros d e e' M M'; inversion M; inversion M'; subst; [reflexivity|].
  assert (e0 = e1) by eauto. subst. eauto using moves_det.
Qed.

Lemma steps_to_det biz from n fwd s s' e e' :
  steps_to biz from n fwd s e -> steps_to biz from n fwd s' e' -> s = s' /\ e = e'.
Proof.
  intros [S M] [S' M']. assert (s = s') by (eapply slips_det; eauto). subst.
  split; [reflexivity|]. eapply moves_n_det; eauto.
Qed.

Lemma slips_biz biz dir d e : slips biz dir d e -> biz e = true.
Proof. intros (k & _ & _ & B & _). exact B. Qed.

Lemma slips_self biz dir d : biz d = true -> slips biz dir d d.
Proof. intros B. exists 0. split; [lia|]. split; [lia|]. split; [exact B|]. intros; lia. Qed.

Lemma moves_n_biz biz dir n d e : biz d = true -> moves_n biz dir n d e -> biz e = true.
Proof. intros B M. inversion M; subst; [exact B|]. destruct H0 as (k & _ & _ & B' & _). exact B'. Qed.

Lemma steps_to_biz biz from n fwd s e : steps_to biz from n fwd s e -> biz e = true.
Proof. intros [S M]. eapply moves_n_biz; [|exact M]. eapply slips_biz; eauto. Qed.

Lemma moves_n_app biz dir a b d m e : moves_n biz dir a d m -> moves_n biz dir b m e -> moves_n biz dir (b + a) d e.
Proof.
  intros Ma Mb. revert Ma. induction Mb as [|b m e f Mb IH Mv]; intros Ma; [exact Ma|].
  cbn. econstructor; [apply IH; exact Ma|exact Mv].
Qed.

Lemma moves_sym biz dir d e : biz d = true -> moves biz dir d e -> moves biz (- dir) e d.
Proof.
  intros B (k & Hk & -> & B' & N). exists k. repeat split; [exact Hk|lia|exact B|].
  intros j Hj. replace (d + dir * k + - dir * j) with (d + dir * (k - j)) by lia. apply N. lia.
Qed.

Lemma moves_n_sym biz dir n d e : biz d = true -> moves_n biz dir n d e -> moves_n biz (- dir) n e d.
Proof.
  intros B M. induction M as [|n d e f M IH Mv]; [constructor|].
  specialize (IH B).
  assert (Be : biz e = true) by (eapply moves_n_biz; eauto).
  replace (S n) with (n + 1)%nat by lia. eapply moves_n_app; [|exact IH].
  econstructor; [constructor|]. now apply moves_sym.
Qed.

Lemma moves_n_dist biz dir n d e : moves_n biz dir n d e -> exists k, 0 <= k /\ e = d + dir * k.
Proof.
  intros M. destruct (moves_n_cnt _ _ _ _ _ M) as (k & -> & _). exists (Z.of_nat k). split; lia.
Qed.

(** ** Weekday stepping *)

Lemma week_forward s : weekday s = true -> forall n : nat,
  moves_n weekday 1 n s (s + (Z.of_nat n + ((s - 4) mod 7 + Z.of_nat n) / 5 * 2)).
Proof.
  intros W. apply weekday_iff in W. induction n as [|n IH].
  - match goal with |- moves_n _ _ _ _ ?e => replace e with s by lia end. constructor.
  - econstructor; [exact IH|].
    set (w := (s - 4) mod 7) in *. set (t := (s - 4) / 7).
    assert (Hs : s = 4 + 7 * t + w) by (unfold t, w; lia).
    assert (Hw : 0 <= w < 5) by (unfold w; lia).
    clearbody w t. subst s.
    set (q := (w + Z.of_nat n) / 5). set (r := (w + Z.of_nat n) mod 5).
    assert (Hn : w + Z.of_nat n = 5 * q + r) by (unfold q, r; lia).
    assert (Hr : 0 <= r < 5) by (unfold r; lia).
    clearbody q r.
    destruct (Z.eq_dec r 4) as [->|N].
    + replace ((w + Z.of_nat (S n)) / 5) with (q + 1) by lia.
      exists 3. split; [|split; [|split]]; [lia|lia| |].
      * apply weekday_iff. lia.
      * intros j Hj. apply weekday_false. lia.
    + replace ((w + Z.of_nat (S n)) / 5) with q by lia.
      exists 1. split; [|split; [|split]]; [lia|lia| |].
      * apply weekday_iff. lia.
      * intros j Hj. lia.
Qed.

Lemma week_backward s : weekday s = true -> forall n : nat,
  moves_n weekday (-1) n s (s - (Z.of_nat n + (4 - (s - 4) mod 7 + Z.of_nat n) / 5 * 2)).
Proof.
  intros W. apply weekday_iff in W. induction n as [|n IH].
  - match goal with |- moves_n _ _ _ _ ?e => replace e with s by lia end. constructor.
  - econstructor; [exact IH|].
    set (w := (s - 4) mod 7) in *. set (t := (s - 4) / 7).
    assert (Hs : s = 4 + 7 * t + w) by (unfold t, w; lia).
    assert (Hw : 0 <= w < 5) by (unfold w; lia).
    clearbody w t. subst s.
    set (q := (4 - w + Z.of_nat n) / 5). set (r := (4 - w + Z.of_nat n) mod 5).
    assert (Hn : 4 - w + Z.of_nat n = 5 * q + r) by (unfold q, r; lia).
    assert (Hr : 0 <= r < 5) by (unfold r; lia).
    clearbody q r.
    destruct (Z.eq_dec r 4) as [->|N].
    + replace ((4 - w + Z.of_nat (S n)) / 5) with (q + 1) by lia.
      exists 3. split; [|split; [|split]]; [lia|lia| |].
      * apply weekday_iff. lia.
      * intros j Hj. apply weekday_false. lia.
    + replace ((4 - w + Z.of_nat (S n)) / 5) with q by lia.
      exists 1. split; [|split; [|split]]; [lia|lia| |].
      * apply weekday_iff. lia.
      * intros j Hj. lia.
Qed.

Lemma calendar_days_moves s n : weekday s = true -> n <> 0 ->
  moves_n weekday (dir_of (0 <? n)) (Z.to_nat (Z.abs n)) s (s + calendar_days_of_step ((s - 4) mod 7) n).
Proof.
  intros W Hn. unfold calendar_days_of_step, dir_of. apply weekday_iff in W as W'.
  destruct (Z.ltb_spec 0 n).
  - rewrite Z.quot_div_nonneg by lia.
    pose proof (week_forward s W (Z.to_nat (Z.abs n))) as M.
    replace (Z.of_nat (Z.to_nat (Z.abs n))) with n in M by lia. exact M.
  - rewrite Z.quot_div_nonneg by lia.
    pose proof (week_backward s W (Z.to_nat (Z.abs n))) as M.
    replace (Z.of_nat (Z.to_nat (Z.abs n))) with (- n) in M by lia.
    replace (4 - (s - 4) mod 7 + - n) with (4 - (s - 4) mod 7 - n) in M by lia.
    replace (s + (n - (4 - (s - 4) mod 7 - n) / 5 * 2)) with (s - (- n + (4 - (s - 4) mod 7 - n) / 5 * 2)) by lia.
    exact M.
Qed.

Lemma wk_slip_spec from fwd : in_range from ->
  exists s, slip_to_next_weekday from fwd = Ok s /\ slips weekday (dir_of fwd) from s.
Proof.
  intros R. unfold slip_to_next_weekday. rewrite dow_ok by exact R. cbn [bind].
  destruct (Z.ltb_spec ((from - 4) mod 7) 5).
  - eexists. split; [reflexivity|]. apply slips_self, weekday_iff. exact H.
  - unfold dir_of. destruct fwd; (eexists; split; [reflexivity|]).
    + exists (7 - (from - 4) mod 7). repeat split; [lia|lia| |].
      * apply weekday_iff. lia.
      * intros j Hj. apply weekday_false. lia.
    + exists ((from - 4) mod 7 - 4). repeat split; [lia|lia| |].
      * apply weekday_iff. lia.
      * intros j Hj. apply weekday_false. lia.
Qed.

Lemma wk_slip_range from fwd s : slip_to_next_weekday from fwd = Ok s -> in_range from.
Proof.
  unfold slip_to_next_weekday. destruct (day_of_week from) eqn:E; try discriminate.
  intros _. now apply dow_inv in E.
Qed.

Lemma wk_step_sound from n fwd e : wk_step from n fwd = Ok e ->
  in_range from /\ exists s, steps_to weekday from n fwd s e /\ (n <> 0 -> in_range s /\ in_range e).
Proof.
  unfold wk_step. intros H.
  destruct (slip_to_next_weekday from fwd) as [s| |] eqn:Es; try discriminate. cbn [bind] in H.
  assert (R : in_range from) by (eapply wk_slip_range; eauto). split; [exact R|].
  destruct (wk_slip_spec from fwd R) as (s' & Es' & Sl). rewrite Es in Es'. injection Es' as <-.
  exists s. destruct (Z.eqb_spec n 0) as [->|N].
  - injection H as <-. split; [|congruence]. split; [exact Sl|]. constructor.
  - destruct (day_of_week s) as [w| |] eqn:Ew; try discriminate. cbn [bind] in H.
    apply dow_inv in Ew as [Rs ->].
    pose proof (calendar_days_moves s n (slips_biz _ _ _ _ Sl) N) as M.
    destruct (day_of_week (s + calendar_days_of_step ((s - 4) mod 7) n)) as [w'| |] eqn:Ew'; try discriminate.
    cbn [bind] in H. apply dow_inv in Ew' as [Re ->].
    assert (W : weekday (s + calendar_days_of_step ((s - 4) mod 7) n) = true).
    { eapply moves_n_biz; [|exact M]. eapply slips_biz; eauto. }
    apply weekday_iff in W. destruct (Z.ltb_spec ((s + calendar_days_of_step ((s - 4) mod 7) n - 4) mod 7) 5); [|lia].
    injection H as <-. split; [split; assumption|]. intros _. split; assumption.
Qed.

Lemma wk_step_complete from n fwd s e :
  steps_to weekday from n fwd s e -> in_range from -> in_range s -> in_range e -> wk_step from n fwd = Ok e.
Proof.
  intros [Sl M] R Rs Re. unfold wk_step.
  destruct (wk_slip_spec from fwd R) as (s' & -> & Sl'). assert (s' = s) by (eapply slips_det; eauto). subst s'.
  cbn [bind]. destruct (Z.eqb_spec n 0) as [->|N].
  - inversion M; subst. reflexivity.
  - rewrite dow_ok by exact Rs. cbn [bind].
    pose proof (calendar_days_moves s n (slips_biz _ _ _ _ Sl) N) as M'.
    assert (E : s + calendar_days_of_step ((s - 4) mod 7) n = e) by (eapply moves_n_det; eauto).
    rewrite E. rewrite dow_ok by exact Re. cbn [bind].
    assert (W : weekday e = true) by (eapply moves_n_biz; [|exact M]; eapply slips_biz; eauto).
    apply weekday_iff in W. destruct (Z.ltb_spec ((e - 4) mod 7) 5); [reflexivity|lia].
Qed.

(** ** Holiday stepping *)

Section Hols.
  Variable hols : list date.
  Hypothesis HL : holiday_list hols.
  Let biz := business hols.

  Lemma sorted_hols : StronglySorted Z.lt hols.
  Proof. exact (proj1 HL). Qed.

  Lemma hols_weekday h : mem h hols = true -> weekday h = true.
  Proof.
    intros H. apply mem_iff in H. destruct HL as [_ F]. rewrite Forall_forall in F. auto.
  Qed.

  Lemma biz_unfold d : biz d = weekday d && negb (mem d hols).
  Proof. reflexivity. Qed.

  Lemma hol_is_holiday_ok d : in_range d -> hol_is_holiday hols d = Ok (negb (biz d)).
  Proof.
    intros R. unfold hol_is_holiday. rewrite dow_ok by exact R. cbn [bind].
    rewrite remaining_holidays_spec by apply sorted_hols. cbn [snd]. rewrite biz_unfold.
    destruct (Z.ltb_spec 4 ((d - 4) mod 7)).
    - rewrite (proj2 (weekday_false d)) by lia. reflexivity.
    - rewrite (proj2 (weekday_iff d)) by lia. cbn [andb]. now rewrite negb_involutive.
  Qed.

  Lemma hol_is_holiday_inv d h : hol_is_holiday hols d = Ok h -> in_range d /\ h = negb (biz d).
  Proof.
    intros H. assert (R : in_range d).
    { unfold hol_is_holiday in H. destruct (day_of_week d) eqn:E; try discriminate. now apply dow_inv in E. }
    rewrite hol_is_holiday_ok in H by exact R. injection H as <-. auto.
  Qed.

  Lemma cnt_split dir s k :
    cntd biz dir s k = cntd weekday dir s k - cntd (fun d => mem d hols) dir s k.
  Proof.
    induction k as [|k IH]; [reflexivity|]. cbn [cntd]. rewrite IH, biz_unfold.
    pose proof (hols_weekday (s + dir * Z.of_nat (S k))) as W.
    destruct (mem _ hols); [rewrite W by reflexivity|]; cbn [negb andb]; destruct (weekday _); cbn [andb]; lia.
  Qed.

  Lemma cnt_mem_forward s k :
    cntd (fun d => mem d hols) 1 s k = Z.of_nat (below hols (s + Z.of_nat k + 1)) - Z.of_nat (below hols (s + 1)).
  Proof.
    induction k as [|k IH]; cbn [cntd].
    - replace (s + Z.of_nat 0 + 1) with (s + 1) by lia. lia.
    - rewrite IH. replace (s + Z.of_nat (S k) + 1) with (s + Z.of_nat k + 1 + 1) by lia.
      rewrite (below_succ hols (s + Z.of_nat k + 1)) by apply sorted_hols.
      replace (s + 1 * Z.of_nat (S k)) with (s + Z.of_nat k + 1) by lia. lia.
  Qed.

  Lemma cnt_mem_backward s k :
    cntd (fun d => mem d hols) (-1) s k = Z.of_nat (below hols s) - Z.of_nat (below hols (s - Z.of_nat k)).
  Proof.
    induction k as [|k IH]; cbn [cntd].
    - replace (s - Z.of_nat 0) with s by lia. lia.
    - rewrite IH. replace (s - Z.of_nat k) with (s - Z.of_nat (S k) + 1) by lia.
      rewrite (below_succ hols (s - Z.of_nat (S k))) by apply sorted_hols.
      replace (s + -1 * Z.of_nat (S k)) with (s - Z.of_nat (S k)) by lia. lia.
  Qed.

  Lemma count_holidays_spec a b :
    count_holidays hols a b = Z.of_nat (below hols b) - Z.of_nat (below hols (a + 1)).
  Proof.
    unfold count_holidays. rewrite !remaining_holidays_spec by apply sorted_hols.
    pose proof (below_succ hols a sorted_hols) as B. destruct (mem a hols); lia.
  Qed.

  (** Slipping. *)
  Lemma slip_to_next_sound dir : forall fuel d e, slip_to_next fuel hols d dir = Ok e ->
    in_range d /\ in_range e /\ slips biz dir d e.
  Proof.
    induction fuel as [|fuel IH]; intros d e H; [discriminate|]. cbn [slip_to_next] in H.
    destruct (hol_is_holiday hols d) as [h| |] eqn:E; try discriminate. cbn [bind] in H.
    apply hol_is_holiday_inv in E as [R ->]. destruct (biz d) eqn:B; cbn [negb] in H.
    - injection H as <-. split; [exact R|]. split; [exact R|]. now apply slips_self.
    - apply IH in H as (R1 & Re & (k & Hk & -> & Bk & N)). split; [exact R|]. split; [exact Re|].
      exists (k + 1). repeat split; [lia|lia|exact Bk|].
      intros j Hj. destruct (Z.eq_dec j 0) as [->|]; [replace (d + dir * 0) with d by lia; exact B|].
      replace (d + dir * j) with (d + dir + dir * (j - 1)) by lia. apply N. lia.
  Qed.

  Lemma slip_to_next_complete dir : dir = 1 \/ dir = -1 -> forall fuel d e, slips biz dir d e ->
    in_range d -> in_range e -> Z.abs (e - d) < Z.of_nat fuel ->
    slip_to_next fuel hols d dir = Ok e.
  Proof.
    intros Hdir. induction fuel as [|fuel IH]; intros d e S R Re F; [lia|].
    destruct S as (k & Hk & Ee & B & N). cbn [slip_to_next].
    rewrite hol_is_holiday_ok by exact R. cbn [bind].
    destruct (Z.eq_dec k 0) as [->|K].
    - replace (d + dir * 0) with d in Ee by lia. subst e. rewrite B. reflexivity.
    - assert (Bd : biz d = false) by (rewrite <- (N 0) by lia; f_equal; lia).
      rewrite Bd. cbn [negb]. apply IH.
      + exists (k - 1). repeat split; [lia|lia|exact B|].
        intros j Hj. replace (d + dir + dir * j) with (d + dir * (j + 1)) by lia. apply N. lia.
      + unfold in_range in *. destruct Hdir; subst dir; lia.
      + exact Re.
      + destruct Hdir; subst dir; lia.
  Qed.

  (** The correction loop. *)
  Lemma hol_loop_sound dir s n : forall fuel k d extra e, hol_step_loop fuel hols dir d extra = Ok e ->
    d = s + dir * Z.of_nat (S k) -> 0 <= extra -> extra + cntd biz dir s k = Z.of_nat n - 1 ->
    in_range e /\ moves_n biz dir n s e.
  Proof.
    induction fuel as [|fuel IH]; intros k d extra e H Hd He Hc; [discriminate|]. cbn [hol_step_loop] in H.
    destruct (hol_is_holiday hols d) as [h| |] eqn:E; try discriminate. cbn [bind] in H.
    apply hol_is_holiday_inv in E as [R ->]. destruct (biz d) eqn:B; cbn [negb] in H.
    - destruct (Z.ltb_spec 0 extra) as [X|X].
      + apply (IH (S k)) in H; [exact H|lia|lia|]. cbn [cntd]. rewrite <- Hd, B. lia.
      + injection H as <-. split; [exact R|]. rewrite Hd. apply cnt_moves_at.
        * cbn [cntd]. rewrite <- Hd, B. lia.
        * right. rewrite <- Hd. exact B.
    - apply (IH (S k)) in H; [exact H|lia|lia|]. cbn [cntd]. rewrite <- Hd, B. lia.
  Qed.

  Lemma hol_loop_complete dir s n e K : dir = 1 \/ dir = -1 ->
    e = s + dir * Z.of_nat K -> cntd biz dir s K = Z.of_nat n -> biz e = true -> in_range e ->
    forall fuel k d extra, d = s + dir * Z.of_nat (S k) -> 0 <= extra ->
    extra + cntd biz dir s k = Z.of_nat n - 1 -> (S k <= K)%nat -> in_range d ->
    Z.of_nat K - Z.of_nat k <= Z.of_nat fuel ->
    hol_step_loop fuel hols dir d extra = Ok e.
  Proof.
    intros Hdir Ee CK BK RK. induction fuel as [|fuel IH]; intros k d extra Hd He Hc HkK R F; [lia|].
    cbn [hol_step_loop]. rewrite hol_is_holiday_ok by exact R. cbn [bind].
    assert (Rn : (S (S k) <= K)%nat -> in_range (d + dir)).
    { unfold in_range in *. intros HK. destruct Hdir; subst dir; lia. }
    destruct (Nat.eq_dec (S k) K) as [EK|NK].
    - assert (De : d = e) by (rewrite Hd, Ee, EK; reflexivity). rewrite De, BK. cbn [negb].
      rewrite <- EK in CK. cbn [cntd] in CK. rewrite <- Hd, De, BK in CK.
      destruct (Z.ltb_spec 0 extra); [lia|]. reflexivity.
    - destruct (biz d) eqn:B; cbn [negb].
      + destruct (Z.ltb_spec 0 extra).
        * apply (IH (S k)); try lia; [|apply Rn; lia]. cbn [cntd]. rewrite <- Hd, B. lia.
        * exfalso. assert (cntd biz dir s (S k) = Z.of_nat n) by (cbn [cntd]; rewrite <- Hd, B; lia).
          destruct K as [|K']; [lia|]. cbn [cntd] in CK.
          replace (s + dir * Z.of_nat (S K')) with e in CK by lia. rewrite BK in CK.
          pose proof (cntd_mono biz dir s (S k) K' ltac:(lia)). lia.
      + apply (IH (S k)); try lia; [|apply Rn; lia]. cbn [cntd]. rewrite <- Hd, B. lia.
  Qed.

  (** What the correction loop starts from. *)
  Lemma loop_start s n : biz s = true -> n <> 0 ->
    let dir := dir_of (0 <? n) in
    let to := s + calendar_days_of_step ((s - 4) mod 7) n in
    let extra := if 0 <? n then count_holidays hols s to else count_holidays hols to s in
    exists k, to = s + dir * Z.of_nat (S k) /\ weekday to = true /\ 0 <= extra /\
      extra + cntd biz dir s k = Z.abs n - 1.
  Proof.
    intros Bs N dir to extra.
    assert (Ws : weekday s = true) by (rewrite biz_unfold in Bs; now apply andb_prop in Bs).
    pose proof (calendar_days_moves s n Ws N) as M. fold dir to in M.
    destruct (moves_n_cnt _ _ _ _ _ M) as (k & Et & Ck & _ & Bt).
    assert (Bt' : weekday to = true) by (apply Bt; lia).
    destruct k as [|k].
    { cbn [cntd] in Ck. lia. }
    exists k. split; [exact Et|]. split; [exact Bt'|].
    assert (X : extra = cntd (fun d => mem d hols) dir s k).
    { unfold extra, dir in *. unfold dir_of in *. destruct (0 <? n).
      - rewrite count_holidays_spec, cnt_mem_forward. rewrite Et. f_equal. f_equal. f_equal. lia.
      - rewrite count_holidays_spec, cnt_mem_backward. rewrite Et. f_equal. f_equal. f_equal. lia. }
    rewrite X. split; [apply cntd_bound|].
    rewrite cnt_split. cbn [cntd] in Ck. rewrite <- Et, Bt' in Ck. lia.
  Qed.

  Lemma hol_step_sound from n fwd e : hol_step hols from n fwd = Ok e ->
    in_range from /\ exists s, steps_to biz from n fwd s e /\ in_range s /\ in_range e.
  Proof.
    unfold hol_step. intros H.
    destruct (slip_to_next day_fuel hols from (if fwd then 1 else -1)) as [s| |] eqn:Es; try discriminate.
    cbn [bind] in H. apply slip_to_next_sound in Es as (R & Rs & Sl).
    split; [exact R|]. exists s.
    destruct (Z.eqb_spec n 0) as [->|N].
    - injection H as <-. split; [|split; assumption]. split; [exact Sl|constructor].
    - rewrite dow_ok in H by exact Rs. cbn [bind] in H.
      set (to := s + calendar_days_of_step ((s - 4) mod 7) n) in *.
      destruct (loop_start s n (slips_biz _ _ _ _ Sl) N) as (k & Et & Wt & Ex & Inv).
      fold to in Et, Wt, Ex, Inv. apply weekday_iff in Wt.
      destruct (day_of_week to) as [w| |] eqn:Ew; try discriminate. cbn [bind] in H.
      apply dow_inv in Ew as [Rt ->].
      assert (L : in_range e /\ moves_n biz (dir_of (0 <? n)) (Z.to_nat (Z.abs n)) s e).
      { unfold dir_of in *. destruct (0 <? n).
        - replace (Z.max ((to - 4) mod 7 - 4) 0) with 0 in H by lia. rewrite Z.add_0_r in H.
          eapply hol_loop_sound; [exact H|exact Et|exact Ex|]. lia.
        - replace ((to - 4) mod 7 =? 5) with false in H by lia. rewrite Z.add_0_r in H.
          eapply hol_loop_sound; [exact H|exact Et|exact Ex|]. lia. }
      destruct L as [Re M]. split; [split; assumption|]. split; assumption.
  Qed.

  Lemma hol_step_complete from n fwd s e :
    steps_to biz from n fwd s e -> in_range from -> in_range s -> in_range e -> hol_step hols from n fwd = Ok e.
  Proof.
    intros [Sl M] R Rs Re. unfold hol_step.
    rewrite (slip_to_next_complete (if fwd then 1 else -1)) with (e := s);
      [|destruct fwd; lia|exact Sl|exact R|exact Rs|rewrite day_fuel_eq; unfold in_range in *; lia].
    cbn [bind]. destruct (Z.eqb_spec n 0) as [->|N].
    - inversion M; subst. reflexivity.
    - rewrite dow_ok by exact Rs. cbn [bind].
      set (to := s + calendar_days_of_step ((s - 4) mod 7) n) in *.
      destruct (loop_start s n (slips_biz _ _ _ _ Sl) N) as (k & Et & Wt & Ex & Inv).
      fold to in Et, Wt, Ex, Inv. apply weekday_iff in Wt.
      destruct (moves_n_cnt _ _ _ _ _ M) as (K & Ee & CK & _ & Be).
      assert (Be' : biz e = true) by (apply Be; lia).
      assert (Hdir : dir_of (0 <? n) = 1 \/ dir_of (0 <? n) = -1) by (unfold dir_of; destruct (0 <? n); lia).
      assert (HkK : (S k <= K)%nat).
      { destruct (Nat.le_gt_cases (S k) K) as [L|G]; [exact L|].
        pose proof (cntd_mono biz (dir_of (0 <? n)) s K k ltac:(lia)). lia. }
      assert (Rt : in_range to).
      { rewrite Et. unfold in_range in *. destruct Hdir as [D|D]; rewrite D in *; lia. }
      assert (L : forall extra, extra = (if 0 <? n then count_holidays hols s to else count_holidays hols to s) ->
                  hol_step_loop day_fuel hols (dir_of (0 <? n)) to extra = Ok e).
      { intros extra ->. eapply (hol_loop_complete (dir_of (0 <? n)) s (Z.to_nat (Z.abs n)) e K Hdir Ee CK Be' Re _ k);
          [exact Et|exact Ex| |exact HkK|exact Rt|].
        - rewrite Z2Nat.id by lia. exact Inv.
        - rewrite day_fuel_eq. unfold in_range in *. destruct Hdir as [D|D]; rewrite D in *; lia. }
      rewrite dow_ok by exact Rt. cbn [bind]. unfold dir_of in L. destruct (0 <? n).
      + apply L. lia.
      + apply L. replace ((to - 4) mod 7 =? 5) with false by lia. lia.
  Qed.
End Hols.
