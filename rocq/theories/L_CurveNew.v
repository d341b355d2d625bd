(** Rate curves made from quoted rates, and bumps against quoting anew. *)
From Coq Require Import ZArith List String Bool Lia Reals Lra.
From Verif Require Import Prelude Num L_Num M_Dates M_Search M_Interp S_Interp L_Interp L_InterpCases M_Curves S_Data L_Curves.
Import ListNotations.
Open Scope list_scope.
Open Scope R_scope.

Notation quotes := (list (Z * R)).

Lemma dates_apart (pts : quotes) : separated IZR pts <-> (forall p q, neighbours pts p q -> (fst p < fst q)%Z).
Proof.
  unfold separated. split; intros S p q n; specialize (S p q n).
  - apply lt_IZR. cbv beta in S. assert (0 < 1 / 1000000000000) by lra. lra.
  - assert (H : (fst p + 1 <= fst q)%Z) by lia. apply IZR_le in H. rewrite plus_IZR in H. lra.
Qed.

Lemma made_iff base (pts : quotes) l r c : act365_new base pts l r = Ok c <->
  pts <> [] /\ (forall p q, neighbours pts p q -> (fst p < fst q)%Z) /\ c = RateCurveAct365 base (mkLinear l r pts).
Proof.
  unfold act365_new, date. split.
  - intros E. inv_bind E. injection E as <-.
    match goal with H : linear_new _ _ _ = Ok _ |- _ => apply (linear_new_iff IZR lawful_Z) in H; destruct H as (A & B & ->) end.
    split; [exact A|]. split; [apply dates_apart, B|reflexivity].
  - intros (A & B & ->). rewrite (proj2 (linear_new_iff IZR lawful_Z pts l r (mkLinear l r pts))); [reflexivity|].
    split; [exact A|]. split; [apply dates_apart, B|reflexivity].
Qed.

Section Made.
  Variable nan : R.
  Variable base : date.
  Variable pts : quotes.
  Variables l r : extrap.
  Variable c : curve R.
  Hypothesis New : act365_new base pts l r = Ok c.

  Lemma new_parts : linear_new pts l r = Ok (mkLinear l r pts) /\ c = RateCurveAct365 base (mkLinear l r pts).
  Proof.
    apply made_iff in New as H. destruct H as (A & B & E). split; [|exact E].
    apply (linear_new_iff IZR lawful_Z). split; [exact A|]. split; [apply dates_apart, B|reflexivity].
  Qed.

  Lemma made_rate d : d <> base -> r_and_t nan c d = (let* y := linear_at nan (mkLinear l r pts) d in Ok (y, years base d)).
  Proof.
    intros D. rewrite (proj2 new_parts). cbn [r_and_t]. destruct (Z.eqb_spec (d - base) 0); [lia|reflexivity].
  Qed.
  Lemma made_rt d y : linear_at nan (mkLinear l r pts) d = Ok y -> rt nan c d = Ok (y * years base d).
  Proof.
    intros E. destruct (Z.eq_dec d base) as [->|D].
    - rewrite (proj2 new_parts), rt_base_act365. f_equal. unfold years. rewrite Z.sub_diag. lra.
    - unfold rt. rewrite (made_rate d D), E. reflexivity.
  Qed.

  Lemma made_base : r_and_t nan c base = Ok (0, 0).
  Proof. rewrite (proj2 new_parts). cbn [r_and_t]. rewrite Z.sub_diag. reflexivity. Qed.

  Lemma made_quoted d y : In (d, y) pts ->
    (d <> base -> r_and_t nan c d = Ok (y, years base d)) /\ rt nan c d = Ok (y * years base d) /\ df nan c base d = Ok (exp (y * years base d)).
  Proof.
    intros I. pose proof (linear_pillar IZR lawful_Z nan pts l r _ d y (proj1 new_parts) I) as E. split; [|split].
    - intros D. rewrite (made_rate d D), E. reflexivity.
    - now apply made_rt.
    - rewrite (df_of_rt nan c base d 0 (y * years base d)).
      + do 2 f_equal. lra.
      + rewrite (proj2 new_parts). apply rt_base_act365.
      + now apply made_rt.
  Qed.

  Lemma made_between d p q : neighbours pts p q -> (fst p < d < fst q)%Z ->
    rt nan c d = Ok ((snd p + (snd q - snd p) * (IZR (d - fst p) / IZR (fst q - fst p))) * years base d).
  Proof.
    intros n [A B]. apply IZR_lt in A as A', B as B'.
    destruct (linear_between IZR lawful_Z nan pts l r _ d p q (proj1 new_parts) n (conj A' B')) as (y & E & L & _).
    rewrite (made_rt d y E). do 2 f_equal. unfold on_line in L. rewrite !minus_IZR.
    apply (Rmult_eq_reg_r (IZR (fst q) - IZR (fst p))); [|lra]. field_simplify; [|lra]. lra.
  Qed.

  Lemma made_left d p y : first_point pts p -> (d < fst p)%Z -> l = Flat /\ y = snd p \/ l = Zero /\ y = 0 \/ l = NotANumber /\ y = nan ->
    rt nan c d = Ok (y * years base d).
  Proof.
    intros F K H. apply made_rt. apply IZR_lt in K.
    assert (NN : l <> Natural) by (intros ->; intuition discriminate).
    pose proof (linear_left_obeys IZR lawful_Z nan pts l r _ d p (proj1 new_parts) F K NN) as O.
    destruct H as [(-> & ->)|[(-> & ->)|(-> & ->)]]; exact O.
  Qed.
  Lemma made_right d p y : l <> Natural -> last_point pts p -> (fst p < d)%Z -> r = Flat /\ y = snd p \/ r = Zero /\ y = 0 \/ r = NotANumber /\ y = nan ->
    rt nan c d = Ok (y * years base d).
  Proof.
    intros NN F K H. apply made_rt. apply IZR_lt in K.
    pose proof (linear_right_obeys IZR lawful_Z nan pts l r _ d p (proj1 new_parts) F K NN) as O.
    destruct H as [(-> & ->)|[(-> & ->)|(-> & ->)]]; exact O.
  Qed.
  Lemma made_throw d p : d <> base -> first_point pts p /\ (d < fst p)%Z /\ l = Throw \/ l <> Natural /\ last_point pts p /\ (fst p < d)%Z /\ (r = Throw \/ r = Natural) ->
    exists m, rt nan c d = Err m.
  Proof.
    intros D H. unfold rt. rewrite (made_rate d D). destruct H as [(F & K & L)|(NN & F & K & L)]; apply IZR_lt in K.
    - assert (NN : l <> Natural) by now rewrite L.
      pose proof (linear_left_obeys IZR lawful_Z nan pts l r _ d p (proj1 new_parts) F K NN) as E.
      assert (X : exists m, linear_at nan (mkLinear l r pts) d = Err m) by (rewrite L in E |- *; exact E).
      destruct X as [m X]. rewrite X. now exists m.
    - pose proof (linear_right_obeys IZR lawful_Z nan pts l r _ d p (proj1 new_parts) F K NN) as E.
      assert (X : exists m, linear_at nan (mkLinear l r pts) d = Err m) by (destruct L as [L|L]; rewrite L in E |- *; exact E).
      destruct X as [m X]. rewrite X. now exists m.
  Qed.
End Made.

(** ** Searching does not look at the ordinates *)
Section Map.
  Variable g : Z * R -> Z * R.
  Hypothesis G : forall p, fst (g p) = fst p.
  Variable pts : quotes.

  Lemma loop_map (f : date -> comparison) : forall fuel size b,
    bs_loop (map g pts) (fun p => f (fst p)) fuel size b = bs_loop pts (fun p => f (fst p)) fuel size b.
  Proof.
    induction fuel as [|fuel IH]; intros size b; [reflexivity|]. cbn [bs_loop]. destruct (Nat.leb size 1); [reflexivity|].
    cbv zeta. rewrite nth_error_map. rewrite IH. f_equal. destruct (nth_error pts _) as [p|]; cbn [option_map]; [now rewrite G|reflexivity].
  Qed.
  Lemma search_map (f : date -> comparison) :
    binary_search_by (map g pts) (fun p => f (fst p)) = binary_search_by pts (fun p => f (fst p)).
  Proof.
    unfold binary_search_by. cbv zeta. rewrite map_length, loop_map, nth_error_map.
    destruct (nth_error pts _) as [p|]; cbn [option_map]; [now rewrite G|reflexivity].
  Qed.
  Lemma find_map x : find (map g pts) x = find pts x.
  Proof. rewrite !find_ordered by reflexivity. f_equal. exact (search_map (fun a => interp_cmp (T := R) a x)). Qed.
  Lemma neighbours_map p q : neighbours (map g pts) p q -> exists p' q', neighbours pts p' q' /\ fst p = fst p' /\ fst q = fst q'.
  Proof.
    intros (i & A & B). rewrite nth_error_map in A, B. destruct (nth_error pts i) as [p'|] eqn:E; [|discriminate].
    destruct (nth_error pts (S i)) as [q'|] eqn:E'; [|discriminate]. injection A as <-. injection B as <-.
    exists p', q'. rewrite !G. split; [now exists i|auto].
  Qed.
End Map.

Definition requoted (b : R) (pts : quotes) : quotes := map (fun q => (fst q, snd q + b)) pts.

Lemma requoted_made base pts l r c b : act365_new base pts l r = Ok c ->
  act365_new base (requoted b pts) l r = Ok (RateCurveAct365 base (mkLinear l r (requoted b pts))).
Proof.
  intros E. apply made_iff in E. destruct E as (A & B & _). apply made_iff. split; [now destruct pts|]. split; [|reflexivity].
  intros p q n. destruct (neighbours_map (fun q => (fst q, snd q + b)) (fun _ => eq_refl) pts p q n) as (p' & q' & n' & -> & ->). now apply B.
Qed.

Lemma at_map {A B} (g : A -> B) (l : list A) i : at_ (map g l) i = rmap g (at_ l i).
Proof. unfold at_. rewrite nth_error_map. now destruct (nth_error l i). Qed.

Definition keeps (e : extrap) : Prop := e = Flat \/ e = Natural \/ e = Throw.

Lemma linear_requoted nan l r pts b d : keeps l -> keeps r ->
  linear_at nan (mkLinear l r (requoted b pts)) d = rmap (fun y => y + b) (linear_at nan (mkLinear l r pts) d).
Proof.
  intros L K. unfold linear_at, linear_interpolate_extrapolate. cbn [lin_points lin_left lin_right]. unfold requoted. rewrite map_length.
  rewrite (find_map (fun q => (fst q, snd q + b)) (fun _ => eq_refl)).
  assert (X : forall e y, keeps e -> extrapolate nan e (y + b) = rmap (fun y => y + b) (extrapolate nan e y)).
  { intros e y [->|[->| ->]]; reflexivity. }
  assert (I : forall p q, linear_interpolate (fst p, snd p + b) (fst q, snd q + b) d = rmap (fun y => y + b) (linear_interpolate p q d)).
  { intros p q. unfold linear_interpolate. cbn [fst snd]. destruct (nltb _ _); [reflexivity|]. cbn [rmap bind]. f_equal. unfold lerp. rnum. ring. }
  destruct (Nat.eqb (List.length pts) 0); [reflexivity|].
  destruct (find pts d) as [[i|i]|m|m]; cbn [bind]; [|  |reflexivity..].
  - rewrite at_map. destruct (at_ pts i) as [p|m|m]; reflexivity.
  - destruct (Nat.eqb i 0); [|destruct (Nat.leb (List.length pts) i)]; rewrite !at_map.
    + destruct (at_ pts 0) as [p|m|m]; cbn [rmap bind]; [|reflexivity..]. destruct (is_natural l && _).
      * destruct (at_ pts 1) as [q|m|m]; cbn [rmap bind]; [apply I|reflexivity..].
      * now apply X.
    + destruct (at_ pts (List.length pts - 1)) as [p|m|m]; cbn [rmap bind]; [|reflexivity..]. destruct (is_natural l && _).
      * destruct (at_ pts (List.length pts - 2)) as [q|m|m]; cbn [rmap bind]; [apply I|reflexivity..].
      * now apply X.
    + destruct (at_ pts (i - 1)) as [p|m|m]; cbn [rmap bind]; [|reflexivity..].
      destruct (at_ pts i) as [q|m|m]; cbn [rmap bind]; [apply I|reflexivity..].
Qed.

Lemma bump_requotes nan base pts l r c b d : keeps l -> keeps r -> act365_new base pts l r = Ok c ->
  exists c', act365_new base (map (fun q => (fst q, snd q + b)) pts) l r = Ok c' /\
    rt nan (apply_yield (FlatContinuouslyCompounded b) c) d = rt nan c' d.
Proof.
  intros L K E. pose proof (requoted_made base pts l r c b E) as E'. eexists. split; [exact E'|].
  apply made_iff in E. destruct E as (_ & _ & ->). unfold rt. cbn [apply_yield r_and_t].
  destruct (Z.eqb_spec (d - base) 0) as [Q|Q].
  - cbn [bind]. f_equal. rnum. lra.
  - rewrite linear_requoted by assumption.
    assert (H : forall (x : res R) t, (let* (r, t) := let* (r, t) := let* r := x in Ok (r, t) in Ok (r + b, t) in Ok (r * t)) =
      (let* (r, t) := let* r := rmap (fun y => y + b) x in Ok (r, t) in Ok (r * t))) by (intros [y|m|m] t; reflexivity).
    exact (H (linear_at nan (mkLinear l r pts) d) (IZR (d - base) / IZR 365)).
Qed.

Lemma bump_zero_policy : exists base pts c c' d b, act365_new base pts Zero Zero = Ok c /\
  act365_new base (map (fun q => (fst q, snd q + b)) pts) Zero Zero = Ok c' /\
  forall nan, rt nan (apply_yield (FlatContinuouslyCompounded b) c) d <> rt nan c' d.
Proof.
  exists 0%Z, [(0%Z, 0)], (RateCurveAct365 0%Z (mkLinear Zero Zero [(0%Z, 0)])),
    (RateCurveAct365 0%Z (mkLinear Zero Zero [(0%Z, 0 + 1)])), 365%Z, 1.
  split; [reflexivity|]. split; [reflexivity|]. intros nan.
  assert (A : rt nan (RateCurveAct365 0%Z (mkLinear Zero Zero [(0%Z, 0)])) 365%Z = Ok (0 * years 0%Z 365%Z)).
  { apply (made_right nan 0%Z [(0%Z, 0)] Zero Zero _ eq_refl 365%Z (0%Z, 0) 0); [discriminate|reflexivity|reflexivity|auto]. }
  assert (B : rt nan (RateCurveAct365 0%Z (mkLinear Zero Zero [(0%Z, 0 + 1)])) 365%Z = Ok (0 * years 0%Z 365%Z)).
  { apply (made_right nan 0%Z [(0%Z, 0 + 1)] Zero Zero _ eq_refl 365%Z (0%Z, 0 + 1) 0); [discriminate|reflexivity|reflexivity|auto]. }
  rewrite B, (cc_bump nan 0%Z (RateCurveAct365 0%Z (mkLinear Zero Zero [(0%Z, 0)])) 365%Z 1 _ eq_refl A). intros E. injection E as E. unfold years in E. simpl in E. lra.
Qed.

(** ** Annualised bumps *)
Definition growing : quotes := [(0%Z, 0); (730%Z, ln 3)].

Lemma growing_new (pts : quotes) x y : pts = [(0%Z, x); (730%Z, y)] ->
  act365_new 0%Z pts Flat Flat = Ok (RateCurveAct365 0%Z (mkLinear Flat Flat pts)).
Proof.
  intros ->. apply made_iff. split; [discriminate|]. split; [|reflexivity].
  intros p q (i & A & B). destruct i as [|[|i]]; cbn in A, B; [|discriminate..|now destruct i]. injection A as <-. injection B as <-. reflexivity.
Qed.
Lemma growing_mid nan x y : rt nan (RateCurveAct365 0%Z (mkLinear Flat Flat [(0%Z, x); (730%Z, y)])) 365%Z = Ok ((x + y) / 2).
Proof.
  rewrite (made_between nan 0%Z _ Flat Flat _ (growing_new _ x y eq_refl) 365%Z (0%Z, x) (730%Z, y)).
  - cbn [fst snd]. unfold years. simpl. f_equal. lra.
  - exists 0%nat. auto.
  - cbn. lia.
Qed.

Lemma annualised_requotes_at nan base pts l r c b d y : act365_new base pts l r = Ok c -> In (d, y) pts ->
  rt nan (apply_yield (FlatAnnualised b) c) d = Ok (ln (exp y + b) * years base d).
Proof.
  intros E I. apply made_iff in E as H. destruct H as (_ & _ & Ec). destruct (Z.eq_dec d base) as [->|D].
  - unfold rt. cbn [apply_yield r_and_t]. rewrite (made_base nan base pts l r c E). cbn [bind]. f_equal. unfold years. rewrite Z.sub_diag. rnum. lra.
  - unfold rt. cbn [apply_yield r_and_t]. rewrite (proj1 (made_quoted nan base pts l r c E d y I) D). reflexivity.
Qed.

Lemma annualised_not_requoted : exists base pts c c' d b,
  act365_new base pts Flat Flat = Ok c /\ act365_new base (map (fun q => (fst q, ln (exp (snd q) + b))) pts) Flat Flat = Ok c' /\
  forall nan, rt nan (apply_yield (FlatAnnualised b) c) d <> rt nan c' d.
Proof.
  exists 0%Z, growing, (RateCurveAct365 0%Z (mkLinear Flat Flat growing)),
    (RateCurveAct365 0%Z (mkLinear Flat Flat [(0%Z, ln (exp 0 + 1)); (730%Z, ln (exp (ln 3) + 1))])), 365%Z, 1.
  split; [now apply (growing_new _ 0 (ln 3))|]. split; [now apply (growing_new _ (ln (exp 0 + 1)) (ln (exp (ln 3) + 1)))|].
  intros nan. rewrite growing_mid, exp_0, exp_ln by lra.
  assert (A : rt nan (RateCurveAct365 0%Z (mkLinear Flat Flat growing)) 365%Z = Ok ((0 + ln 3) / 2)) by apply growing_mid.
  assert (Y : years 0%Z 365%Z = 1) by (unfold years; simpl; lra).
  assert (P : 0 < exp ((0 + ln 3) / 2 / years 0%Z 365%Z) + 1) by (pose proof (exp_pos ((0 + ln 3) / 2 / years 0%Z 365%Z)); lra).
  destruct (annualised_bump nan 0%Z (RateCurveAct365 0%Z (mkLinear Flat Flat growing)) 365%Z 1 _ eq_refl A ltac:(discriminate) P) as (z & -> & Z).
  intros E. injection E as E. subst z. rewrite Y in Z.
  replace (1 + 1) with 2 in Z by lra. replace (3 + 1) with (2 * 2) in Z by lra. rewrite ln_mult in Z by lra.
  replace ((ln 2 + (ln 2 + ln 2)) / 2 / 1) with (ln 2 + / 2 * ln 2) in Z by lra.
  replace ((0 + ln 3) / 2 / 1) with (/ 2 * ln 3) in Z by lra.
  rewrite exp_plus, exp_ln in Z by lra. set (u := exp (/ 2 * ln 2)) in *. set (v := exp (/ 2 * ln 3)) in *.
  assert (U : u * u = 2) by (unfold u; rewrite <- exp_plus; replace (/ 2 * ln 2 + / 2 * ln 2) with (ln 2) by lra; apply exp_ln; lra).
  assert (V : v * v = 3) by (unfold v; rewrite <- exp_plus; replace (/ 2 * ln 3 + / 2 * ln 3) with (ln 3) by lra; apply exp_ln; lra).
  assert (W : (2 * u) * (2 * u) = (v + 1) * (v + 1)) by now rewrite Z.
  assert (0 < v) by apply exp_pos. nra.
Qed.

Lemma made_when base (pts : quotes) l r :
  ((exists c, act365_new base pts l r = Ok c) <-> pts <> [] /\ forall p q, neighbours pts p q -> (fst p < fst q)%Z) /\
  (forall c, act365_new base pts l r = Ok c -> base_date c = base).
Proof.
  split; [split|].
  - intros [c E]. apply made_iff in E. tauto.
  - intros [A B]. eexists. apply made_iff. auto.
  - intros c E. apply made_iff in E. destruct E as (_ & _ & ->). reflexivity.
Qed.

Lemma made_when_example : (exists c, act365_new 0%Z [(0%Z, 1 / 100); (365%Z, 2 / 100)] Flat Flat = Ok c) /\
  ~ exists c, act365_new 0%Z [(365%Z, 1 / 100); (365%Z, 2 / 100)] Flat Flat = Ok c.
Proof.
  split.
  - apply made_when. split; [discriminate|]. intros p q (i & A & B). destruct i as [|[|[|i]]]; cbn in A, B; try discriminate.
    injection A as <-. injection B as <-. reflexivity.
  - intros H. apply made_when in H. destruct H as [_ H]. specialize (H _ _ (ex_intro _ 0%nat (conj eq_refl eq_refl))). cbn in H. lia.
Qed.

Lemma made_before nan base (pts : quotes) l r c : act365_new base pts l r = Ok c ->
  forall d p, first_point pts p -> (d < fst p)%Z ->
    (l = Flat -> rt nan c d = Ok (snd p * years base d)) /\ (l = Zero -> rt nan c d = Ok 0) /\
    (l = NotANumber -> rt nan c d = Ok (nan * years base d)) /\ (l = Throw -> d <> base -> exists m, rt nan c d = Err m).
Proof.
  intros E d p F K. split; [|split; [|split]].
  - intros L. apply (made_left nan base pts l r c E d p _ F K). auto.
  - intros L. rewrite (made_left nan base pts l r c E d p 0 F K); auto. f_equal. lra.
  - intros L. apply (made_left nan base pts l r c E d p _ F K). auto.
  - intros L D. apply (made_throw nan base pts l r c E d p D). auto.
Qed.
Lemma made_after nan base (pts : quotes) l r c : act365_new base pts l r = Ok c ->
  forall d p, l <> Natural -> last_point pts p -> (fst p < d)%Z ->
    (r = Flat -> rt nan c d = Ok (snd p * years base d)) /\ (r = Zero -> rt nan c d = Ok 0) /\
    (r = NotANumber -> rt nan c d = Ok (nan * years base d)) /\ (r = Throw -> d <> base -> exists m, rt nan c d = Err m).
Proof.
  intros E d p N F K. split; [|split; [|split]].
  - intros L. apply (made_right nan base pts l r c E d p _ N F K). auto.
  - intros L. rewrite (made_right nan base pts l r c E d p 0 N F K); auto. f_equal. lra.
  - intros L. apply (made_right nan base pts l r c E d p _ N F K). auto.
  - intros L D. apply (made_throw nan base pts l r c E d p D). auto 6.
Qed.

Lemma made_example : exists c, act365_new 0%Z [(0%Z, 1 / 100); (730%Z, 3 / 100)] Flat Zero = Ok c /\
  rt 0 c 365%Z = Ok (2 / 100) /\ rt 0 c 730%Z = Ok (6 / 100) /\ rt 0 c 1000%Z = Ok 0 /\ rt 0 c (-365)%Z = Ok (- (1 / 100)).
Proof.
  assert (N : exists c, act365_new 0%Z [(0%Z, 1 / 100); (730%Z, 3 / 100)] Flat Zero = Ok c).
  { apply made_when. split; [discriminate|]. intros p q (i & A & B). destruct i as [|[|[|i]]]; cbn in A, B; try discriminate.
    injection A as <-. injection B as <-. reflexivity. }
  destruct N as [c E]. exists c. split; [exact E|].
  pose proof (made_quoted 0 0%Z _ _ _ c E 730%Z (3 / 100) (or_intror (or_introl eq_refl))) as (_ & Q & _).
  pose proof (made_between 0 0%Z _ _ _ c E 365%Z _ _ (ex_intro _ 0%nat (conj eq_refl eq_refl)) ltac:(cbn; lia)) as B.
  pose proof (made_after 0 0%Z _ _ _ c E 1000%Z (730%Z, 3 / 100) ltac:(discriminate) eq_refl eq_refl) as (_ & A & _).
  pose proof (made_before 0 0%Z _ _ _ c E (-365)%Z (0%Z, 1 / 100) eq_refl eq_refl) as (F & _).
  specialize (F eq_refl). specialize (A eq_refl). rewrite B, Q, A, F. cbn [fst snd]. unfold years. simpl. repeat split; f_equal; lra.
Qed.
