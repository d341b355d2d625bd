(** A worked market: concrete cases and counterexamples for curves, dividends and forwards. *)
From Coq Require Import ZArith List String Bool Lia Reals Lra.
From Coq Require Import ZifyBool.
From Verif Require Import Prelude Num L_Num M_Dates M_Search M_Calendar M_Interp M_Curves M_Fixings M_Forward S_Data L_Interp L_Curves L_Forward L_ForwardTop.
Import ListNotations.
Open Scope list_scope.
Open Scope R_scope.

(** 5% flat, days 100 to 200. *)
Lemma flat_r nan d : (d <> 100)%Z -> r_and_t nan flat_curve d = Ok (/ 20, years 100%Z d).
Proof.
  intros N. unfold flat_curve. cbn [r_and_t]. destruct (Z.eqb_spec (d - 100) 0); [lia|].
  match goal with |- bind ?e _ = _ => assert (L : e = Ok (/ 20)) end.
  { unfold linear_at, linear_interpolate_extrapolate. rewrite find_date. unfold binary_search_by.
    cbn [bind lin_points lin_left lin_right List.length Nat.eqb bs_loop Nat.leb Nat.div2 Nat.add nth_error interp_cmp interpolable_Z fst Nat.sub].
    destruct (Z.compare_spec 200 d); cbn [Nat.leb nth_error fst snd];
      [subst; rewrite ?Z.compare_refl; reflexivity| |].
    - rewrite (proj2 (Z.compare_lt_iff 200 d)) by lia. reflexivity.
    - destruct (Z.compare_spec 100 d); [lia| |reflexivity]. cbn. unfold linear_interpolate.
      unfold eps12, nlit. cbn [interp_diff interpolable_Z fst snd]. rnum. destruct (Rltb_spec (Rabs (IZR (200 - 100))) (1 / IZR 1000000000000)) as [F|F].
      + exfalso. rewrite Rabs_right in F by (cbn; lra). cbn in F. lra.
      + unfold lerp. rnum. f_equal. ring. }
  rewrite L. reflexivity.
Qed.

Lemma flat_rt nan d : rt nan flat_curve d = Ok (/ 20 * years 100%Z d).
Proof.
  unfold rt. destruct (Z.eq_dec d 100) as [->|N].
  - cbn. f_equal. unfold years. cbn. rnum. lra.
  - now rewrite flat_r.
Qed.

Definition no_borrow : curve R := ZeroRateCurve 100%Z.
Definition flat_disc (d : date) : R := exp (- (/ 20 * years 100%Z d)).

Lemma flat_log nan d : log_discount_with_borrow nan flat_curve no_borrow d = Ok (0 - / 20 * years 100%Z d).
Proof. unfold log_discount_with_borrow. rewrite flat_rt. cbn. f_equal. rnum. lra. Qed.

Lemma flat_discounts nan d : discounts nan flat_curve no_borrow 100%Z d (flat_disc d).
Proof.
  exists (0 - / 20 * years 100%Z 100%Z). split; [apply flat_log|]. unfold discount_with_borrow. rewrite flat_log. cbn [bind].
  f_equal. unfold flat_disc. rnum. f_equal. unfold years. cbn. lra.
Qed.

(** Two in cash with ex day 110 and a tenth of the forward with ex day 120. *)
Definition cash_div : dividend R := mkDiv 2 0 110%Z 115%Z.
Definition relative_div : dividend R := mkDiv 0 (/ 10) 120%Z 125%Z.
Definition two_divs : div_stream R := mkStream [cash_div; relative_div] (ZeroRateCurve 100%Z) 110%Z.

Lemma two_divs_new : stream_new [cash_div; relative_div] (ZeroRateCurve 100%Z) = two_divs.
Proof.
  unfold stream_new, two_divs. f_equal. cbn [fold_left cash cash_div relative_div ex_date]. rnum.
  destruct (Reqb_spec 2 0); [lra|]. destruct (Reqb_spec 0 0); [reflexivity|lra].
Qed.

Lemma flat_priced nan s spot : ex_ordered (dividends s) -> yield_apart s ->
  exists l, priced_dividends nan s flat_curve no_borrow spot 100%Z flat_disc l.
Proof.
  intros O Y. destruct (valued_exists spot flat_disc 100%Z (dividends s) O) as (l & M & V). exists l. split; auto.
  destruct (flat_discounts nan 100%Z) as (q & Q & _). exists q. split; [exact Q|]. intros d I L.
  destruct (flat_discounts nan (pay_date d)) as (q1 & Q1 & A). destruct (flat_discounts nan (ex_date d)) as (q2 & Q2 & B).
  rewrite Q in Q1, Q2. inversion Q1; inversion Q2; subst. auto.
Qed.

Lemma two_divs_priced nan spot : exists l, priced_dividends nan two_divs flat_curve no_borrow spot 100%Z flat_disc l.
Proof. apply flat_priced; [cbn; intuition (subst; cbn; lia)|now left]. Qed.

Lemma two_divs_facts : none_on 100%Z two_divs /\ one_within 100%Z (reach two_divs 150%Z) two_divs /\ reach two_divs 150%Z = 150%Z.
Proof.
  split; [|split; [|reflexivity]].
  - intros d [<-|[<-|[]]]; cbn; lia.
  - exists cash_div. cbn. split; [auto|lia].
Qed.

(** A dividend on the base date counts only if there is a later one. *)
Definition today_div : dividend R := mkDiv 2 0 100%Z 105%Z.
Definition today_alone : div_stream R := mkStream [today_div] (ZeroRateCurve 100%Z) 100%Z.
Definition today_and_later : div_stream R := mkStream [today_div; cash_div] (ZeroRateCurve 100%Z) 110%Z.

Lemma today_alone_zero nan spot b : bootstrap_new nan today_alone flat_curve no_borrow spot 100%Z 150%Z = Ok b ->
  undiscounted_sum_from_base b 100%Z = Ok 0.
Proof.
  intros B. destruct (flat_priced nan today_alone spot) as (l & P); [cbn; intuition|now left|].
  apply (sums_no_later nan today_alone flat_curve no_borrow spot 100%Z 150%Z flat_disc l P b B); [|cbn; lia].
  intros (d & [<-|[]] & L). cbn in L. lia.
Qed.

Lemma today_and_later_two nan spot b : bootstrap_new nan today_and_later flat_curve no_borrow spot 100%Z 150%Z = Ok b ->
  undiscounted_sum_from_base b 100%Z = Ok 2.
Proof.
  intros B. destruct (flat_priced nan today_and_later spot) as (l & P); [cbn; intuition (subst; cbn; lia)|now left|].
  destruct (sums_later nan today_and_later flat_curve no_borrow spot 100%Z 150%Z flat_disc l P b B 100%Z) as (-> & _).
  - exists cash_div. cbn. split; [auto|lia].
  - cbn. lia.
  - f_equal. destruct P as [_ _ _ M V]. destruct l as [|(d1, a1) [|(d2, a2) [|]]]; cbn in M; inversion M; subst.
    cbn [total today_div cash_div ex_date from_upto Z.leb andb Z.compare Pos.compare Pos.compare_cont amount].
    rewrite (V today_div a1 (or_introl eq_refl)) by (cbn; lia). cbn [cash relative today_div]. unfold amount. ring.
Qed.

Lemma today_witness nan spot : exists b b',
  bootstrap_new nan today_alone flat_curve no_borrow spot 100%Z 150%Z = Ok b /\
  bootstrap_new nan today_and_later flat_curve no_borrow spot 100%Z 150%Z = Ok b' /\
  undiscounted_sum_from_base b 100%Z = Ok 0 /\ undiscounted_sum_from_base b' 100%Z = Ok 2.
Proof.
  destruct (flat_priced nan today_alone spot) as (l & P); [cbn; intuition|now left|].
  destruct (flat_priced nan today_and_later spot) as (l' & P'); [cbn; intuition (subst; cbn; lia)|now left|].
  destruct (bootstrap_total nan _ flat_curve no_borrow spot 100%Z 150%Z flat_disc l P) as (b & B).
  destruct (bootstrap_total nan _ flat_curve no_borrow spot 100%Z 150%Z flat_disc l' P') as (b' & B').
  exists b, b'. split; [exact B|]. split; [exact B'|]. split; [eapply today_alone_zero|eapply today_and_later_two]; eassumption.
Qed.

(** Bumping dividends with a zero yield. *)
Lemma bump_breaks nan spot bump : (exists b, bootstrap_new nan two_divs flat_curve no_borrow spot 100%Z 150%Z = Ok b) /\
  (exists m, bootstrap_new nan (apply_divs (BumpAllRelative bump) two_divs) flat_curve no_borrow spot 100%Z 150%Z = Err m).
Proof.
  split.
  - destruct (two_divs_priced nan spot) as (l & P). exact (bootstrap_total nan _ _ _ spot 100%Z 150%Z flat_disc l P).
  - eexists. apply (bump_overlaps nan two_divs bump flat_curve no_borrow spot 100%Z 150%Z [cash_div] relative_div); [reflexivity|cbn; lia].
Qed.

(** A dividend yield raises the forward. *)
Lemma yield_raises nan spot : 0 < spot -> exists f f' v v',
  equity_forward_new nan 100%Z spot NullRule flat_curve no_borrow (stream_new [] (ZeroRateCurve 100%Z)) 500%Z = Ok f /\
  equity_forward_new nan 100%Z spot NullRule flat_curve no_borrow (stream_new [] flat_curve) 500%Z = Ok f' /\
  forward_at nan f 465%Z = Ok v /\ forward_at nan f' 465%Z = Ok v' /\ v < v'.
Proof.
  intros S. assert (P : forall y, priced_dividends nan (stream_new [] y) flat_curve no_borrow (spot * flat_disc 100%Z) 100%Z flat_disc []).
  { intros y. split; cbn; auto.
    - destruct (flat_discounts nan 100%Z) as (q & Q & _). exists q. split; [exact Q|]. intros d [].
    - right. intros d [].
    - intros d a []. }
  assert (X0 := flat_discounts nan 100%Z). assert (S0 : apply_rule (@NullRule R) 100%Z = Ok 100%Z) by reflexivity.
  destruct (forward_exists nan 100%Z spot NullRule flat_curve no_borrow _ 500%Z 100%Z _ flat_disc [] S0 X0 (P (ZeroRateCurve 100%Z))) as (f & F).
  destruct (forward_exists nan 100%Z spot NullRule flat_curve no_borrow _ 500%Z 100%Z _ flat_disc [] S0 X0 (P flat_curve)) as (f' & F').
  assert (V : forall y f w, equity_forward_new nan 100%Z spot NullRule flat_curve no_borrow (stream_new [] y) 500%Z = Ok f ->
            rt nan y 465%Z = Ok w ->
            forward_at nan f 465%Z = Ok ((spot * flat_disc 100%Z - 0) / flat_disc 465%Z * exp w)).
  { intros y g w G W. apply (forward_value nan 100%Z spot NullRule flat_curve no_borrow (stream_new [] y) 500%Z 100%Z (flat_disc 100%Z) flat_disc [] S0 X0 (P y) g G 465%Z 465%Z (flat_disc 465%Z) w); auto.
    - intros d [].
    - cbn. lia.
    - apply flat_discounts. }
  assert (Z0 : rt nan (ZeroRateCurve 100%Z) 465%Z = Ok 0) by (cbn; f_equal; rnum; ring).
  pose proof (V _ _ _ F Z0) as V0. pose proof (V _ _ _ F' (flat_rt nan 465%Z)) as V1.
  eexists f, f', _, _. split; [exact F|]. split; [exact F'|]. split; [exact V0|]. split; [exact V1|].
  apply Rmult_lt_compat_l.
  - apply Rdiv_lt_0_compat; [|apply exp_pos]. rewrite Rminus_0_r. apply Rmult_lt_0_compat; [exact S|apply exp_pos].
  - apply exp_increasing. unfold years. cbn. lra.
Qed.

(** The documented discount factor is not the one returned. *)
Lemma df_not_documented nan : exists u v x, rt nan flat_curve 100%Z = Ok u /\ rt nan flat_curve 465%Z = Ok v /\
  df nan flat_curve 100%Z 465%Z = Ok x /\ documented_df u v < 1 < x.
Proof.
  exists (/ 20 * years 100%Z 100%Z), (/ 20 * years 100%Z 465%Z). eexists.
  split; [apply flat_rt|]. split; [apply flat_rt|]. split; [apply df_of_rt; apply flat_rt|].
  unfold documented_df. assert (A : / 20 * years 100%Z 100%Z = 0) by (unfold years; cbn; lra).
  assert (B : / 20 * years 100%Z 465%Z = / 20) by (unfold years; cbn; lra). rewrite A, B. split.
  - rewrite Ropp_0, exp_0. replace (exp (- / 20) / 1) with (exp (- / 20)) by field. rewrite <- exp_0. apply exp_increasing. lra.
  - rewrite <- exp_0. apply exp_increasing. lra.
Qed.

(** A relative bump of zero. *)
Lemma relative_zero nan : exists x, rt nan flat_curve 465%Z = Ok x /\ x <> 0 /\ rt nan (relative_bump_new flat_curve 0) 465%Z = Ok 0.
Proof.
  exists (/ 20 * years 100%Z 465%Z). split; [apply flat_rt|]. split; [unfold years; cbn; lra|].
  rewrite (relative_bump nan flat_curve 0 465%Z _ (flat_rt nan 465%Z)). f_equal. ring.
Qed.
