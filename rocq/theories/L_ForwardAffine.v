(** The forward of a share is an affine function of its spot, whatever the dividends. *)
From Coq Require Import ZArith List String Bool Lia Reals Lra.
From Verif Require Import Prelude Num L_Num M_Dates M_Calendar M_Search M_Interp M_Curves M_Forward.
Import ListNotations.
Open Scope list_scope.
Open Scope R_scope.

Section Affine.
  Variables (nan l : R).
  Notation mix a b := (l * a + (1 - l) * b).

  (** Three lists of sums on the same dates, those of the third between those of the first two. *)
  Inductive mixed : list (accumulation R) -> list (accumulation R) -> list (accumulation R) -> Prop :=
  | mixed_nil : mixed [] [] []
  | mixed_cons a b c la lb lc : acc_ex_date b = acc_ex_date a -> acc_ex_date c = acc_ex_date a ->
      acc_discounted c = mix (acc_discounted a) (acc_discounted b) -> mixed la lb lc -> mixed (a :: la) (b :: lb) (c :: lc).

  Lemma mixed_app la lb lc ma mb mc : mixed la lb lc -> mixed ma mb mc -> mixed (la ++ ma) (lb ++ mb) (lc ++ mc).
  Proof. intros H M. induction H; cbn [app]; [exact M|]. now constructor. Qed.

  Record mixed_states (a b c : boot_state R) : Prop := {
    ms_prev : bs_prev b = bs_prev a /\ bs_prev c = bs_prev a;
    ms_disc : bs_disc c = mix (bs_disc a) (bs_disc b);
    ms_prev_disc : bs_prev_disc c = mix (bs_prev_disc a) (bs_prev_disc b);
    ms_acc : mixed (bs_acc a) (bs_acc b) (bs_acc c)
  }.

  Lemma add_mixed rate borrow q x y d a b c a' b' c' : mixed_states a b c ->
    boot_add nan rate borrow q x a d = Ok a' -> boot_add nan rate borrow q y b d = Ok b' -> boot_add nan rate borrow q (mix x y) c d = Ok c' ->
    mixed_states a' b' c'.
  Proof.
    intros [[P P'] D V A] Ea Eb Ec. unfold boot_add in *.
    destruct (discount_with_borrow nan rate borrow q (pay_date d)) as [v|m|m]; cbn [bind] in *; try discriminate.
    destruct (negb (neqb (relative d) n0)).
    - destruct (discount_with_borrow nan rate borrow q (ex_date d)) as [g|m|m]; cbn [bind] in *; try discriminate.
      injection Ea as <-. injection Eb as <-. injection Ec as <-.
      constructor; cbn [bs_prev bs_disc bs_prev_disc bs_acc]; auto. rewrite D, V. rnum. ring.
    - injection Ea as <-. injection Eb as <-. injection Ec as <-.
      constructor; cbn [bs_prev bs_disc bs_prev_disc bs_acc]; auto. rewrite D. rnum. ring.
  Qed.

  Lemma loop_mixed rate borrow q x y base upto divs : forall a b c a' b' c', mixed_states a b c ->
    boot_loop nan rate borrow q x base upto divs a = Ok a' -> boot_loop nan rate borrow q y base upto divs b = Ok b' ->
    boot_loop nan rate borrow q (mix x y) base upto divs c = Ok c' -> mixed_states a' b' c'.
  Proof.
    induction divs as [|d rest IH]; intros a b c a' b' c' S Ea Eb Ec; cbn [boot_loop] in *.
    - injection Ea as <-. injection Eb as <-. now injection Ec as <-.
    - destruct (ex_date d <? base)%Z; [now apply (IH a b c)|].
      destruct (ms_prev _ _ _ S) as [P P']. rewrite P in Eb. rewrite P' in Ec.
      destruct (ex_date d <? bs_prev a)%Z; [discriminate|].
      destruct (upto <? ex_date d)%Z; [injection Ea as <-; injection Eb as <-; now injection Ec as <-|].
      inv_bind Ea. inv_bind Eb. inv_bind Ec. eapply IH; [|eassumption..]. eapply add_mixed; [|eassumption..].
      destruct (bs_prev a <? ex_date d)%Z; [|exact S]. destruct S as [_ D V A].
      constructor; cbn [bs_prev bs_disc bs_prev_disc bs_acc]; auto. apply mixed_app; [exact A|].
      repeat constructor; cbn [close_acc acc_ex_date acc_discounted]; auto.
  Qed.

  Lemma mixed_map (f g h : accumulation R -> accumulation R) la lb lc :
    (forall a, acc_ex_date (f a) = acc_ex_date a /\ acc_discounted (f a) = acc_discounted a) ->
    (forall a, acc_ex_date (g a) = acc_ex_date a /\ acc_discounted (g a) = acc_discounted a) ->
    (forall a, acc_ex_date (h a) = acc_ex_date a /\ acc_discounted (h a) = acc_discounted a) ->
    mixed la lb lc -> mixed (map f la) (map g lb) (map h lc).
  Proof.
    intros F G H M. induction M as [|a b c la lb lc D D' E M IH]; cbn [map]; constructor; auto.
    - now rewrite (proj1 (F a)), (proj1 (G b)).
    - now rewrite (proj1 (F a)), (proj1 (H c)).
    - now rewrite (proj2 (F a)), (proj2 (G b)), (proj2 (H c)).
  Qed.
  Lemma fill_keeps (la : list (accumulation R)) : exists f, fill_remaining la = map f la /\
    forall a, acc_ex_date (f a) = acc_ex_date a /\ acc_discounted (f a) = acc_discounted a.
  Proof.
    unfold fill_remaining. destruct (rev la) as [|final rest].
    - exists (fun a => a). split; [symmetry; apply map_id|auto].
    - eexists. split; [reflexivity|]. intros a. cbn [acc_ex_date acc_discounted]. auto.
  Qed.

  Lemma boot_mixed divs rate borrow x y base hwm a b c : bootstrap_new nan divs rate borrow x base hwm = Ok a ->
    bootstrap_new nan divs rate borrow y base hwm = Ok b -> bootstrap_new nan divs rate borrow (mix x y) base hwm = Ok c ->
    boot_hwm b = boot_hwm a /\ boot_hwm c = boot_hwm a /\ mixed (boot_acc a) (boot_acc b) (boot_acc c).
  Proof.
    unfold bootstrap_new. intros Ea Eb Ec. destruct (rev (dividends divs)) as [|final rest].
    - injection Ea as <-. injection Eb as <-. injection Ec as <-. cbn. repeat split. constructor.
    - destruct (negb (is_zero (div_yield divs)) && (base_date (div_yield divs) <? ex_date final)%Z); [discriminate|].
      destruct (log_discount_with_borrow nan rate borrow base) as [q|m|m]; cbn [bind] in *; try discriminate.
      inv_bind Ea. inv_bind Eb. inv_bind Ec. injection Ea as <-. injection Eb as <-. injection Ec as <-. cbn [boot_hwm boot_acc].
      split; [reflexivity|]. split; [reflexivity|].
      match goal with A : boot_loop _ _ _ _ x _ _ _ _ = Ok ?sa, B : boot_loop _ _ _ _ y _ _ _ _ = Ok ?sb, C : boot_loop _ _ _ _ (mix x y) _ _ _ _ = Ok ?sc |- _ =>
        assert (S : mixed_states sa sb sc) end.
      { eapply loop_mixed; [|eassumption..]. constructor; cbn; auto; [rnum; ring|rnum; ring|constructor]. }
      destruct S as [[P P'] D V A]. rewrite P, P'.
      match goal with |- mixed (fill_remaining ?la) (fill_remaining ?lb) (fill_remaining ?lc) =>
        destruct (fill_keeps la) as (f & -> & F); destruct (fill_keeps lb) as (g & -> & G); destruct (fill_keeps lc) as (h & -> & H);
        apply mixed_map; auto end.
      match goal with |- mixed (if ?t then _ else _) _ _ => destruct t; [|exact A] end.
      apply mixed_app; [exact A|]. repeat constructor; cbn [close_acc acc_ex_date acc_discounted]; auto.
  Qed.

  Lemma mixed_nth la lb lc : mixed la lb lc -> forall i,
    match nth_error la i, nth_error lb i, nth_error lc i with
    | Some a, Some b, Some c => acc_ex_date b = acc_ex_date a /\ acc_ex_date c = acc_ex_date a /\ acc_discounted c = mix (acc_discounted a) (acc_discounted b)
    | None, None, None => True | _, _, _ => False end.
  Proof. intros M. induction M as [|a b c la lb lc D D' E M IH]; intros [|i]; cbn [nth_error]; auto. apply IH. Qed.
  Lemma mixed_length la lb lc : mixed la lb lc -> List.length lb = List.length la /\ List.length lc = List.length la.
  Proof. intros M. induction M; cbn [List.length]; [auto|]. lia. Qed.

  Lemma same_loop {A} (f : A -> comparison) (la lb : list A) :
    (forall i, option_map f (nth_error la i) = option_map f (nth_error lb i)) ->
    forall fuel size b, bs_loop la f fuel size b = bs_loop lb f fuel size b.
  Proof.
    intros H. induction fuel as [|k IH]; intros size b; [reflexivity|]. cbn [bs_loop]. destruct (Nat.leb size 1); [reflexivity|].
    cbv zeta. specialize (H (b + Nat.div2 size)%nat). destruct (nth_error la _), (nth_error lb _); cbn [option_map] in H; try discriminate; [|apply IH].
    injection H as ->. apply IH.
  Qed.
  Lemma same_search {A} (f : A -> comparison) (la lb : list A) : List.length la = List.length lb ->
    (forall i, option_map f (nth_error la i) = option_map f (nth_error lb i)) -> binary_search_by la f = binary_search_by lb f.
  Proof.
    intros L H. unfold binary_search_by. cbv zeta. rewrite L, (same_loop f la lb H). specialize (H (bs_loop lb f (List.length lb) (List.length lb) 0)).
    destruct (nth_error la _), (nth_error lb _); cbn [option_map] in H; try discriminate; [|reflexivity]. now injection H as ->.
  Qed.

  Lemma sum_mixed (a b c : bootstrap R) d u v w : boot_hwm b = boot_hwm a -> boot_hwm c = boot_hwm a -> mixed (boot_acc a) (boot_acc b) (boot_acc c) ->
    discounted_sum_from_base a d = Ok u -> discounted_sum_from_base b d = Ok v -> discounted_sum_from_base c d = Ok w -> w = mix u v.
  Proof.
    intros H H' M. unfold discounted_sum_from_base, sum_at. rewrite H, H'. destruct (boot_hwm a <? d)%Z; [discriminate|].
    destruct (mixed_length _ _ _ M) as [L L'].
    rewrite (same_search _ (boot_acc b) (boot_acc a) L), (same_search _ (boot_acc c) (boot_acc a) L').
    2: { intros i. pose proof (mixed_nth _ _ _ M i) as X. destruct (nth_error (boot_acc a) i), (nth_error (boot_acc b) i), (nth_error (boot_acc c) i); cbn [option_map]; try easy.
      destruct X as (_ & -> & _). reflexivity. }
    2: { intros i. pose proof (mixed_nth _ _ _ M i) as X. destruct (nth_error (boot_acc a) i), (nth_error (boot_acc b) i), (nth_error (boot_acc c) i); cbn [option_map]; try easy.
      destruct X as (-> & _ & _). reflexivity. }
    assert (AT : forall i, (let* p := at_ (boot_acc a) i in Ok (acc_discounted p)) = Ok u -> (let* p := at_ (boot_acc b) i in Ok (acc_discounted p)) = Ok v ->
      (let* p := at_ (boot_acc c) i in Ok (acc_discounted p)) = Ok w -> w = mix u v).
    { intros i. unfold at_. pose proof (mixed_nth _ _ _ M i) as X.
      destruct (nth_error (boot_acc a) i), (nth_error (boot_acc b) i), (nth_error (boot_acc c) i); cbn [bind]; try easy.
      destruct X as (_ & _ & X). intros Ea Eb Ec. injection Ea as <-. injection Eb as <-. injection Ec as <-. exact X. }
    destruct (binary_search_by (boot_acc a) _) as [i|i]; [apply AT|]. destruct (Nat.eqb i 0); [|apply AT].
    intros Ea Eb Ec. injection Ea as <-. injection Eb as <-. injection Ec as <-. rnum. ring.
  Qed.

  Lemma forward_mixed base x y settlement rate borrow divs hwm f g k d u v w :
    equity_forward_new nan base x settlement rate borrow divs hwm = Ok f -> equity_forward_new nan base y settlement rate borrow divs hwm = Ok g ->
    equity_forward_new nan base (mix x y) settlement rate borrow divs hwm = Ok k ->
    forward_at nan f d = Ok u -> forward_at nan g d = Ok v -> forward_at nan k d = Ok w -> w = mix u v.
  Proof.
    unfold equity_forward_new. intros Ef Eg Ek.
    destruct (log_discount_with_borrow nan rate borrow base) as [q|m|m]; cbn [bind] in *; try discriminate.
    destruct (apply_rule settlement base) as [sd|m|m]; cbn [bind] in *; try discriminate.
    destruct (discount_with_borrow nan rate borrow q sd) as [x0|m|m]; cbn [bind] in *; try discriminate.
    inv_bind Ef. inv_bind Eg. inv_bind Ek. injection Ef as <-. injection Eg as <-. injection Ek as <-.
    match goal with A : bootstrap_new _ _ _ _ (nmul x x0) _ _ = Ok ?a, B : bootstrap_new _ _ _ _ (nmul y x0) _ _ = Ok ?b, C : bootstrap_new _ _ _ _ _ _ _ = Ok ?c |- _ =>
      lazymatch c with a => fail | b => fail | _ => 
      assert (S : boot_hwm b = boot_hwm a /\ boot_hwm c = boot_hwm a /\ mixed (boot_acc a) (boot_acc b) (boot_acc c)) end end.
    { eapply boot_mixed; [eassumption|eassumption|].
      match goal with C : bootstrap_new _ _ _ _ (nmul (_ + _) _) _ _ = _ |- _ => rewrite <- C end. f_equal. rnum. ring. }
    destruct S as (H & H' & M). cbn [forward_at]. intros Eu Ev Ew.
    match type of Eu with context [discounted_sum_from_base ?b d] => destruct (discounted_sum_from_base b d) as [da|m|m] eqn:Da; cbn [bind] in Eu; try discriminate end.
    match type of Ev with context [discounted_sum_from_base ?b d] => destruct (discounted_sum_from_base b d) as [db|m|m] eqn:Db; cbn [bind] in Ev; try discriminate end.
    match type of Ew with context [discounted_sum_from_base ?b d] => destruct (discounted_sum_from_base b d) as [dc|m|m] eqn:Dc; cbn [bind] in Ew; try discriminate end.
    destruct (apply_rule settlement d) as [pay|m|m]; cbn [bind] in *; try discriminate.
    destruct (log_discount_with_borrow nan rate borrow pay) as [ld|m|m]; cbn [bind] in *; try discriminate.
    destruct (rt nan (div_yield divs) pay) as [yl|m|m]; cbn [bind] in *; try discriminate.
    injection Eu as <-. injection Ev as <-. injection Ew as <-. rewrite (sum_mixed _ _ _ d da db dc H H' M Da Db Dc). rnum. ring.
  Qed.
End Affine.
