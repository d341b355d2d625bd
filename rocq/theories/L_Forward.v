From Coq Require Import ZArith List String Bool Lia Reals Lra.
From Coq Require Import ZifyBool.
From Verif Require Import Prelude Num L_Num M_Dates M_Search L_Search M_Calendar M_Interp M_Curves M_Forward S_Data L_Curves.
Import ListNotations.
Open Scope list_scope.

(** ** The dates of the accumulation *)
Section Dates.
  Context {T : Type} `{Num T} `{Trans T}.
  Variable nan : T.

  Fixpoint increasing (l : list (accumulation T)) : Prop :=
    match l with
    | [] => True
    | a :: l' => (forall b, In b l' -> (acc_ex_date a < acc_ex_date b)%Z) /\ increasing l'
    end.

  Lemma increasing_app l a : increasing l -> (forall b, In b l -> (acc_ex_date b < acc_ex_date a)%Z) -> increasing (l ++ [a]).
  Proof.
    induction l as [|b l IH]; cbn; [tauto|]. intros (B & I) A. split.
    - intros c C. apply in_app_or in C as [C|[<-|[]]]; auto.
    - apply IH; auto.
  Qed.

  Lemma increasing_nth l : increasing l -> forall i j a b, (i < j)%nat -> nth_error l i = Some a -> nth_error l j = Some b ->
    (acc_ex_date a < acc_ex_date b)%Z.
  Proof.
    induction l as [|c l IH]; intros I i j a b L A B; [destruct i; discriminate|]. destruct I as (C & I).
    destruct j as [|j]; [lia|]. destruct i as [|i]; cbn in A, B.
    - inversion A; subst. apply C. eapply nth_error_In; eassumption.
    - apply (IH I i j); [lia|assumption|assumption].
  Qed.

  Lemma increasing_probe l to : increasing l -> probe_sorted l (fun p => (acc_ex_date p ?= to)%Z).
  Proof.
    intros I i j a b L A B. pose proof (increasing_nth l I i j a b L A B).
    split; intros C.
    - apply Z.compare_lt_iff. destruct (Z.compare_spec (acc_ex_date b) to); try lia. congruence.
    - apply Z.compare_gt_iff. destruct (Z.compare_spec (acc_ex_date a) to); try lia. congruence.
  Qed.

  (** The value at the last date up to [to]. *)
  Definition lookup (field : accumulation T -> T) (l : list (accumulation T)) (to : date) (v : T) : T :=
    fold_left (fun v a => if (acc_ex_date a <=? to)%Z then field a else v) l v.

  Lemma lookup_app field l a to v : lookup field (l ++ [a]) to v = if (acc_ex_date a <=? to)%Z then field a else lookup field l to v.
  Proof. unfold lookup. rewrite fold_left_app. reflexivity. Qed.

  Lemma lookup_none field l to : forall v, (forall a, In a l -> (to < acc_ex_date a)%Z) -> lookup field l to v = v.
  Proof.
    induction l as [|a l IH]; intros v A; [reflexivity|]. cbn [lookup fold_left].
    destruct (Z.leb_spec (acc_ex_date a) to); [specialize (A a (or_introl eq_refl)); lia|].
    apply IH. intros b B. apply A. now right.
  Qed.

  Lemma lookup_nth field l to : forall v i a, nth_error l i = Some a -> (acc_ex_date a <= to)%Z ->
    (forall j b, (i < j)%nat -> nth_error l j = Some b -> (to < acc_ex_date b)%Z) -> lookup field l to v = field a.
  Proof.
    induction l as [|b l IH]; intros v i a A L R; [destruct i; discriminate|]. cbn [lookup fold_left].
    destruct i as [|i].
    - inversion A; subst. destruct (Z.leb_spec (acc_ex_date a) to); [|lia]. apply lookup_none.
      intros c C. apply In_nth_error in C as (j & C). apply (R (S j)); [lia|exact C].
    - cbn in A. apply (IH _ i); auto. intros j c J C. apply (R (S j)); [lia|exact C].
  Qed.

  Lemma sum_at_lookup field b to : increasing (boot_acc b) -> (to <= boot_hwm b)%Z ->
    sum_at field b to = Ok (lookup field (boot_acc b) to n0).
  Proof.
    intros I L. unfold sum_at. destruct (Z.ltb_spec (boot_hwm b) to); [lia|].
    pose proof (binary_search_spec _ _ (increasing_probe (boot_acc b) to I)) as B.
    destruct (binary_search_by (boot_acc b) _) as [i|i].
    - destruct B as (a & A & E). unfold at_. rewrite A. cbn [bind]. f_equal. symmetry.
      apply Z.compare_eq_iff in E. apply (lookup_nth field _ to n0 i a A); [lia|].
      intros j c J C. pose proof (increasing_nth _ I i j a c J A C). lia.
    - destruct B as (Le & Lo & Hi). destruct (Nat.eqb_spec i 0) as [->|N].
      + f_equal. symmetry. apply lookup_none. intros a A. apply In_nth_error in A as (j & A).
        specialize (Hi j a A ltac:(lia)). apply Z.compare_gt_iff in Hi. lia.
      + unfold at_. destruct (nth_error (boot_acc b) (i - 1)) as [a|] eqn:A; [|apply nth_error_None in A; lia].
        cbn [bind]. f_equal. symmetry. specialize (Lo (i - 1)%nat a A ltac:(lia)). rewrite Z.compare_lt_iff in Lo.
        apply (lookup_nth field _ to n0 (i - 1) a A); [lia|]. intros j c J C.
        specialize (Hi j c C ltac:(lia)). apply Z.compare_gt_iff in Hi. lia.
  Qed.

  Lemma sum_at_past field b to : (boot_hwm b < to)%Z -> exists m, sum_at field b to = Err m.
  Proof. intros L. unfold sum_at. destruct (Z.ltb_spec (boot_hwm b) to); [eauto|lia]. Qed.

  (** The dates in a state of the loop. *)
  Record dates_ok (base : date) (s : boot_state T) : Prop := {
    do_prev : (base <= bs_prev s)%Z;
    do_inc : increasing (bs_acc s);
    do_range : forall a, In a (bs_acc s) -> (base <= acc_ex_date a < bs_prev s)%Z;
    do_empty : bs_prev s = base -> bs_acc s = []
  }.

  Definition open_date (ex : date) (s : boot_state T) : boot_state T :=
    if (bs_prev s <? ex)%Z
    then mkBS ex (bs_und s) (bs_disc s) (bs_cash s) (bs_disc s) (bs_acc s ++ [close_acc nan s]) else s.

  Lemma open_date_ok base ex s : dates_ok base s -> (bs_prev s <= ex)%Z ->
    dates_ok base (open_date ex s) /\ bs_prev (open_date ex s) = ex.
  Proof.
    intros [P I R E] L. unfold open_date. destruct (Z.ltb_spec (bs_prev s) ex) as [L'|L'].
    - cbn [bs_prev bs_acc]. split; [|reflexivity]. split; cbn [bs_prev bs_acc].
      + lia.
      + apply increasing_app; [exact I|]. intros b B. cbn [close_acc acc_ex_date]. apply R in B. lia.
      + intros a A. apply in_app_or in A as [A|[<-|[]]].
        * apply R in A. lia.
        * cbn [close_acc acc_ex_date]. lia.
      + intros Q. lia.
    - split; [split; auto|lia].
  Qed.

  Lemma boot_add_dates rate borrow q spot s d s' : boot_add nan rate borrow q spot s d = Ok s' ->
    bs_prev s' = bs_prev s /\ bs_acc s' = bs_acc s /\ bs_prev_disc s' = bs_prev_disc s.
  Proof.
    unfold boot_add. intros E. inv_bind E. destruct (negb (relative d =? n0)%num).
    - inv_bind E. inversion E. auto.
    - inversion E. auto.
  Qed.

  (** The dividends reached by the loop. *)
  Lemma boot_loop_dates rate borrow q spot base upto : forall divs s s', ex_ordered divs -> dates_ok base s ->
    boot_loop nan rate borrow q spot base upto divs s = Ok s' ->
    dates_ok base s' /\ (bs_prev s <= bs_prev s')%Z /\
    (forall d, In d divs -> (ex_date d <= upto)%Z -> (ex_date d <= bs_prev s')%Z).
  Proof.
    induction divs as [|d divs IH]; intros s s' O D E; cbn [boot_loop] in E.
    - inversion E; subst. split; [exact D|]. split; [lia|easy].
    - destruct O as (O1 & O2). destruct (Z.ltb_spec (ex_date d) base) as [L|L].
      + destruct (IH s s' O2 D E) as (A & B & C). split; [exact A|]. split; [exact B|].
        intros e [<-|I] U; [destruct A; lia|auto].
      + destruct (Z.ltb_spec (ex_date d) (bs_prev s)) as [L1|L1]; [discriminate|].
        destruct (Z.ltb_spec upto (ex_date d)) as [L2|L2].
        * inversion E; subst. split; [exact D|]. split; [lia|]. intros e [<-|I] U; [lia|]. specialize (O1 e I). lia.
        * fold (open_date (ex_date d) s) in E. inv_bind E.
          destruct (open_date_ok base (ex_date d) s D L1) as (D1 & P1).
          destruct (boot_add_dates _ _ _ _ _ _ _ E0) as (A1 & A2 & _).
          assert (Da : dates_ok base a). { destruct D1. split; rewrite ?A1, ?A2; auto. }
          destruct (IH a s' O2 Da E) as (X & Y & Z). split; [exact X|]. split; [lia|].
          intros e [<-|I] U; [lia|auto].
  Qed.

  Definition finish (base : date) (s : boot_state T) : list (accumulation T) :=
    if (base <? bs_prev s)%Z then (bs_acc s ++ [close_acc nan s])%list else bs_acc s.

  Lemma finish_increasing base s : dates_ok base s -> increasing (finish base s).
  Proof.
    intros [P I R E]. unfold finish. destruct (Z.ltb_spec base (bs_prev s)); [|exact I].
    apply increasing_app; [exact I|]. intros b B. cbn [close_acc acc_ex_date]. apply R in B. lia.
  Qed.

  (** The backward walk changes one field only. *)
  Lemma fill_map l : exists g, fill_remaining l = map (fun a => mkAcc (acc_ex_date a) (acc_undiscounted a) (acc_discounted a) (acc_cash a) (g a)) l.
  Proof.
    unfold fill_remaining. destruct (rev l) as [|f r] eqn:E.
    - exists (fun a => acc_cash_remaining a). rewrite <- (rev_involutive l), E. reflexivity.
    - eexists. reflexivity.
  Qed.

  Lemma map_increasing l g : (forall a, acc_ex_date (g a) = acc_ex_date a) -> increasing l -> increasing (map g l).
  Proof.
    intros G. induction l as [|a l IH]; cbn; [auto|]. intros (A & I). split; [|auto].
    intros b B. apply in_map_iff in B as (c & <- & C). rewrite !G. auto.
  Qed.

  Lemma map_lookup field l g to : (forall a, acc_ex_date (g a) = acc_ex_date a /\ field (g a) = field a) ->
    forall v, lookup field (map g l) to v = lookup field l to v.
  Proof.
    intros G. induction l as [|a l IH]; intros v; [reflexivity|]. cbn [map lookup fold_left].
    destruct (G a) as (-> & ->). apply IH.
  Qed.

  Lemma fill_increasing l : increasing l -> increasing (fill_remaining l).
  Proof. intros I. destruct (fill_map l) as (g & ->). apply map_increasing; [reflexivity|exact I]. Qed.
  Lemma fill_lookup_und l to v : lookup acc_undiscounted (fill_remaining l) to v = lookup acc_undiscounted l to v.
  Proof. destruct (fill_map l) as (g & ->). apply map_lookup. auto. Qed.
  Lemma fill_lookup_disc l to v : lookup acc_discounted (fill_remaining l) to v = lookup acc_discounted l to v.
  Proof. destruct (fill_map l) as (g & ->). apply map_lookup. auto. Qed.

  (** Shape of a successful bootstrap. *)
  Lemma bootstrap_new_ok s rate borrow spot base hwm b : ex_ordered (dividends s) ->
    bootstrap_new nan s rate borrow spot base hwm = Ok b ->
    (dividends s = [] /\ b = mkBoot base hwm []) \/
    (dividends s <> [] /\ exists q st, log_discount_with_borrow nan rate borrow base = Ok q /\
       boot_loop nan rate borrow q spot base (Z.max hwm (last_cash_ex_date s)) (dividends s) (mkBS base n0 n0 n0 n0 []) = Ok st /\
       dates_ok base st /\
       b = mkBoot base (Z.max hwm (last_cash_ex_date s)) (fill_remaining (finish base st))).
  Proof.
    unfold bootstrap_new. intros O E. destruct (rev (dividends s)) as [|f r] eqn:R.
    - left. inversion E. split; [|reflexivity]. rewrite <- (rev_involutive (dividends s)), R. reflexivity.
    - right. split; [intros Z; rewrite Z in R; discriminate|]. destruct (_ && _); [discriminate|].
      inv_bind E. inv_bind E. inversion E; subst. exists a, a0. split; [assumption|]. split; [assumption|].
      split; [|reflexivity]. eapply boot_loop_dates; [exact O| |exact E1].
      split; cbn; try easy; lia.
  Qed.
End Dates.

(** ** The amounts *)
Open Scope R_scope.

Section Amounts.
  Variables (nan spot q : R) (rate borrow : curve R) (disc : date -> R) (base upto : date).
  Notation from_base := (fun ex => (base <=? ex)%Z).
  Notation disc_at := (discount_with_borrow nan rate borrow q).

  Lemma total_app P w l1 l2 : total P w (l1 ++ l2) = total P w l1 + total P w l2.
  Proof. induction l1 as [|(d, a) l IH]; cbn; [ring|]. rewrite IH. ring. Qed.
  Lemma total_ext P Q w l : (forall d a, In (d, a) l -> P (ex_date d) = Q (ex_date d)) -> total P w l = total Q w l.
  Proof.
    induction l as [|(d, a) l IH]; intros E; cbn; [reflexivity|]. rewrite (E d a) by now left.
    rewrite IH; [reflexivity|]. intros e b I. apply (E e b). now right.
  Qed.
  Lemma total_none P w l : (forall d a, In (d, a) l -> P (ex_date d) = false) -> total P w l = 0.
  Proof.
    induction l as [|(d, a) l IH]; intros E; cbn; [reflexivity|]. rewrite (E d a) by now left.
    rewrite IH; [ring|]. intros e b I. apply (E e b). now right.
  Qed.

  (** [p] are the dividends dealt with. *)
  Record sums_ok' (p : list (dividend R * R)) (s : boot_state R) : Prop := {
    so_dates : dates_ok base s;
    so_last : forall d a, In (d, a) p -> (ex_date d <= bs_prev s)%Z;
    so_und : bs_und s = total from_base amount p;
    so_disc : bs_disc s = total from_base (present_value disc) p;
    so_prev : bs_prev_disc s = total (fun ex => (base <=? ex)%Z && (ex <? bs_prev s)%Z) (present_value disc) p;
    so_look_und : forall to, (base <= to < bs_prev s)%Z -> lookup acc_undiscounted (bs_acc s) to 0 = total (from_upto base to) amount p;
    so_look_disc : forall to, (base <= to < bs_prev s)%Z ->
      lookup acc_discounted (bs_acc s) to 0 = total (from_upto base to) (present_value disc) p
  }.
  Definition attained (p : list (dividend R * R)) (s : boot_state R) : Prop :=
    bs_prev s = base \/ exists d a, In (d, a) p /\ bs_prev s = ex_date d.
  Definition sums_ok p s := sums_ok' p s /\ attained p s.

  Lemma open_sums p ex s : sums_ok p s -> (bs_prev s <= ex)%Z -> sums_ok' p (open_date nan ex s).
  Proof.
    intros ([D L U Di Pr LU LD] & At) H. destruct (open_date_ok nan base ex s D H) as (D' & P').
    unfold open_date in *. destruct (Z.ltb_spec (bs_prev s) ex) as [G|G]; [|split; assumption].
    assert (All : forall w to, (bs_prev s <= to)%Z -> total (from_upto base to) w p = total from_base w p).
    { intros w to Ht. apply total_ext. intros d a I. apply L in I. unfold from_upto. lia. }
    split; cbn [bs_prev bs_und bs_disc bs_cash bs_prev_disc bs_acc]; try assumption.
    - intros d a I. apply L in I. lia.
    - rewrite Di. apply total_ext. intros d a I. apply L in I. lia.
    - intros to Ht. rewrite lookup_app. cbn [close_acc acc_ex_date acc_undiscounted].
      destruct (Z.leb_spec (bs_prev s) to); [|apply LU; lia]. rewrite All by lia. exact U.
    - intros to Ht. rewrite lookup_app. cbn [close_acc acc_ex_date acc_discounted].
      destruct (Z.leb_spec (bs_prev s) to); [|apply LD; lia]. rewrite All by lia. exact Di.
  Qed.

  Lemma add_sums p d a s s' : sums_ok' p s -> bs_prev s = ex_date d -> (base <= ex_date d)%Z ->
    disc_at (pay_date d) = Ok (disc (pay_date d)) -> disc_at (ex_date d) = Ok (disc (ex_date d)) ->
    a = cash d + relative d * ((spot - bs_prev_disc s) / disc (ex_date d)) ->
    boot_add nan rate borrow q spot s d = Ok s' -> sums_ok (p ++ [(d, a)]) s'.
  Proof.
    intros [D L U Di Pr LU LD] Hp Hb D1 D2 A E.
    destruct (boot_add_dates _ _ _ _ _ _ _ _ E) as (P' & A' & PD').
    assert (V : bs_und s' = bs_und s + a /\ bs_disc s' = bs_disc s + a * disc (pay_date d)).
    { unfold boot_add in E. rewrite D1, D2 in E. cbn [bind] in E. rnum.
      destruct (Reqb_spec (relative d) 0) as [Z|Z]; cbn [negb] in E; inversion E; cbn [bs_und bs_disc].
      - rewrite A, Z. split; ring.
      - rewrite A. unfold Rdiv. split; ring. }
    destruct V as (V1 & V2).
    assert (New : forall (P : date -> bool) w, total P w (p ++ [(d, a)]) = total P w p + (if P (ex_date d) then w d a else 0)).
    { intros. rewrite total_app. cbn. ring. }
    split; [|right; exists d, a; rewrite P'; split; [apply in_or_app; right; now left|exact Hp]].
    split.
    - destruct D. split; rewrite ?P', ?A'; assumption.
    - intros e b I. rewrite P'. apply in_app_or in I as [I|[I|[]]]; [eauto|]. inversion I; subst. lia.
    - rewrite New, V1, U. destruct (Z.leb_spec base (ex_date d)); [reflexivity|lia].
    - rewrite New, V2, Di. destruct (Z.leb_spec base (ex_date d)); [reflexivity|lia].
    - rewrite New, PD', P', Pr, Hp. replace (_ && _)%bool with false by lia. ring.
    - intros to Ht. rewrite P' in Ht. rewrite A', New, LU by exact Ht.
      assert (F : from_upto base to (ex_date d) = false) by (unfold from_upto; lia). rewrite F. ring.
    - intros to Ht. rewrite P' in Ht. rewrite A', New, LD by exact Ht.
      assert (F : from_upto base to (ex_date d) = false) by (unfold from_upto; lia). rewrite F. ring.
  Qed.

  Lemma ex_ordered_app l1 l2 : ex_ordered (l1 ++ l2) -> ex_ordered l2 /\ forall d e, In d l1 -> In e l2 -> (@ex_date R d <= ex_date e)%Z.
  Proof.
    induction l1 as [|c l1 IH]; cbn; [easy|]. intros (A & B). destruct (IH B) as (C & D). split; [exact C|].
    intros d e [<-|I] J; [|auto]. apply A. apply in_or_app. auto.
  Qed.

  Lemma boot_loop_sums l : ex_ordered (map fst l) -> valued spot disc base l -> discountable disc_at disc base (map fst l) ->
    forall r p s, l = p ++ r -> sums_ok p s ->
    exists s' p' r', boot_loop nan rate borrow q spot base upto (map fst r) s = Ok s' /\ l = p' ++ r' /\ sums_ok p' s' /\
      forall d a, In (d, a) r' -> (upto < ex_date d)%Z.
  Proof.
    intros O V K. induction r as [|(d, a) r IH]; intros p s L S; cbn [map boot_loop fst].
    - exists s, p, []. split; [reflexivity|]. split; [exact L|]. split; [exact S|easy].
    - assert (Od : forall e b, In (e, b) r -> (ex_date d <= ex_date e)%Z).
      { intros e b I. rewrite L, map_app in O. apply ex_ordered_app in O as ((O & _) & _).
        apply O. apply in_map_iff. exists (e, b). auto. }
      assert (Op : forall e b, In (e, b) p -> (ex_date e <= ex_date d)%Z).
      { intros e b I. rewrite L, map_app in O. apply ex_ordered_app in O as (_ & O). apply O.
        - apply in_map_iff. exists (e, b). auto.
        - now left. }
      assert (Id : In (d, a) l) by (rewrite L; apply in_or_app; right; now left).
      destruct (Z.ltb_spec (ex_date d) base) as [B|B].
      + apply (IH (p ++ [(d, a)])); [rewrite <- app_assoc; exact L|].
        assert (New : forall (P : date -> bool) w, P (ex_date d) = false -> total P w (p ++ [(d, a)]) = total P w p).
        { intros P w F. rewrite total_app. cbn. rewrite F. ring. }
        destruct S as ([D La U Di Pr LU LD] & At).
        split; [|destruct At as [At|(e & b & I & At)]; [now left|right; exists e, b; split; [apply in_or_app; auto|exact At]]].
        split; try assumption.
        * intros e b I. apply in_app_or in I as [I|[I|[]]]; [eauto|]. inversion I; subst. destruct D. lia.
        * rewrite New by lia. exact U.
        * rewrite New by lia. exact Di.
        * rewrite New by lia. exact Pr.
        * intros to Ht. rewrite New by (unfold from_upto; lia). auto.
        * intros to Ht. rewrite New by (unfold from_upto; lia). auto.
      + assert (Hp : (bs_prev s <= ex_date d)%Z).
        { destruct S as (_ & [->|(e & b & I & ->)]); [exact B|eauto]. }
        destruct (Z.ltb_spec (ex_date d) (bs_prev s)); [lia|].
        destruct (Z.ltb_spec upto (ex_date d)) as [U|U].
        * exists s, p, ((d, a) :: r). split; [reflexivity|]. split; [exact L|]. split; [exact S|].
          intros e b [I|I]; [inversion I; subst; exact U|]. apply Od in I. lia.
        * fold (open_date nan (ex_date d) s). pose proof (open_sums p (ex_date d) s S Hp) as S1.
          destruct (open_date_ok nan base (ex_date d) s (so_dates _ _ (proj1 S)) Hp) as (_ & P1).
          destruct (K d) as (K1 & K2); [apply in_map_iff; exists (d, a); auto|exact B|].
          set (s1 := open_date nan (ex_date d) s) in *. clearbody s1.
          destruct (boot_add nan rate borrow q spot s1 d) as [s2| |] eqn:E.
          2, 3: exfalso; unfold boot_add in E; rewrite K1 in E; cbn [bind] in E; rewrite K2 in E; cbn [bind] in E;
                destruct (negb _) in E; discriminate.
          cbn [bind]. apply (IH (p ++ [(d, a)])); [rewrite <- app_assoc; exact L|].
          apply (add_sums p d a s1 s2 S1 P1 B K1 K2); [|exact E].
          rewrite (V d a Id B). f_equal. f_equal. f_equal. f_equal.
          rewrite (so_prev _ _ S1), P1, L, total_app.
          rewrite (total_none _ _ ((d, a) :: r)); [ring|].
          intros e b [I|I]; [inversion I; subst; lia|]. apply Od in I. lia.
  Qed.

  Lemma start_sums : sums_ok [] (mkBS base 0 0 0 0 []).
  Proof.
    split; [|now left]. split; cbn; try easy; try lia.
  Qed.

  (** The finished accumulation. *)
  Lemma finish_sums p s : sums_ok p s -> (base < bs_prev s)%Z -> forall to, (base <= to)%Z ->
    lookup acc_undiscounted (finish nan base s) to 0 = total (from_upto base to) amount p /\
    lookup acc_discounted (finish nan base s) to 0 = total (from_upto base to) (present_value disc) p.
  Proof.
    intros ([D L U Di Pr LU LD] & _) G to Ht. unfold finish. destruct (Z.ltb_spec base (bs_prev s)); [|lia].
    rewrite !lookup_app. cbn [close_acc acc_ex_date acc_undiscounted acc_discounted].
    destruct (Z.leb_spec (bs_prev s) to); [|split; [apply LU|apply LD]; lia].
    rewrite U, Di. split; apply total_ext; intros d a I; apply L in I; unfold from_upto; lia.
  Qed.

  Lemma finish_early s : dates_ok base s -> forall (field : accumulation R -> R) to, (to < base)%Z -> lookup field (finish nan base s) to 0 = 0.
  Proof.
    intros [P I R E] field to Ht. apply lookup_none. intros a A. unfold finish in A.
    destruct (Z.ltb_spec base (bs_prev s)).
    - apply in_app_or in A as [A|[<-|[]]]; [apply R in A; lia|cbn [close_acc acc_ex_date]; lia].
    - apply R in A. lia.
  Qed.
End Amounts.
