(** Portfolios as parts of larger ones: the forwards are cut off at different dates, and nothing else differs. *)
From Coq Require Import ZArith List String Bool Lia.
From Verif Require Import Prelude Num M_Dates M_Search M_Calendar M_Interp M_Curves M_Fixings M_Forward M_Vol M_Instruments M_Deps M_Risk M_Reports
  S_Data S_Deps S_Risk S_Portfolio L_Num L_Fixings L_Forward L_Deps L_Risk L_Prefetch L_PrefetchTop.
Import ListNotations.
Open Scope list_scope.

Section Forwards.
  Context {T : Type} {N : Num T} {TR : Trans T}.
  Variable nan : T.

  Lemma loop_acc rate borrow q spot base upto : forall divs s s', boot_loop nan rate borrow q spot base upto divs s = Ok s' ->
    (bs_prev s <= bs_prev s')%Z /\
    exists r, bs_acc s' = bs_acc s ++ r /\ forall a, In a r -> (bs_prev s <= acc_ex_date a)%Z.
  Proof.
    induction divs as [|d divs IH]; intros s s' E; cbn [boot_loop] in E.
    - injection E as <-. split; [lia|]. exists []. rewrite app_nil_r. split; [reflexivity|]. intros a [].
    - destruct (Z.ltb_spec (ex_date d) base) as [L|L]; [exact (IH _ _ E)|].
      destruct (Z.ltb_spec (ex_date d) (bs_prev s)) as [L1|L1]; [discriminate|].
      destruct (Z.ltb_spec upto (ex_date d)) as [L2|L2].
      { injection E as <-. split; [lia|]. exists []. rewrite app_nil_r. split; [reflexivity|]. intros a []. }
      inv_bind E. destruct (boot_add_dates _ _ _ _ _ _ _ _ E0) as (A1 & A2 & _). destruct (IH _ _ E) as (Q & r & R1 & R2).
      destruct (Z.ltb_spec (bs_prev s) (ex_date d)) as [L3|L3]; cbn [bs_prev bs_acc] in A1, A2.
      + split; [lia|]. exists (close_acc nan s :: r). rewrite R1, A2, <- app_assoc. split; [reflexivity|].
        intros x [<-|I]; [cbn; lia|]. specialize (R2 x I). lia.
      + rewrite A1 in *. split; [lia|]. exists r. rewrite R1, A2. auto.
  Qed.

  (** A loop that goes further has done what the shorter one does, and adds later dates. *)
  Lemma loop_longer rate borrow q spot base upto upto' : (upto <= upto')%Z -> forall divs s s', (bs_prev s <= upto)%Z ->
    boot_loop nan rate borrow q spot base upto' divs s = Ok s' ->
    exists s1, boot_loop nan rate borrow q spot base upto divs s = Ok s1 /\
      (s' = s1 \/ exists ext, bs_acc s' = bs_acc s1 ++ close_acc nan s1 :: ext /\ (upto < bs_prev s')%Z /\ forall a, In a ext -> (upto < acc_ex_date a)%Z).
  Proof.
    intros U. induction divs as [|d divs IH]; intros s s' B E; cbn [boot_loop] in E |- *.
    - injection E as <-. exists s. auto.
    - destruct (Z.ltb_spec (ex_date d) base) as [L|L]; [exact (IH _ _ B E)|].
      destruct (Z.ltb_spec (ex_date d) (bs_prev s)) as [L1|L1]; [discriminate|].
      destruct (Z.ltb_spec upto' (ex_date d)) as [L2|L2].
      { injection E as <-. destruct (Z.ltb_spec upto (ex_date d)); [|lia]. exists s. auto. }
      destruct (Z.ltb_spec upto (ex_date d)) as [L3|L3].
      + exists s. split; [reflexivity|]. inv_bind E.
        destruct (Z.ltb_spec (bs_prev s) (ex_date d)) as [L4|L4]; [|lia].
        right. destruct (boot_add_dates _ _ _ _ _ _ _ _ E0) as (A1 & A2 & _). cbn [bs_prev bs_acc] in A1, A2.
        destruct (loop_acc _ _ _ _ _ _ _ _ _ E) as (P & r & R1 & R2).
        exists r. rewrite R1, A2, <- app_assoc. split; [reflexivity|]. split; [lia|]. intros x I. specialize (R2 x I). lia.
      + inv_bind E. destruct (boot_add_dates _ _ _ _ _ _ _ _ E0) as (A1 & A2 & _). rewrite E0. cbn [bind]. apply IH; [|exact E].
        destruct (bs_prev s <? ex_date d)%Z; cbn [bs_prev] in A1; lia.
  Qed.

  (** With nothing on the base date and nothing after it in reach, nothing is added. *)
  Lemma loop_nothing rate borrow q spot base upto : forall divs, (forall d, In d divs -> ex_date d <> base) -> forall s s', bs_prev s = base ->
    boot_loop nan rate borrow q spot base upto divs s = Ok s' -> bs_prev s' = base -> s' = s.
  Proof.
    induction divs as [|d divs IH]; intros NO s s' B E B'; cbn [boot_loop] in E; [now injection E as <-|].
    assert (NO' : forall d, In d divs -> ex_date d <> base) by (intros; apply NO; now right). specialize (NO d ltac:(now left)).
    destruct (Z.ltb_spec (ex_date d) base) as [L|L]; [exact (IH NO' _ _ B E B')|].
    destruct (Z.ltb_spec (ex_date d) (bs_prev s)) as [L1|L1]; [discriminate|].
    destruct (Z.ltb_spec upto (ex_date d)) as [L2|L2]; [now injection E as <-|].
    inv_bind E. destruct (boot_add_dates _ _ _ _ _ _ _ _ E0) as (A1 & A2 & _). destruct (loop_acc _ _ _ _ _ _ _ _ _ E) as (P & _).
    destruct (Z.ltb_spec (bs_prev s) (ex_date d)) as [L3|L3]; cbn [bs_prev] in A1; lia.
  Qed.

  Lemma lookup_later (field : accumulation T -> T) l ext to v : (forall a, In a ext -> (to < acc_ex_date a)%Z) ->
    lookup field (l ++ ext) to v = lookup field l to v.
  Proof. intros L. unfold lookup. rewrite fold_left_app. now apply lookup_none. Qed.

  (** The sums up to a date are the same however far the dividends were accumulated. *)
  Lemma bootstrap_longer s rate borrow spot base h h' b' : (h <= h')%Z -> base_clear base s h ->
    bootstrap_new nan s rate borrow spot base h' = Ok b' ->
    exists b, bootstrap_new nan s rate borrow spot base h = Ok b /\
      forall d, (d <= reach s h)%Z -> discounted_sum_from_base b d = discounted_sum_from_base b' d.
  Proof.
    intros L (O & C) E. destruct (bootstrap_new_ok nan _ _ _ _ _ _ _ O E) as [(D & ->)|(D & q & st & Q & LO & DK & ->)].
    - exists (mkBoot base h []). unfold bootstrap_new, reach. rewrite D. cbn [rev]. split; [reflexivity|]. intros d U.
      unfold discounted_sum_from_base, sum_at. cbn [boot_hwm boot_acc].
      destruct (Z.ltb_spec h d); [lia|]. destruct (Z.ltb_spec h' d); [lia|]. reflexivity.
    - assert (Rh : forall x, reach s x = Z.max x (last_cash_ex_date s)) by (intros x; unfold reach; destruct (dividends s); congruence).
      set (upto := Z.max h (last_cash_ex_date s)) in *. set (upto' := Z.max h' (last_cash_ex_date s)) in *.
      set (s0 := mkBS base n0 n0 n0 n0 []) in *.
      assert (Mk : forall st1, boot_loop nan rate borrow q spot base upto (dividends s) s0 = Ok st1 ->
        bootstrap_new nan s rate borrow spot base h = Ok (mkBoot base upto (fill_remaining (finish nan base st1)))).
      { intros st1 E1. unfold bootstrap_new in E |- *. destruct (rev (dividends s)) eqn:RV.
        { exfalso. apply D. rewrite <- (rev_involutive (dividends s)), RV. reflexivity. }
        destruct (_ && _); [discriminate|].
        fold upto s0. rewrite Q. cbn [bind]. rewrite E1. reflexivity. }
      assert (Dt : forall st1, boot_loop nan rate borrow q spot base upto (dividends s) s0 = Ok st1 -> dates_ok base st1 /\ increasing (finish nan base st1) /\
        (forall d, In d (dividends s) -> (ex_date d <= upto)%Z -> (ex_date d <= bs_prev st1)%Z)).
      { intros st1 E1. destruct (boot_loop_dates nan rate borrow q spot base upto (dividends s) s0 st1 O) as (A & _ & B);
          [split; cbn; try easy; lia|exact E1|]. split; [exact A|]. split; [now apply finish_increasing|exact B]. }
      assert (I' : increasing (fill_remaining (finish nan base st))) by (now apply fill_increasing, finish_increasing).
      assert (Sum : forall st1 d, boot_loop nan rate borrow q spot base upto (dividends s) s0 = Ok st1 -> (d <= upto)%Z ->
        lookup acc_discounted (finish nan base st1) d n0 = lookup acc_discounted (finish nan base st) d n0 ->
        discounted_sum_from_base (mkBoot base upto (fill_remaining (finish nan base st1))) d =
        discounted_sum_from_base (mkBoot base upto' (fill_remaining (finish nan base st))) d).
      { intros st1 d E1 U X. unfold discounted_sum_from_base. rewrite !sum_at_lookup; cbn [boot_acc boot_hwm].
        - rewrite !fill_lookup_disc. now rewrite X.
        - exact I'.
        - unfold upto, upto' in *. lia.
        - apply fill_increasing, (Dt st1 E1).
        - exact U. }
      destruct (Z.le_gt_cases base upto) as [BU|BU].
      + destruct (loop_longer rate borrow q spot base upto upto' ltac:(unfold upto, upto'; lia) (dividends s) s0 st BU LO) as (st1 & E1 & S1).
        exists (mkBoot base upto (fill_remaining (finish nan base st1))). split; [now apply Mk|]. intros d U. rewrite Rh in U. fold upto in U.
        apply (Sum st1 d E1 U). destruct (Dt st1 E1) as (K1 & _ & W1).
        destruct S1 as [->|(ext & A & P & X)]; [reflexivity|].
        assert (F : finish nan base st = (bs_acc st1 ++ [close_acc nan st1]) ++ (ext ++ [close_acc nan st])).
        { unfold finish. destruct (Z.ltb_spec base (bs_prev st)); [|lia]. rewrite A, <- !app_assoc. reflexivity. }
        rewrite F, lookup_later.
        2: { intros x J. apply in_app_or in J as [J|[<-|[]]]; [specialize (X x J); lia|cbn; lia]. }
        unfold finish. destruct (Z.ltb_spec base (bs_prev st1)) as [B1|B1]; [reflexivity|].
        destruct K1 as [K1 _ _ K2]. assert (B2 : bs_prev st1 = base) by lia. rewrite (K2 B2). cbn [app lookup fold_left].
        destruct C as [C|(dv & C1 & C2)].
        * rewrite (loop_nothing _ _ _ _ _ _ _ C s0 st1 eq_refl E1 B2). cbn. now destruct (base <=? d)%Z.
        * rewrite Rh in C2. fold upto in C2. specialize (W1 dv C1 ltac:(lia)). lia.
      + assert (E1 : exists st1, boot_loop nan rate borrow q spot base upto (dividends s) s0 = Ok st1).
        { assert (G : forall divs, boot_loop nan rate borrow q spot base upto divs s0 = Ok s0).
          { induction divs as [|d divs IH]; cbn [boot_loop]; [reflexivity|]. destruct (Z.ltb_spec (ex_date d) base); [exact IH|].
            cbn [bs_prev s0]. destruct (Z.ltb_spec (ex_date d) base); [lia|]. destruct (Z.ltb_spec upto (ex_date d)); [reflexivity|lia]. }
          rewrite G. eauto. }
        destruct E1 as (st1 & E1). exists (mkBoot base upto (fill_remaining (finish nan base st1))). split; [now apply Mk|].
        intros d U. rewrite Rh in U. fold upto in U. apply (Sum st1 d E1 U). destruct (Dt st1 E1) as (K1 & _ & _).
        assert (G : forall z, dates_ok base z -> lookup acc_discounted (finish nan base z) d n0 = n0).
        { intros z [Z1 Z2 Z3 Z4]. apply lookup_none. intros x J. unfold finish in J. destruct (base <? bs_prev z)%Z;
            [apply in_app_or in J as [J|[<-|[]]]|]; try (specialize (Z3 x J); lia). cbn. lia. }
        rewrite !G by assumption. reflexivity.
  Qed.

  (** C78: so are the forwards. *)
  Lemma forward_longer base spot settlement rate borrow s h h' f' : (h <= h')%Z -> base_clear base s h ->
    equity_forward_new nan base spot settlement rate borrow s h' = Ok f' ->
    exists f, equity_forward_new nan base spot settlement rate borrow s h = Ok f /\
      (forall d, (d <= reach s h)%Z -> forward_at nan f d = forward_at nan f' d) /\
      (forall d, (reach s h < d)%Z -> exists m, forward_at nan f d = Err m).
  Proof.
    intros L C E. unfold equity_forward_new in *. inv_bind E. inv_bind E. inv_bind E. inv_bind E. injection E as <-.
    destruct (bootstrap_longer _ _ _ _ _ _ _ _ L C E3) as (b & EB & SB). rewrite E0. cbn [bind]. rewrite E1. cbn [bind]. rewrite E2. cbn [bind]. rewrite EB. cbn [bind].
    eexists. split; [reflexivity|]. split.
    - intros d U. cbn [forward_at]. now rewrite (SB d U).
    - intros d U. cbn [forward_at]. assert (H : boot_hwm b = reach s h).
      { destruct (bootstrap_new_ok nan _ _ _ _ _ _ _ (proj1 C) EB) as [(D & ->)|(D & q & st & _ & _ & _ & ->)]; cbn [boot_hwm]; unfold reach; destruct (dividends s); congruence. }
      destruct (sum_at_past acc_discounted b d ltac:(lia)) as (m & M). unfold discounted_sum_from_base. rewrite M. cbn [bind]. eauto.
  Qed.
End Forwards.
