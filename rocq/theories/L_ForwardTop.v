(** Statement-level forms about dividends and forwards. *)
From Coq Require Import ZArith List String Bool Lia Reals Lra.
From Coq Require Import ZifyBool.
From Coq.Floats Require Import SpecFloat.
From Verif Require Import Prelude Num L_Num M_Dates M_Search L_Search M_Calendar M_Interp M_Curves M_Forward S_Data L_Curves L_Forward.
Import ListNotations.
Open Scope list_scope.
Open Scope R_scope.

(** Amounts exist. *)
Lemma valued_exists spot disc base : forall divs, ex_ordered divs -> exists l, map fst l = divs /\ valued spot disc base l.
Proof.
  intros divs. induction divs as [|d divs IH] using rev_ind; intros O.
  - exists []. split; [reflexivity|]. intros d a [].
  - destruct IH as (l & M & V). { clear - O. induction divs as [|e divs IH]; cbn in *; [exact I|]. destruct O as (A & B).
      split; [|auto]. intros x I. apply A. apply in_or_app. auto. }
    assert (Last : forall e b, In (e, b) l -> (ex_date e <= ex_date d)%Z).
    { intros e b I. apply (proj2 (ex_ordered_app _ _ O)); [|now left]. rewrite <- M. apply in_map_iff. exists (e, b). auto. }
    set (a := cash d + relative d * ((spot - total (fun ex => (base <=? ex)%Z && (ex <? ex_date d)%Z)%bool (present_value disc) l) / disc (ex_date d))).
    exists (l ++ [(d, a)]). split; [rewrite map_app, M; reflexivity|].
    intros e b I B. rewrite total_app. cbn [total].
    replace ((base <=? ex_date d)%Z && (ex_date d <? ex_date e)%Z)%bool with false.
    + apply in_app_or in I as [I|[I|[]]].
      * rewrite (V e b I B) at 1. f_equal. f_equal. f_equal. ring.
      * inversion I; subst. unfold a. f_equal. f_equal. f_equal. ring.
    + apply in_app_or in I as [I|[I|[]]]; [apply Last in I; lia|inversion I; subst; lia].
Qed.

Lemma boot_loop_upto nan rate borrow q spot base upto : forall divs (s s' : boot_state R),
  boot_loop nan rate borrow q spot base upto divs s = Ok s' -> (bs_prev s' <= Z.max (bs_prev s) upto)%Z.
Proof.
  induction divs as [|d divs IH]; intros s s' E; cbn [boot_loop] in E.
  - inversion E. lia.
  - destruct (Z.ltb_spec (ex_date d) base); [auto|]. destruct (Z.ltb_spec (ex_date d) (bs_prev s)); [discriminate|].
    destruct (Z.ltb_spec upto (ex_date d)); [inversion E; lia|].
    inv_bind E. apply IH in E. apply boot_add_dates in E0 as (A & _). rewrite A in E.
    destruct (Z.ltb_spec (bs_prev s) (ex_date d)); cbn [bs_prev] in E; lia.
Qed.

Section Top.
  Variables (nan : R) (s : div_stream R) (rate borrow : curve R) (spot : R) (base hwm : date)
            (disc : date -> R) (l : list (dividend R * R)).
  Hypothesis P : priced_dividends nan s rate borrow spot base disc l.

  (** All there is to know about the sums. *)
  Lemma bootstrap_full : exists b, bootstrap_new nan s rate borrow spot base hwm = Ok b /\ boot_hwm b = reach s hwm /\
    increasing (boot_acc b) /\
    (forall to, (to < base)%Z -> lookup acc_undiscounted (boot_acc b) to 0 = 0 /\ lookup acc_discounted (boot_acc b) to 0 = 0) /\
    (one_within base (reach s hwm) s -> forall to, (base <= to <= reach s hwm)%Z ->
       lookup acc_undiscounted (boot_acc b) to 0 = total (from_upto base to) amount l /\
       lookup acc_discounted (boot_acc b) to 0 = total (from_upto base to) (present_value disc) l) /\
    (~ one_within base (reach s hwm) s -> boot_acc b = []).
  Proof.
    destruct P as [(q & Q & K) O Y M V].
    assert (Shape : (dividends s = [] /\ reach s hwm = hwm) \/
              (exists f r, rev (dividends s) = f :: r /\ reach s hwm = Z.max hwm (last_cash_ex_date s))).
    { unfold reach. destruct (dividends s) as [|d0 ds] eqn:D; [now left|right].
      destruct (rev (d0 :: ds)) as [|f r] eqn:Rv; [apply (f_equal (@rev _)) in Rv; rewrite rev_involutive in Rv; discriminate|eauto]. }
    unfold bootstrap_new. destruct Shape as [(D & ->)|(f & r & Rv & Rch)].
    - rewrite D. cbn [rev]. exists (mkBoot base hwm []). cbn [boot_hwm boot_acc]. split; [reflexivity|]. split; [reflexivity|].
      split; [exact I|]. split; [auto|]. split; [|auto]. intros (d & J & _). rewrite D in J. destruct J.
    - rewrite Rv. assert (If : In f (dividends s)). { apply in_rev. rewrite Rv. now left. }
      rewrite Rch. set (upto := Z.max hwm (last_cash_ex_date s)) in *.
      assert (Ov : (negb (is_zero (div_yield s)) && (base_date (div_yield s) <? ex_date f)%Z)%bool = false).
      { destruct Y as [Y|Y]; [now rewrite Y|]. apply andb_false_iff. right. apply Z.ltb_ge. now apply Y. }
      rewrite Ov, Q. cbn [bind]. rewrite <- M in O, K.
      destruct (boot_loop_sums nan spot q rate borrow disc base upto l O V K l [] (mkBS base 0 0 0 0 []) eq_refl (start_sums disc base))
        as (st & p & r' & E & L & S & Beyond).
      rewrite <- M. rnum. rewrite E. cbn [bind]. eexists. split; [reflexivity|]. cbn [boot_hwm boot_acc].
      fold (finish nan base st).
      assert (Dt : dates_ok base st) by apply S.
      assert (Tot : forall w to, (to <= upto)%Z -> total (from_upto base to) w l = total (from_upto base to) w p).
      { intros w to Ht. rewrite L, total_app. rewrite (total_none _ _ r'); [ring|]. intros d a I. apply Beyond in I.
        unfold from_upto. lia. }
      split; [reflexivity|]. split; [now apply fill_increasing, finish_increasing|]. split; [|split].
      + intros to Ht. rewrite fill_lookup_und, fill_lookup_disc. rewrite !(finish_early nan base st Dt) by exact Ht. auto.
      + intros (d & I & Hd) to Ht. rewrite fill_lookup_und, fill_lookup_disc, !Tot by lia.
        rewrite <- M in I. apply in_map_iff in I as ((d', a) & E' & I). cbn [fst] in E'. subst d'.
        apply (finish_sums nan disc base p st S); [|lia].
        destruct S as (S & _). rewrite L in I. apply in_app_or in I as [I|I].
        * pose proof (so_last _ _ _ _ S d a I). lia.
        * apply Beyond in I. lia.
      + intros N. assert (Z : bs_prev st = base).
        { destruct S as (_ & [Z|(d & a & I & Z)]); [exact Z|]. destruct (Z.eq_dec (bs_prev st) base) as [E'|E']; [exact E'|].
          exfalso. apply N. exists d. split.
          { rewrite <- M, L. apply in_map_iff. exists (d, a). split; [reflexivity|]. apply in_or_app. auto. }
          pose proof (do_prev _ _ Dt).
          pose proof (boot_loop_upto nan rate borrow q spot base upto _ _ _ E) as G. cbn [bs_prev] in G. lia. }
        unfold finish. rewrite Z, Z.ltb_irrefl. rewrite (do_empty _ _ Dt Z). reflexivity.
  Qed.

  Lemma bootstrap_total : exists b, bootstrap_new nan s rate borrow spot base hwm = Ok b.
  Proof. destruct bootstrap_full as (b & B & _). eauto. Qed.

  Variable b : bootstrap R.
  Hypothesis B : bootstrap_new nan s rate borrow spot base hwm = Ok b.

  Lemma sums_from_base_raw to : (to <= reach s hwm)%Z ->
    undiscounted_sum_from_base b to = Ok (lookup acc_undiscounted (boot_acc b) to 0) /\
    discounted_sum_from_base b to = Ok (lookup acc_discounted (boot_acc b) to 0).
  Proof.
    intros L. destruct bootstrap_full as (b' & B' & H & I & _). rewrite B in B'. inversion B'; subst b'.
    unfold undiscounted_sum_from_base, discounted_sum_from_base. rewrite !sum_at_lookup by (rewrite ?H; assumption).
    rnum. auto.
  Qed.

  (** With a dividend later than the base date, those on the base date count. *)
  Lemma sums_later to : one_within base (reach s hwm) s -> (base <= to <= reach s hwm)%Z ->
    undiscounted_sum_from_base b to = Ok (total (from_upto base to) amount l) /\
    discounted_sum_from_base b to = Ok (total (from_upto base to) (present_value disc) l).
  Proof.
    intros W L. destruct (sums_from_base_raw to ltac:(lia)) as (-> & ->).
    destruct bootstrap_full as (b' & B' & _ & _ & _ & F & _). rewrite B in B'. inversion B'; subst b'.
    destruct (F W to L) as (-> & ->). auto.
  Qed.

  (** Without one, they do not. *)
  Lemma sums_no_later to : ~ one_within base (reach s hwm) s -> (to <= reach s hwm)%Z ->
    undiscounted_sum_from_base b to = Ok 0 /\ discounted_sum_from_base b to = Ok 0.
  Proof.
    intros W L. destruct (sums_from_base_raw to ltac:(lia)) as (-> & ->).
    destruct bootstrap_full as (b' & B' & _ & _ & _ & _ & F). rewrite B in B'. inversion B'; subst b'.
    rewrite (F W). auto.
  Qed.

  Lemma one_within_dec to : {one_within base to s} + {~ one_within base to s}.
  Proof.
    unfold one_within. destruct (existsb (fun d => (base <? ex_date d)%Z && (ex_date d <=? to)%Z)%bool (dividends s)) eqn:E.
    - left. apply existsb_exists in E as (d & I & C). exists d. split; [exact I|lia].
    - right. intros (d & I & C). assert (existsb (fun d => (base <? ex_date d)%Z && (ex_date d <=? to)%Z)%bool (dividends s) = true).
      { apply existsb_exists. exists d. split; [exact I|lia]. } congruence.
  Qed.

  Lemma in_stream d a : In (d, a) l -> In d (dividends s).
  Proof. intros I. rewrite <- (pd_list _ _ _ _ _ _ _ _ P). apply in_map_iff. exists (d, a). auto. Qed.

  (** With none on the base date. *)
  Lemma sums_from_base to : none_on base s -> (base <= to <= reach s hwm)%Z ->
    undiscounted_sum_from_base b to = Ok (total (after_upto base to) amount l) /\
    discounted_sum_from_base b to = Ok (total (after_upto base to) (present_value disc) l).
  Proof.
    intros N L. destruct (one_within_dec (reach s hwm)) as [W|W].
    - destruct (sums_later to W L) as (-> & ->). split; f_equal; apply total_ext; intros d a I;
        pose proof (N d (in_stream d a I)); unfold from_upto, after_upto; lia.
    - destruct (sums_no_later to W ltac:(lia)) as (-> & ->). split; f_equal; symmetry; apply total_none; intros d a I;
        destruct (after_upto base to (ex_date d)) eqn:A; [|reflexivity| |reflexivity]; exfalso; apply W; exists d;
        (split; [eauto using in_stream|unfold after_upto in A; lia]).
  Qed.

  Lemma total_split w from to : (base <= from <= to)%Z -> forall m : list (dividend R * R),
    total (from_upto base to) w m - total (from_upto base from) w m = total (after_upto from to) w m.
  Proof.
    intros L. induction m as [|(d, a) m IH]; cbn [total]; [ring|]. rewrite <- IH.
    unfold from_upto, after_upto. destruct (Z.leb_spec base (ex_date d)), (Z.leb_spec (ex_date d) to),
      (Z.leb_spec (ex_date d) from), (Z.ltb_spec from (ex_date d)); try lia; cbn [andb]; ring.
  Qed.

  (** Between two dates. *)
  Lemma sums_between from to : (base <= from <= to)%Z -> (to <= reach s hwm)%Z ->
    undiscounted_sum b from to = Ok (total (after_upto from to) amount l) /\
    discounted_sum b from to = Ok (total (after_upto from to) (present_value disc) l).
  Proof.
    intros L1 L2. unfold undiscounted_sum, discounted_sum. destruct (one_within_dec (reach s hwm)) as [W|W].
    - destruct (sums_later from W ltac:(lia)) as (-> & ->). destruct (sums_later to W ltac:(lia)) as (-> & ->).
      cbn [bind]. rnum. split; f_equal; now apply total_split.
    - destruct (sums_no_later from W ltac:(lia)) as (-> & ->). destruct (sums_no_later to W ltac:(lia)) as (-> & ->).
      cbn [bind]. rnum. split; f_equal; rewrite Rminus_0_r; symmetry; apply total_none; intros d a I;
        destruct (after_upto from to (ex_date d)) eqn:A; [|reflexivity| |reflexivity]; exfalso; apply W; exists d;
        (split; [eauto using in_stream|unfold after_upto in A; lia]).
  Qed.

  Lemma sums_before to : (to < base)%Z -> (to <= reach s hwm)%Z ->
    undiscounted_sum_from_base b to = Ok 0 /\ discounted_sum_from_base b to = Ok 0.
  Proof.
    intros L1 L2. destruct (sums_from_base_raw to ltac:(lia)) as (-> & ->).
    destruct bootstrap_full as (b' & B' & _ & _ & E & _). rewrite B in B'. inversion B'; subst b'.
    destruct (E to L1) as (-> & ->). auto.
  Qed.

  Lemma sums_past from to : (reach s hwm < to)%Z ->
    (exists m, undiscounted_sum_from_base b to = Err m) /\ (exists m, discounted_sum_from_base b to = Err m) /\
    (exists m, undiscounted_sum b from to = Err m) /\ (exists m, discounted_sum b from to = Err m).
  Proof.
    intros L. destruct bootstrap_full as (b' & B' & H & I & _). rewrite B in B'. inversion B'; subst b'.
    rewrite <- H in L.
    assert (E : forall f : accumulation R -> R, exists m, sum_at f b to = Err m) by (intros; now apply sum_at_past).
    assert (D : forall f : accumulation R -> R, exists m, bind (sum_at f b from) (fun x => bind (sum_at f b to) (fun y => Ok (y - x))) = Err m).
    { intros f. destruct (Z.leb_spec from (boot_hwm b)).
      - rewrite sum_at_lookup by assumption. destruct (E f) as (m & ->). eexists; reflexivity.
      - destruct (sum_at_past f b from ltac:(lia)) as (m & ->). eexists; reflexivity. }
    split; [apply E|]. split; [apply E|]. split; apply D.
  Qed.
End Top.

(** Ex dates out of order, from the base date on and up to the high-water mark, are refused. *)
Lemma out_of_order_loop {T} {NT : Num T} {TT : Trans T} (nan : T) rate borrow q spot base upto (d e : dividend T) : forall p r m s s',
  (base <= ex_date e < ex_date d)%Z -> (forall x, In x (p ++ d :: m) -> (ex_date x <= upto)%Z) ->
  boot_loop nan rate borrow q spot base upto (p ++ d :: m ++ e :: r) s <> Ok s'.
Proof.
  intros p r m. revert p.
  assert (Second : forall m s s', (base <= ex_date e < bs_prev s)%Z -> (forall x, In x m -> (ex_date x <= upto)%Z) ->
            boot_loop nan rate borrow q spot base upto (m ++ e :: r) s <> Ok s').
  { clear m. induction m as [|x m IH]; intros s s' L U E; cbn [app boot_loop] in E.
    - destruct (Z.ltb_spec (ex_date e) base); [lia|]. destruct (Z.ltb_spec (ex_date e) (bs_prev s)); [discriminate|lia].
    - destruct (Z.ltb_spec (ex_date x) base). { revert E. apply IH; [exact L|]. intros; apply U; now right. }
      destruct (Z.ltb_spec (ex_date x) (bs_prev s)); [discriminate|].
      destruct (Z.ltb_spec upto (ex_date x)); [specialize (U x (or_introl eq_refl)); lia|].
      inv_bind E. apply boot_add_dates in E0 as (A & _). revert E. apply IH; [|intros; apply U; now right].
      rewrite A. destruct (Z.ltb_spec (bs_prev s) (ex_date x)); cbn [bs_prev]; lia. }
  induction p as [|x p IH]; intros s s' L U E; cbn [app boot_loop] in E.
  - destruct (Z.ltb_spec (ex_date d) base); [lia|]. destruct (Z.ltb_spec (ex_date d) (bs_prev s)); [discriminate|].
    destruct (Z.ltb_spec upto (ex_date d)); [specialize (U d (or_introl eq_refl)); lia|].
    inv_bind E. apply boot_add_dates in E0 as (A & _). revert E. apply Second; [|intros; apply U; now right].
    rewrite A. destruct (Z.ltb_spec (bs_prev s) (ex_date d)); cbn [bs_prev]; lia.
  - destruct (Z.ltb_spec (ex_date x) base). { revert E. apply IH; [exact L|]. intros; apply U; now right. }
    destruct (Z.ltb_spec (ex_date x) (bs_prev s)); [discriminate|].
    destruct (Z.ltb_spec upto (ex_date x)); [specialize (U x (or_introl eq_refl)); lia|].
    inv_bind E. revert E. apply IH; [exact L|intros; apply U; now right].
Qed.

Lemma out_of_order {T} {NT : Num T} {TT : Trans T} (nan : T) s rate borrow spot base hwm p m r (d e : dividend T) b :
  dividends s = p ++ d :: m ++ e :: r -> (base <= ex_date e < ex_date d)%Z ->
  (forall x, In x (dividends s) -> (ex_date x <= reach s hwm)%Z) ->
  bootstrap_new nan s rate borrow spot base hwm <> Ok b.
Proof.
  intros D L U E. unfold bootstrap_new in E. destruct (rev (dividends s)) as [|f fs] eqn:R.
  - apply (f_equal (@rev _)) in R. rewrite rev_involutive, D in R. destruct p; discriminate.
  - destruct (_ && _)%bool; [discriminate|]. inv_bind E. inv_bind E. revert E1. rewrite D. apply out_of_order_loop; [exact L|].
    intros x I. assert (J : In x (dividends s)). { rewrite D. apply in_app_or in I as [I|[I|I]]; apply in_or_app; cbn; auto.
      right. right. apply in_or_app. auto. }
    apply U in J. unfold reach in J. rewrite D in J. destruct p; exact J.
Qed.

(** ** What is left of the cash dividends *)
Section Remaining.
  Context {T : Type} `{Num T} `{Trans T}.
  Variable nan : T.

  Lemma boot_loop_remaining rate borrow q spot base upto : forall divs s s',
    (forall a, In a (bs_acc s) -> acc_cash_remaining a = nan) ->
    boot_loop nan rate borrow q spot base upto divs s = Ok s' -> forall a, In a (bs_acc s') -> acc_cash_remaining a = nan.
  Proof.
    induction divs as [|d divs IH]; intros s s' A E; cbn [boot_loop] in E.
    - inversion E; subst. exact A.
    - destruct (ex_date d <? base)%Z; [eauto|]. destruct (ex_date d <? bs_prev s)%Z; [discriminate|].
      destruct (upto <? ex_date d)%Z; [inversion E; subst; exact A|]. inv_bind E. apply boot_add_dates in E0 as (_ & B & _).
      refine (IH _ _ _ E). rewrite B. destruct (bs_prev s <? ex_date d)%Z; [|exact A]. cbn [bs_acc]. intros x I.
      apply in_app_or in I as [I|[<-|[]]]; [auto|reflexivity].
  Qed.

  Lemma remaining_nan s rate borrow spot base hwm b from d :
    ex_ordered (dividends s) -> bootstrap_new nan s rate borrow spot base hwm = Ok b ->
    In d (dividends s) -> (base < ex_date d <= reach s hwm)%Z -> (from <= ex_date d)%Z ->
    exists x, discounted_cash_divs_after b from = Ok (nsub x nan).
  Proof.
    intros O B I L F. destruct (bootstrap_new_ok nan s rate borrow spot base hwm b O B) as [(Z & _)|(NE & q & st & Q & E & D & ->)];
      [rewrite Z in I; destruct I|].
    assert (Rch : reach s hwm = Z.max hwm (last_cash_ex_date s)) by (unfold reach; destruct (dividends s); congruence).
    rewrite Rch in L.
    assert (D0 : dates_ok base (mkBS base n0 n0 n0 n0 [])) by (split; cbn; try easy; lia).
    pose proof (boot_loop_dates nan rate borrow q spot base _ _ _ st O D0 E) as (_ & _ & M).
    specialize (M d I ltac:(lia)).
    assert (N0 : forall a, In a (bs_acc (mkBS base n0 n0 n0 n0 [])) -> acc_cash_remaining a = nan) by easy.
    pose proof (boot_loop_remaining _ _ _ _ _ _ _ _ st N0 E) as N.
    pose proof (finish_increasing nan base st D) as Inc. apply fill_increasing in Inc.
    unfold finish in *. destruct (Z.ltb_spec base (bs_prev st)); [|lia].
    set (acc := (bs_acc st ++ [close_acc nan st])%list) in *.
    assert (N' : forall a, In a acc -> acc_cash_remaining a = nan).
    { intros a A. apply in_app_or in A as [A|[<-|[]]]; [auto|reflexivity]. }
    assert (Fill : exists x, fill_remaining acc = map (fun a => mkAcc (acc_ex_date a) (acc_undiscounted a) (acc_discounted a) (acc_cash a) (nsub x nan)) acc).
    { unfold fill_remaining. unfold acc at 1. rewrite rev_app_distr. cbn [rev app]. eexists. apply map_ext_in. intros a A.
      rewrite (N' a A). reflexivity. }
    destruct Fill as (x & Fill). exists x. unfold discounted_cash_divs_after. cbn [boot_hwm boot_acc].
    destruct (Z.ltb_spec (Z.max hwm (last_cash_ex_date s)) from); [lia|].
    pose proof (binary_search_spec _ _ (increasing_probe _ from Inc)) as BS. rewrite Fill in *.
    assert (At : forall i, (i < List.length acc)%nat -> exists a, nth_error (map (fun a => mkAcc (acc_ex_date a) (acc_undiscounted a) (acc_discounted a) (acc_cash a) (nsub x nan)) acc) i = Some a /\ acc_cash_remaining a = nsub x nan).
    { intros i Li. destruct (nth_error acc i) as [a|] eqn:A; [|apply nth_error_None in A; lia].
      exists (mkAcc (acc_ex_date a) (acc_undiscounted a) (acc_discounted a) (acc_cash a) (nsub x nan)).
      rewrite nth_error_map, A. auto. }
    destruct (binary_search_by _ _) as [i|i].
    - destruct BS as (a & A & _). destruct (At i) as (a' & A' & V).
      { rewrite <- (map_length (fun a => mkAcc (acc_ex_date a) (acc_undiscounted a) (acc_discounted a) (acc_cash a) (nsub x nan))).
        apply nth_error_Some. congruence. }
      unfold at_. rewrite A'. cbn [bind]. now rewrite V.
    - destruct BS as (Le & Lo & _). rewrite map_length in Le. rewrite map_length.
      destruct (Nat.eqb_spec i (List.length acc)) as [->|Ni].
      + exfalso. assert (La : nth_error acc (List.length acc - 1) = Some (close_acc nan st)).
        { unfold acc. rewrite app_length. cbn [List.length]. replace (_ + 1 - 1)%nat with (List.length (bs_acc st)) by lia.
          rewrite nth_error_app2, Nat.sub_diag by lia. reflexivity. }
        assert (Pos : (0 < List.length acc)%nat) by (unfold acc; rewrite app_length; cbn; lia).
        specialize (Lo (List.length acc - 1)%nat). rewrite nth_error_map, La in Lo. cbn [option_map] in Lo.
        specialize (Lo _ eq_refl ltac:(lia)). cbn [acc_ex_date close_acc] in Lo. rewrite Z.compare_lt_iff in Lo. lia.
      + destruct (At i) as (a' & A' & V); [lia|]. unfold at_. rewrite A'. cbn [bind]. now rewrite V.
  Qed.
End Remaining.

Lemma remaining_nan_f64 (TF : Trans F64) s rate borrow spot base hwm b from d :
  ex_ordered (dividends s) -> bootstrap_new F_nan s rate borrow spot base hwm = Ok b ->
  In d (dividends s) -> (base < ex_date d <= reach s hwm)%Z -> (from <= ex_date d)%Z ->
  discounted_cash_divs_after b from = Ok F_nan.
Proof.
  intros O B I L F. destruct (remaining_nan F_nan s rate borrow spot base hwm b from d O B I L F) as (x & ->).
  f_equal. destruct x; reflexivity.
Qed.

(** ** Bumped dividends *)
Lemma bump_scales (s : div_stream R) bump : Forall2 (fun d d' => cash d' = (1 + bump) * cash d /\ relative d' = (1 + bump) * relative d /\
    ex_date d' = ex_date d /\ pay_date d' = pay_date d) (dividends s) (dividends (apply_divs (BumpAllRelative bump) s)).
Proof.
  cbn [apply_divs stream_bump_all dividends]. induction (dividends s) as [|d l IH]; cbn [map]; constructor; [|exact IH].
  cbn [bump_dividend cash relative ex_date pay_date]. rnum. repeat split; ring.
Qed.

Lemma bump_yield_scales nan (s : div_stream R) bump d y : rt nan (div_yield s) d = Ok y ->
  rt nan (div_yield (apply_divs (BumpAllRelative bump) s)) d = Ok (bump * y).
Proof. intros E. cbn [apply_divs stream_bump_all div_yield]. now apply relative_bump. Qed.

Lemma bump_overlaps {T} {NT : Num T} {TT : Trans T} (nan : T) (s : div_stream T) bump rate borrow spot base hwm p d :
  dividends s = p ++ [d] -> (base_date (div_yield s) < ex_date d)%Z ->
  bootstrap_new nan (apply_divs (BumpAllRelative bump) s) rate borrow spot base hwm = Err "Dividend yield overlaps dividends".
Proof.
  intros D L. unfold bootstrap_new. cbn [apply_divs stream_bump_all dividends div_yield]. rewrite D, map_app, rev_app_distr.
  cbn [map rev app is_zero relative_bump_new negb andb base_date bump_dividend ex_date].
  destruct (Z.ltb_spec (base_date (div_yield s)) (ex_date d)); [reflexivity|lia].
Qed.

Lemma bump_cash_sums nan (s : div_stream R) bump rate borrow spot base hwm disc l b b' from to :
  priced_dividends nan s rate borrow spot base disc l ->
  (forall d, In d (dividends s) -> relative d = 0 /\ (ex_date d <= base_date (div_yield s))%Z) ->
  bootstrap_new nan s rate borrow spot base hwm = Ok b ->
  bootstrap_new nan (apply_divs (BumpAllRelative bump) s) rate borrow spot base hwm = Ok b' ->
  (base <= from <= to)%Z -> (to <= reach s hwm)%Z ->
  exists x y, undiscounted_sum b from to = Ok x /\ undiscounted_sum b' from to = Ok ((1 + bump) * x) /\
              discounted_sum b from to = Ok y /\ discounted_sum b' from to = Ok ((1 + bump) * y).
Proof.
  intros P C B B' L1 L2.
  set (f := fun p : dividend R * R => (bump_dividend (bump + 1) (fst p), (1 + bump) * snd p)).
  assert (P' : priced_dividends nan (apply_divs (BumpAllRelative bump) s) rate borrow spot base disc (map f l)).
  { destruct P as [(q & Q & K) O Y M V]. split; cbn [apply_divs stream_bump_all dividends div_yield].
    - exists q. split; [exact Q|]. intros d I L. apply in_map_iff in I as (e & <- & I). cbn [bump_dividend pay_date ex_date] in *. now apply K.
    - clear - O. induction (dividends s) as [|d ds IH]; cbn [map ex_ordered] in *; [exact I|]. destruct O as (A & O). split; [|auto].
      intros e I. apply in_map_iff in I as (x & <- & I). cbn [bump_dividend ex_date]. auto.
    - right. intros d I. apply in_map_iff in I as (e & <- & I). cbn [bump_dividend ex_date]. now apply C.
    - rewrite <- M. rewrite !map_map. apply map_ext. intros (d, a). reflexivity.
    - intros d a I L. apply in_map_iff in I as ((e, c) & E & I). unfold f in E. cbn [fst snd] in E. inversion E; subst.
      cbn [bump_dividend cash relative ex_date] in *. assert (Ie : In e (dividends s)).
      { rewrite <- M. apply in_map_iff. exists (e, c). auto. }
      destruct (C e Ie) as (Z & _). rewrite (V e c I L), Z. rnum. ring. }
  destruct (sums_between nan s rate borrow spot base hwm disc l P b B from to L1 L2) as (-> & ->).
  destruct (sums_between nan _ rate borrow spot base hwm disc _ P' b' B' from to L1) as (-> & ->).
  { unfold reach in *. cbn [apply_divs stream_bump_all dividends last_cash_ex_date]. destruct (dividends s); exact L2. }
  assert (Tot : forall w, (forall d a, w (bump_dividend (bump + 1) d) ((1 + bump) * a) = (1 + bump) * w d a) ->
            total (after_upto from to) w (map f l) = (1 + bump) * total (after_upto from to) w l).
  { intros w W. clear - W. induction l as [|(d, a) l IH]; cbn [map total]; [ring|]. unfold f at 1. cbn [fst snd].
    rewrite IH. cbn [bump_dividend ex_date]. destruct (after_upto from to (ex_date d)); [rewrite W|]; ring. }
  exists (total (after_upto from to) amount l), (total (after_upto from to) (present_value disc) l).
  rewrite !Tot; [auto| |]; intros; unfold amount, present_value; cbn [bump_dividend pay_date]; ring.
Qed.

(** ** Forwards *)
Lemma discounts_fun nan rate borrow base d x y : discounts nan rate borrow base d x -> discounts nan rate borrow base d y -> x = y.
Proof. intros (q & Q & X) (q' & Q' & Y). rewrite Q in Q'. inversion Q'; subst. rewrite X in Y. now inversion Y. Qed.

Lemma discounts_pos nan rate borrow base d x : discounts nan rate borrow base d x -> 0 < x.
Proof. intros (q & _ & X). unfold discount_with_borrow in X. inv_bind X. inversion X. rnum. apply exp_pos. Qed.

Section Forwards.
  Variables (nan : R) (base : date) (spot : R) (settlement : date_rule R) (rate borrow : curve R) (s : div_stream R) (hwm : date).
  Variables (spot_date : date) (x0 : R) (disc : date -> R) (l : list (dividend R * R)).
  Hypotheses (Hsd : apply_rule settlement base = Ok spot_date) (Hx0 : discounts nan rate borrow base spot_date x0)
             (P : priced_dividends nan s rate borrow (spot * x0) base disc l).

  Lemma forward_exists : exists f, equity_forward_new nan base spot settlement rate borrow s hwm = Ok f.
  Proof.
    destruct Hx0 as (q & Q & X). unfold equity_forward_new. rewrite Q. cbn [bind]. rewrite Hsd. cbn [bind]. rewrite X. cbn [bind].
    destruct (bootstrap_total nan s rate borrow (spot * x0) base hwm disc l P) as (b & B). rnum. rewrite B. cbn [bind]. eauto.
  Qed.

  Variable f : forward R.
  Hypothesis F : equity_forward_new nan base spot settlement rate borrow s hwm = Ok f.

  Lemma forward_gen d p x y w : apply_rule settlement d = Ok p -> discounts nan rate borrow base p x ->
    rt nan (div_yield s) p = Ok y ->
    (forall b, bootstrap_new nan s rate borrow (spot * x0) base hwm = Ok b -> discounted_sum_from_base b d = Ok w) ->
    forward_at nan f d = Ok ((spot * x0 - w) / x * exp y).
  Proof.
    intros Hp (q & Q & X) Y W. destruct Hx0 as (q' & Q' & X0). rewrite Q in Q'. inversion Q'; subst q'.
    pose proof F as G. unfold equity_forward_new in G. rewrite Q in G. cbn [bind] in G. rewrite Hsd in G. cbn [bind] in G. rewrite X0 in G. cbn [bind] in G.
    inv_bind G. inversion G as [Gf]. cbn [forward_at]. rnum. rewrite (W a E). cbn [bind]. rewrite Hp. cbn [bind].
    unfold discount_with_borrow in X. inv_bind X. inversion X. rewrite E0. cbn [bind]. rewrite Y. cbn [bind]. f_equal. rnum.
    replace (q + y - a0) with (- (a0 - q) + y) by ring. rewrite exp_plus, exp_Ropp. unfold Rdiv. ring.
  Qed.

  Lemma forward_value d p x y : none_on base s -> (base <= d <= reach s hwm)%Z ->
    apply_rule settlement d = Ok p -> discounts nan rate borrow base p x -> rt nan (div_yield s) p = Ok y ->
    forward_at nan f d = Ok ((spot * x0 - total (after_upto base d) (present_value disc) l) / x * exp y).
  Proof.
    intros N L Hp X Y. apply (forward_gen d p x y); auto. intros b B. now apply (sums_from_base nan s rate borrow (spot * x0) base hwm disc l P b B d N L).
  Qed.

  Lemma forward_base y : none_on base s -> (base <= reach s hwm)%Z -> rt nan (div_yield s) spot_date = Ok y ->
    forward_at nan f base = Ok (spot * exp y).
  Proof.
    intros N L Y. rewrite (forward_value base spot_date x0 y N ltac:(lia) Hsd Hx0 Y). f_equal.
    rewrite total_none; [field|].
    - pose proof (discounts_pos _ _ _ _ _ _ Hx0). lra.
    - intros d a I. unfold after_upto. lia.
  Qed.

  Lemma forward_change d1 d2 p1 p2 x1 x2 y1 y2 : (base <= d1 <= d2)%Z -> (d2 <= reach s hwm)%Z ->
    apply_rule settlement d1 = Ok p1 -> discounts nan rate borrow base p1 x1 -> rt nan (div_yield s) p1 = Ok y1 ->
    apply_rule settlement d2 = Ok p2 -> discounts nan rate borrow base p2 x2 -> rt nan (div_yield s) p2 = Ok y2 ->
    exists f1 f2, forward_at nan f d1 = Ok f1 /\ forward_at nan f d2 = Ok f2 /\
      f2 * x2 * exp (- y2) = f1 * x1 * exp (- y1) - total (after_upto d1 d2) (present_value disc) l.
  Proof.
    intros L1 L2 P1 X1 Y1 P2 X2 Y2. destruct (bootstrap_total nan s rate borrow (spot * x0) base hwm disc l P) as (b & B).
    destruct (sums_between nan s rate borrow (spot * x0) base hwm disc l P b B d1 d2 L1 L2) as (_ & D).
    unfold discounted_sum in D. inv_bind D. inv_bind D. rnum. injection D as D'.
    exists ((spot * x0 - a) / x1 * exp y1), ((spot * x0 - a0) / x2 * exp y2).
    split; [|split].
    - apply (forward_gen d1 p1); auto. intros b' B'. congruence.
    - apply (forward_gen d2 p2); auto. intros b' B'. congruence.
    - pose proof (discounts_pos _ _ _ _ _ _ X1). pose proof (discounts_pos _ _ _ _ _ _ X2).
      rewrite !exp_Ropp. pose proof (exp_pos y1). pose proof (exp_pos y2). rewrite <- D'. field. repeat split; lra.
  Qed.
End Forwards.

(** All dividends relative: the forward is a multiple of the spot. *)
Lemma forward_scales nan base spot k settlement rate borrow s hwm spot_date x0 disc l f f' d p x y :
  apply_rule settlement base = Ok spot_date -> discounts nan rate borrow base spot_date x0 ->
  priced_dividends nan s rate borrow (spot * x0) base disc l -> (forall e, In e (dividends s) -> cash e = 0) ->
  equity_forward_new nan base spot settlement rate borrow s hwm = Ok f ->
  equity_forward_new nan base (k * spot) settlement rate borrow s hwm = Ok f' ->
  none_on base s -> (base <= d <= reach s hwm)%Z ->
  apply_rule settlement d = Ok p -> discounts nan rate borrow base p x -> rt nan (div_yield s) p = Ok y ->
  exists v, forward_at nan f d = Ok v /\ forward_at nan f' d = Ok (k * v).
Proof.
  intros S0 X0 P C F F' N L Hp X Y.
  set (g := fun q : dividend R * R => (fst q, k * snd q)).
  assert (Tot : forall Q m, total Q (present_value disc) (map g m) = k * total Q (present_value disc) m).
  { intros Q m. induction m as [|(e, a) m IH]; cbn [map total]; [ring|]. unfold g at 1. cbn [fst snd]. rewrite IH.
    unfold present_value. destruct (Q (ex_date e)); ring. }
  assert (P' : priced_dividends nan s rate borrow (k * spot * x0) base disc (map g l)).
  { destruct P as [B O Y' M V]. split; auto.
    - rewrite <- M, map_map. apply map_ext. reflexivity.
    - intros e a I Le. apply in_map_iff in I as ((e', a') & E & I). unfold g in E. cbn [fst snd] in E. inversion E; subst.
      assert (Ie : In e (dividends s)). { rewrite <- M. apply in_map_iff. exists (e, a'). auto. }
      rewrite (V e a' I Le) at 1. rewrite (C e Ie), Tot. unfold Rdiv. ring. }
  rewrite (forward_value nan base spot settlement rate borrow s hwm spot_date x0 disc l S0 X0 P f F d p x y N L Hp X Y).
  rewrite (forward_value nan base (k * spot) settlement rate borrow s hwm spot_date x0 disc _ S0 X0 P' f' F' d p x y N L Hp X Y).
  eexists. split; [reflexivity|]. f_equal. rewrite Tot. unfold Rdiv. ring.
Qed.

Lemma forward_past nan base spot settlement rate borrow s hwm f d spot_date x0 disc l :
  apply_rule settlement base = Ok spot_date -> discounts nan rate borrow base spot_date x0 ->
  priced_dividends nan s rate borrow (spot * x0) base disc l ->
  equity_forward_new nan base spot settlement rate borrow s hwm = Ok f -> (reach s hwm < d)%Z ->
  exists m, forward_at nan f d = Err m.
Proof.
  intros S0 (q & Q & X0) P F L. unfold equity_forward_new in F. rewrite Q in F. cbn [bind] in F. rewrite S0 in F. cbn [bind] in F.
  rewrite X0 in F. cbn [bind] in F. inv_bind F. inversion F; subst f. cbn [forward_at].
  destruct (sums_past nan s rate borrow (spot * x0) base hwm disc l P a E d d L) as (_ & (m & Em) & _). rnum. rewrite Em.
  eexists. reflexivity.
Qed.

(** The bootstrap reaches every cash dividend, and no further than asked otherwise. *)
Lemma last_cash_spec (divs : list (dividend R)) : forall last,
  let x := fold_left (fun last d => if negb (cash d =? n0)%num then ex_date d else last) divs last in
  (x = last /\ (forall d, In d divs -> cash d = 0)) \/ exists d, In d divs /\ cash d <> 0 /\ x = ex_date d /\
    exists p r, divs = p ++ d :: r /\ forall e, In e r -> cash e = 0.
Proof.
  induction divs as [|d divs IH]; intros last; cbn [fold_left]; [left; easy|].
  rnum. destruct (IH (if negb (Reqb (cash d) 0) then ex_date d else last)) as [(E & Z)|(e & I & N & E & p & r & S & Z)].
  - destruct (Reqb_spec (cash d) 0) as [C|C]; cbn [negb] in *.
    + left. split; [exact E|]. intros e [<-|J]; auto.
    + right. exists d. split; [now left|]. split; [exact C|]. split; [exact E|]. exists [], divs. auto.
  - right. exists e. split; [now right|]. split; [exact N|]. split; [exact E|]. exists (d :: p), r. rewrite S. auto.
Qed.

Lemma cash_within_reach (divs : list (dividend R)) y hwm d : ex_ordered divs -> In d divs -> cash d <> 0 ->
  (ex_date d <= reach (stream_new divs y) hwm)%Z.
Proof.
  intros O I N. assert (L : (ex_date d <= last_cash_ex_date (stream_new divs y))%Z).
  { cbn [stream_new last_cash_ex_date]. destruct (last_cash_spec divs from_nil) as [(_ & Z)|(e & _ & _ & -> & p & r & S & Z)].
    - elim N. auto.
    - rewrite S in I, O. apply ex_ordered_app in O as (_ & O). apply in_app_or in I as [I|[<-|I]]; [|lia|elim N; auto].
      apply O; [exact I|now left]. }
  unfold reach. cbn [stream_new dividends] in *. destruct divs; [destruct I|]. lia.
Qed.

Lemma reach_attained (divs : list (dividend R)) y hwm : divs <> [] ->
  reach (stream_new divs y) hwm = hwm \/ reach (stream_new divs y) hwm = from_nil \/
  exists d, In d divs /\ cash d <> 0 /\ reach (stream_new divs y) hwm = ex_date d.
Proof.
  intros NE. unfold reach. cbn [stream_new dividends last_cash_ex_date]. destruct divs as [|c divs]; [congruence|].
  destruct (last_cash_spec (c :: divs) from_nil) as [(-> & _)|(e & I & N & -> & _)].
  - destruct (Z.max_spec hwm from_nil) as [(_ & ->)|(_ & ->)]; auto.
  - destruct (Z.max_spec hwm (ex_date e)) as [(_ & ->)|(_ & ->)]; eauto 6.
Qed.
