(** Prices of baskets, bonds and options. *)
From Coq Require Import ZArith List String Bool Lia Reals Lra.
From Verif Require Import Prelude Num M_Dates M_Calendar M_Curves M_Fixings M_Forward M_Vol M_Black76 M_Instruments S_Instruments
  L_Num L_Curves L_Black76 L_Vol L_Instruments.
Import ListNotations.
Open Scope list_scope.
Open Scope R_scope.

Lemma dt_leb_refl d : dt_leb d d = true.
Proof. unfold dt_leb, dt_ltb. destruct d as (x, t). cbn. rewrite Z.ltb_irrefl. destruct t; rewrite ?andb_false_r; reflexivity. Qed.

Lemma nth_error_same {A B} (l : list A) (m : list B) j : List.length l = List.length m ->
  (exists x, nth_error l j = Some x) -> exists y, nth_error m j = Some y.
Proof.
  intros L (x & E). assert (j < List.length l)%nat by (apply nth_error_Some; congruence).
  destruct (nth_error m j) eqn:M; [eauto|]. apply nth_error_None in M. lia.
Qed.

Lemma forall2_nth {A B} (P : A -> B -> Prop) l m : Forall2 P l m ->
  forall j a, nth_error l j = Some a -> exists b, nth_error m j = Some b /\ P a b.
Proof. intros F. induction F; intros [|j] a E; try discriminate; cbn in *; [injection E as <-; eauto|eauto]. Qed.

(** ** What does not depend on the arithmetic *)
Scheme leaves_mut := Induction for leaves Sort Prop with all_leaves_mut := Induction for all_leaves Sort Prop.

Lemma add_weighted_length {T} {N : Num T} (w : T) temp out : List.length (add_weighted w temp out) = List.length out.
Proof. revert out. induction temp as [|a temp IH]; intros [|o out]; cbn; congruence. Qed.

Section AnyArithmetic.
  Context {T : Type} {N : Num T} {TR : Trans T}.
  Variables (nan : T) (cdf : T -> T) (c : pricing_context T).
  Notation prices := (prices nan cdf c).

  Lemma basket_loop_length (f : instrument T -> res (list T)) ms : forall out l, basket_loop f ms out = Ok l -> List.length l = List.length out.
  Proof.
    induction ms as [|(w, i) ms IH]; intros out l E; cbn [basket_loop] in E; [now injection E as ->|].
    destruct (f i); try discriminate. apply IH in E. rewrite E. apply add_weighted_length.
  Qed.

  Lemma vanilla_length v dates from sf l : vanilla_prices nan cdf c v dates from sf = Ok l -> List.length l = List.length dates.
  Proof.
    unfold vanilla_prices. destruct dates as [|d dates]; [intros E; now injection E as <-|]. intros E.
    repeat (match type of E with bind ?r _ = _ => destruct r as [?|?|?]; cbn [bind] in E; try discriminate end).
    match goal with q : (T * T)%type |- _ => destruct q end. repeat (match type of E with bind ?r _ = _ => destruct r as [?|?|?]; cbn [bind] in E; try discriminate end).
    now apply mapM_length in E.
  Qed.

  Lemma prices_length i dates l : prices i dates = Ok l -> List.length l = List.length dates.
  Proof.
    destruct i as [cc|id cur s|id cr cur s|id cr cur ex pay s|id cr cur s ms|v k|v f d0 x0]; cbn [M_Instruments.prices]; intros E.
    - injection E as <-. apply map_length.
    - injection E as <-. apply map_length.
    - destruct dates as [|d rest]; [now injection E as <-|].
      destruct rest as [|d2 rest].
      + destruct (_ =? _)%Z.
        * destruct (ctx_spot c id); try discriminate. now injection E as <-.
        * destruct (ctx_forward_curve c _ _); try discriminate. cbn [bind] in E. now apply mapM_length in E.
      + destruct (ctx_forward_curve c _ _); try discriminate. cbn [bind] in E. now apply mapM_length in E.
    - destruct (ctx_yield_curve c _ _); try discriminate. cbn [bind] in E. now apply mapM_length in E.
    - apply basket_loop_length in E. rewrite E. apply map_length.
    - now apply vanilla_length in E.
    - destruct (_ <? _)%Z; [discriminate|]. now apply vanilla_length in E.
  Qed.

  Section AnyLoop.
    Variable f : instrument T -> res (list T).

    Lemma basket_loop_ok ms out : Forall (fun h => exists ps, f (snd h) = Ok ps) ms <-> exists l, basket_loop f ms out = Ok l.
    Proof.
      revert out. induction ms as [|(w, i) ms IH]; intros out; cbn [basket_loop].
      - split; [eauto|constructor].
      - split.
        + intros A. inversion A; subst. destruct H1 as (ps & P). cbn [snd] in P. rewrite P. now apply IH.
        + intros (l & E). destruct (f i) eqn:F; try discriminate. constructor; [eauto|]. eapply IH. eauto.
    Qed.

    Lemma basket_loop_bad (X : res (list T)) : (forall a, X <> Ok a) -> forall ms out,
      basket_loop f ms out = X <-> exists h : T * instrument T, first_failure (fun h => f (snd h)) ms h /\ f (snd h) = X.
    Proof.
      intros NX. induction ms as [|(w, i) ms IH]; intros out; cbn [basket_loop].
      - split; [intros <-; now destruct (NX out)|]. intros (h & (l1 & l2 & E & _) & _). destruct l1; discriminate.
      - destruct (f i) as [temp|e|e] eqn:F.
        + rewrite IH. split.
          * intros (h & (l1 & l2 & -> & A) & B). exists h. split; [|exact B]. exists ((w, i) :: l1), l2. split; [reflexivity|].
            constructor; [exists temp; exact F|exact A].
          * intros (h & (l1 & l2 & E & A) & B). destruct l1 as [|h1 l1]; injection E as <- E.
            -- cbn [snd] in B. rewrite F in B. symmetry in B. now apply NX in B.
            -- exists h. split; [|exact B]. exists l1, l2. split; [exact E|]. now inversion A.
        + split.
          * intros <-. exists (w, i). split; [|exact F]. exists [], ms. split; [reflexivity|constructor].
          * intros (h & (l1 & l2 & E & A) & B). destruct l1 as [|h1 l1]; injection E as E1 E2.
            -- subst h. cbn [snd] in B. congruence.
            -- subst h1. inversion A; subst. destruct H1 as (y & Ey). cbn [snd] in Ey. congruence.
        + split.
          * intros <-. exists (w, i). split; [|exact F]. exists [], ms. split; [reflexivity|constructor].
          * intros (h & (l1 & l2 & E & A) & B). destruct l1 as [|h1 l1]; injection E as E1 E2.
            -- subst h. cbn [snd] in B. congruence.
            -- subst h1. inversion A; subst. destruct H1 as (y & Ey). cbn [snd] in Ey. congruence.
    Qed.
  End AnyLoop.

  (** The sums, term by term. *)
  Lemma add_weighted_at (w : T) temp out j a o : nth_error temp j = Some a -> nth_error out j = Some o ->
    nth_error (add_weighted w temp out) j = Some (nadd o (nmul a w)).
  Proof.
    revert out j. induction temp as [|b temp IH]; intros [|p out] [|j] A B; try discriminate; cbn in *.
    - injection A as ->. injection B as ->. reflexivity.
    - eauto.
  Qed.

  Lemma basket_loop_exact f n : (forall i l, f i = Ok l -> List.length l = n) -> forall ms out l, basket_loop f ms out = Ok l ->
    List.length out = n -> forall j o, nth_error out j = Some o ->
    exists ps, Forall2 (fun h p => nth_price f j (snd h) p) ms ps /\ nth_error l j = Some (sum_in_order o (map (fun q => nmul (snd q) (fst (fst q))) (combine ms ps))).
  Proof.
    intros FL. induction ms as [|(w, i) ms IH]; intros out l E L j o O; cbn [basket_loop] in E.
    - injection E as <-. exists []. split; [constructor|exact O].
    - destruct (f i) as [temp|e|e] eqn:F; try discriminate.
      destruct (nth_error_same out temp j) as (a & A); [rewrite (FL _ _ F); exact L|eauto|].
      destruct (IH _ _ E) with (j := j) (o := nadd o (nmul a w)) as (ps & P & X).
      + now rewrite add_weighted_length.
      + now apply add_weighted_at.
      + exists (a :: ps). split; [constructor; [exists temp; auto|exact P]|exact X].
  Qed.

  Lemma basket_exact id cr cur s ms dates l : prices (IBasket id cr cur s ms) dates = Ok l ->
    List.length l = List.length dates /\ forall j, (j < List.length dates)%nat -> exists ps, Forall2 (fun h p => nth_price (fun i => prices i dates) j (snd h) p) ms ps /\ nth_error l j = Some (sum_in_order n0 (map (fun q => nmul (snd q) (fst (fst q))) (combine ms ps))).
  Proof.
    intros E. split; [exact (prices_length _ _ _ E)|]. intros j J. cbn [M_Instruments.prices] in E.
    apply (basket_loop_exact (fun u => prices u dates) (List.length dates)) with (1 := fun i l => prices_length i dates l) (2 := E).
    - apply map_length.
    - rewrite nth_error_map. destruct (nth_error dates j) eqn:D; [reflexivity|]. apply nth_error_None in D. lia.
  Qed.

  Section AnyBasket.
    Variables (id cr : string) (cur : currency T) (s : date_rule T).
    Notation basket := (IBasket id cr cur s).

    Lemma basket_total ms dates :
      (exists l, prices (basket ms) dates = Ok l) <-> Forall (fun h => exists ps, prices (snd h) dates = Ok ps) ms.
    Proof. cbn [M_Instruments.prices]. symmetry. apply (basket_loop_ok (fun u => prices u dates)). Qed.

    Lemma basket_failure ms dates X : (forall a, X <> Ok a) ->
      (prices (basket ms) dates = X <->
       exists h : T * instrument T, first_failure (fun h => prices (snd h) dates) ms h /\ prices (snd h) dates = X).
    Proof. intros NX. cbn [M_Instruments.prices]. apply (basket_loop_bad (fun u => prices u dates) X NX). Qed.

  End AnyBasket.

  Lemma leaves_total dates w i ls : leaves w i ls ->
    (exists ps, prices i dates = Ok ps) <-> Forall (fun h => exists ps, prices (snd h) dates = Ok ps) ls.
  Proof.
    intros L. induction L using leaves_mut with
      (P0 := fun w ms ls _ => Forall (fun h => exists ps, prices (snd h) dates = Ok ps) ms <->
                              Forall (fun h => exists ps, prices (snd h) dates = Ok ps) ls).
    - split; [repeat constructor; assumption|]. intros A. now inversion A.
    - rewrite basket_total. exact IHL.
    - split; constructor.
    - rewrite Forall_app. rewrite <- IHL, <- IHL0. split.
      + intros A. inversion A; subst. auto.
      + intros (A & B). now constructor.
  Qed.

  Lemma leaves_exist i : forall w, exists ls, leaves w i ls.
  Proof.
    induction i as [cc|id cur s|id cr cur s|id cr cur ex pay s|id cr cur s ms IH|v k IH|v f d0 x0 IH] using instrument_nested_ind;
      intros w; try (eexists; apply leaf; discriminate).
    assert (exists l, all_leaves w ms l) as (l & L).
    { induction IH as [|(w', i) ms H IH IHl]; [eexists; constructor|]. destruct IHl as (l & L). destruct (H (nmul w w')) as (l' & L').
      eexists. constructor; eassumption. }
    exists l. now constructor.
  Qed.

End AnyArithmetic.

Lemma add_weighted_nth (w : R) temp out j a o : nth_error temp j = Some a -> nth_error out j = Some o ->
  nth_error (add_weighted w temp out) j = Some (o + w * a).
Proof.
  revert out j. induction temp as [|b temp IH]; intros [|p out] [|j] A B; try discriminate; cbn in *.
  - injection A as ->. injection B as ->. f_equal. lra.
  - eauto.
Qed.

Section Pricing.
  Variables (nan : R) (cdf : R -> R) (c : pricing_context R).
  Notation prices := (prices nan cdf c).
  Notation price := (price nan cdf c).

  (** ** Baskets *)
  Section Loop.
    Variables (f : instrument R -> res (list R)) (n : nat).
    Hypothesis FL : forall i l, f i = Ok l -> List.length l = n.

    Lemma basket_loop_sum ms : forall out l, basket_loop f ms out = Ok l -> List.length out = n ->
      forall j o, nth_error out j = Some o -> exists x, nth_error l j = Some (o + x) /\ adds_up (nth_price f j) ms x.
    Proof.
      induction ms as [|(w, i) ms IH]; intros out l E L j o O; cbn [basket_loop] in E.
      - injection E as <-. exists 0. rewrite Rplus_0_r. split; [exact O|constructor].
      - destruct (f i) as [temp|e|e] eqn:F; try discriminate.
        destruct (nth_error_same out temp j) as (a & A); [rewrite (FL _ _ F); exact L|eauto|].
        destruct (IH _ _ E) with (j := j) (o := o + w * a) as (x & X & S).
        + now rewrite add_weighted_length.
        + now apply add_weighted_nth.
        + exists (w * a + x). split; [rewrite X; f_equal; lra|]. constructor; [exists temp; auto|exact S].
    Qed.

  End Loop.

  Lemma adds_unique (val : instrument R -> R -> Prop) l x y : (forall i a b, val i a -> val i b -> a = b) ->
    adds_up val l x -> adds_up val l y -> x = y.
  Proof.
    intros U A. revert y. induction A; intros z B; inversion B; subst; [reflexivity|]. f_equal; [f_equal; eauto|auto].
  Qed.

  Lemma nth_price_unique (f : instrument R -> res (list R)) j i a b : nth_price f j i a -> nth_price f j i b -> a = b.
  Proof. intros (p & P & A) (q & Q & B). congruence. Qed.

  Section Basket.
    Variables (id cr : string) (cur : currency R) (s : date_rule R).
    Notation basket := (IBasket id cr cur s).

    Lemma basket_sum ms dates l : prices (basket ms) dates = Ok l ->
      List.length l = List.length dates /\
      forall j x, nth_error l j = Some x <-> (j < List.length dates)%nat /\ adds_up (nth_price (fun i => prices i dates) j) ms x.
    Proof.
      intros E. pose proof (prices_length nan cdf c _ _ _ E) as L. split; [exact L|]. cbn [M_Instruments.prices] in E.
      assert (K : forall j, (j < List.length dates)%nat -> exists x, nth_error l j = Some x /\ adds_up (nth_price (fun i => prices i dates) j) ms x).
      { intros j J. destruct (basket_loop_sum (fun u => prices u dates) (List.length dates)) with (1 := fun i l => prices_length nan cdf c i dates l)
          (2 := E) (j := j) (o := 0) as (x & X & A).
        - apply map_length.
        - rewrite nth_error_map. destruct (nth_error dates j) eqn:D; [reflexivity|]. apply nth_error_None in D. lia.
        - rewrite Rplus_0_l in X. eauto. }
      intros j x. split.
      - intros X. assert (j < List.length dates)%nat by (rewrite <- L; apply nth_error_Some; congruence).
        split; [assumption|]. destruct (K j H) as (y & Y & A). congruence.
      - intros (J & A). destruct (K j J) as (y & Y & B). rewrite Y. f_equal.
        exact (adds_unique _ _ _ _ (nth_price_unique _ _) B A).
    Qed.

    Lemma basket_concat ms ms' dates l l' : prices (basket ms) dates = Ok l -> prices (basket ms') dates = Ok l' ->
      exists m, prices (basket (ms ++ ms')) dates = Ok m /\
        forall j, nth_error m j = match nth_error l j, nth_error l' j with Some x, Some y => Some (x + y) | _, _ => None end.
    Proof.
      intros E E'. assert (exists m, prices (basket (ms ++ ms')) dates = Ok m) as (m & M).
      { apply basket_total. apply Forall_app. split; apply (proj1 (basket_total nan cdf c id cr cur s _ dates)); eauto. }
      exists m. split; [exact M|]. intros j.
      destruct (basket_sum _ _ _ E) as (L & S), (basket_sum _ _ _ E') as (L' & S'), (basket_sum _ _ _ M) as (LM & SM).
      destruct (nth_error l j) as [x|] eqn:X.
      - assert (exists y, nth_error l' j = Some y) as (y & Y) by (apply (nth_error_same l l'); [congruence|eauto]). rewrite Y.
        apply SM. apply S in X. apply S' in Y. split; [tauto|]. apply adds_app; tauto.
      - apply nth_error_None in X. apply nth_error_None. lia.
    Qed.
  End Basket.

  (** ** Nested baskets *)
  Lemma leaves_sum dates j w i ls : leaves w i ls ->
    forall x, nth_price (fun i => prices i dates) j i x -> adds_up (nth_price (fun i => prices i dates) j) ls (w * x).
  Proof.
    intros L. induction L using leaves_mut with
      (P0 := fun w ms ls _ => forall x, adds_up (nth_price (fun i => prices i dates) j) ms x ->
               adds_up (nth_price (fun i => prices i dates) j) ls (w * x)).
    - intros x X. rewrite <- (Rplus_0_r (w * x)). constructor; [exact X|constructor].
    - intros x (ps & P & X). apply IHL. apply (proj2 (basket_sum _ _ _ _ _ _ _ P)) in X. tauto.
    - intros x X. inversion X; subst. rewrite Rmult_0_r. constructor.
    - intros x X. inversion X; subst. replace (w * (w' * x0 + y)) with (w * w' * x0 + w * y) by lra.
      apply adds_app; auto.
  Qed.

  (** ** Cash *)
  Lemma zero_coupon_value id cr cur ex pay s d yc st u v : ctx_yield_curve c cr pay = Ok yc -> dt_leb d ex = true ->
    apply_rule s (dt_date d) = Ok st -> rt nan yc pay = Ok u -> rt nan yc st = Ok v ->
    price (IZeroCoupon id cr cur ex pay s) d = Ok (exp (- (u - v))).
  Proof.
    intros Y L ST U V. unfold M_Instruments.price, first_price. cbn [M_Instruments.prices mapM]. rewrite Y. cbn [bind].
    rewrite L, ST. cbn [bind]. rewrite (df_of_rt _ _ _ _ _ _ U V). cbn [bind]. do 2 f_equal. lra.
  Qed.

  Lemma zero_coupon_settled id cr cur ex pay s d yc : ctx_yield_curve c cr pay = Ok yc -> dt_leb d ex = true ->
    apply_rule s (dt_date d) = Ok pay -> price (IZeroCoupon id cr cur ex pay s) d = Ok 1.
  Proof.
    intros Y L ST. unfold M_Instruments.price, first_price. cbn [M_Instruments.prices mapM]. rewrite Y. cbn [bind].
    rewrite L, ST. cbn [bind]. now rewrite df_same.
  Qed.

  Lemma zero_coupon_gone id cr cur ex pay s d yc : ctx_yield_curve c cr pay = Ok yc -> dt_leb d ex = false ->
    price (IZeroCoupon id cr cur ex pay s) d = Ok 0.
  Proof.
    intros Y L. unfold M_Instruments.price, first_price. cbn [M_Instruments.prices mapM]. rewrite Y. cbn [bind]. now rewrite L.
  Qed.

  Lemma zero_coupon_batch id cr cur ex pay s dates l : prices (IZeroCoupon id cr cur ex pay s) dates = Ok l ->
    forall j d, nth_error dates j = Some d -> exists x, nth_error l j = Some x /\ price (IZeroCoupon id cr cur ex pay s) d = Ok x.
  Proof.
    intros E j d D. cbn [M_Instruments.prices] in E. destruct (ctx_yield_curve c cr pay) as [yc|e|e] eqn:Y; try discriminate.
    cbn [bind] in E. apply mapM_forall2 in E. destruct (forall2_nth _ _ _ E j d D) as (x & X & P). exists x. split; [exact X|].
    unfold M_Instruments.price, first_price. cbn [M_Instruments.prices mapM]. rewrite Y. cbn [bind]. rewrite P. reflexivity.
  Qed.

  Lemma zero_coupon_below_one id cr cur ex pay s d b l u : ctx_yield_curve c cr pay = Ok (RateCurveAct365 b l) ->
    dt_leb d ex = true -> apply_rule s (dt_date d) = Ok b -> (b < pay)%Z -> rt nan (RateCurveAct365 b l) pay = Ok u -> 0 < u ->
    exists x, price (IZeroCoupon id cr cur ex pay s) d = Ok x /\ 0 < x < 1.
  Proof.
    intros Y L ST B U P. destruct (df_above_one nan b l pay u B U P) as (y & D & G).
    apply df_inverse in D. exists (/ y). split.
    - unfold M_Instruments.price, first_price. cbn [M_Instruments.prices mapM]. rewrite Y. cbn [bind].
      rewrite L, ST. cbn [bind]. now rewrite D.
    - split; [apply Rinv_0_lt_compat; lra|]. rewrite <- Rinv_1. apply Rinv_lt_contravar; lra.
  Qed.

  Lemma currency_one cc dates l : prices (ICurrency cc) dates = Ok l -> forall j d, nth_error dates j = Some d -> nth_error l j = Some 1.
  Proof. cbn [M_Instruments.prices]. intros E. injection E as <-. intros j d D. rewrite nth_error_map, D. reflexivity. Qed.

  (** ** Options *)
  Record vanilla_data (v : vanilla R) (from : ddf R) (sf : res (R * R)) (yc : curve R) (vol : vol_surface R) (strike fwd u disp : R) : Prop := {
    vd_curve : ctx_yield_curve c (credit_id (van_underlying v)) (van_pay_date v) = Ok yc;
    vd_vol : ctx_vol_surface c (van_underlying v) (dt_date (van_expiry v)) (ctx_forward_curve c (van_underlying v) (dt_date (van_expiry v))) = Ok vol;
    vd_strike : sf = Ok (strike, fwd);
    vd_rt : rt nan yc (van_pay_date v) = Ok u;
    vd_disp : displacement nan vol (dt_date (van_expiry v)) = Ok disp;
    vd_positive : 0 <= fwd - disp
  }.

  Lemma vanilla_open v dates from sf l : dates <> [] -> (vanilla_prices nan cdf c v dates from sf = Ok l <->
    exists yc vol strike fwd u disp, vanilla_data v from sf yc vol strike fwd u disp /\
      mapM (vanilla_price nan cdf v from yc vol strike (strike + disp) (fwd - disp) (exp (- u))) dates = Ok l).
  Proof.
    intros ND. unfold vanilla_prices. destruct dates as [|d dates]; [congruence|]. split.
    - intros E.
      destruct (ctx_yield_curve c _ _) as [yc|e|e] eqn:Y; cbn [bind] in E; try discriminate.
      destruct (ctx_vol_surface c _ _ _) as [vol|e|e] eqn:V; cbn [bind] in E; try discriminate.
      destruct sf as [(strike, fwd)|e|e]; cbn [bind] in E; try discriminate.
      destruct (rt nan yc _) as [u|e|e] eqn:U; cbn [bind] in E; try discriminate.
      destruct (displacement nan vol _) as [disp|e|e] eqn:D; cbn [bind] in E; try discriminate.
      unfold guard in E. rnum. destruct (Rltb_spec (fwd - disp) 0) as [Q|Q]; cbn [negb bind] in E; try discriminate.
      exists yc, vol, strike, fwd, u, disp. split; [constructor; auto; lra|exact E].
    - intros (yc & vol & strike & fwd & u & disp & [Y V SF U D P] & E). rewrite Y. cbn [bind]. rewrite V. cbn [bind].
      rewrite SF. cbn [bind]. rewrite U. cbn [bind]. rewrite D. cbn [bind]. unfold guard. rnum.
      destruct (Rltb_spec (fwd - disp) 0); [lra|]. exact E.
  Qed.

  Lemma option_expired v from sf dates l : vanilla_prices nan cdf c v dates from sf = Ok l ->
    forall j d, nth_error dates j = Some d -> dt_leb d (van_expiry v) = false -> nth_error l j = Some 0.
  Proof.
    intros E j d D G. destruct dates as [|d0 ds]; [destruct j; discriminate|].
    apply vanilla_open in E; [|discriminate]. destruct E as (yc & vol & strike & fwd & u & disp & _ & E).
    apply mapM_forall2 in E. destruct (forall2_nth _ _ _ E j d D) as (x & X & P). unfold vanilla_price in P. rewrite G in P.
    injection P as <-. exact X.
  Qed.

  Section Parity.
    Hypothesis sym : forall x, cdf (- x) = 1 - cdf x.

    Lemma data_kind v pc from sf yc vol strike fwd u disp :
      vanilla_data v from sf yc vol strike fwd u disp -> vanilla_data (as_kind pc v) from sf yc vol strike fwd u disp.
    Proof. intros [A B C D E F]. constructor; assumption. Qed.

    Lemma as_kind_id v : as_kind (van_put_or_call v) v = v.
    Proof. now destruct v. Qed.

    Lemma parity_one v from yc vol strike k f w d x : vanilla_price nan cdf (as_kind Call v) from yc vol strike k f w d = Ok x ->
      exists y, vanilla_price nan cdf (as_kind Put v) from yc vol strike k f w d = Ok y /\
        (dt_leb d (van_expiry v) = true -> exists st r, apply_rule (van_settlement v) (dt_date d) = Ok st /\ rt nan yc st = Ok r /\
           x - y = w * exp r * (f - k)).
    Proof.
      unfold vanilla_price. cbn [as_kind van_expiry van_settlement van_underlying van_expiry_time van_put_or_call].
      destruct (dt_leb d (van_expiry v)); [|intros E; injection E as <-; exists 0; split; [reflexivity|discriminate]].
      intros E. destruct (apply_rule _ _) as [st|e|e] eqn:ST; cbn [bind] in *; try discriminate.
      destruct (rt nan yc st) as [r|e|e] eqn:RT; cbn [bind] in *; try discriminate.
      destruct (time_to_day_fraction _ _) as [val|e|e] eqn:TT; cbn [bind] in *; try discriminate.
      destruct (forward_variance _ _ _ _ _) as [q|e|e] eqn:FV; cbn [bind] in *; try discriminate.
      destruct (guard _ _); cbn [bind] in *; try discriminate. injection E as <-. eexists. split; [reflexivity|].
      intros _. exists st, r. split; [reflexivity|]. split; [exact RT|]. apply (parity cdf). exact sym.
    Qed.

    Lemma parity_batch v from sf dates lc : vanilla_prices nan cdf c (as_kind Call v) dates from sf = Ok lc ->
      exists lp, vanilla_prices nan cdf c (as_kind Put v) dates from sf = Ok lp /\
        forall j d x y, nth_error dates j = Some d -> dt_leb d (van_expiry v) = true -> nth_error lc j = Some x -> nth_error lp j = Some y ->
          exists yc vol strike fwd u disp st r, vanilla_data v from sf yc vol strike fwd u disp /\
            apply_rule (van_settlement v) (dt_date d) = Ok st /\ rt nan yc st = Ok r /\
            x - y = exp (- (u - r)) * (fwd - strike - 2 * disp).
    Proof.
      intros E. destruct dates as [|d0 ds]; [exists []; split; [reflexivity|intros [|j]; discriminate]|].
      apply vanilla_open in E; [|discriminate]. destruct E as (yc & vol & strike & fwd & u & disp & VD & E).
      apply mapM_forall2 in E.
      assert (exists lp, Forall2 (fun d y => vanilla_price nan cdf (as_kind Put v) from yc vol strike (strike + disp) (fwd - disp) (exp (- u)) d = Ok y) (d0 :: ds) lp) as (lp & P).
      { clear - E sym. induction E as [|d x dates l H E IH]; [exists []; constructor|]. destruct IH as (lp & P).
        destruct (parity_one _ _ _ _ _ _ _ _ _ _ H) as (y & Y & _). exists (y :: lp). now constructor. }
      exists lp. split.
      - apply vanilla_open; [discriminate|]. exists yc, vol, strike, fwd, u, disp. split; [destruct VD; constructor; assumption|].
        now apply mapM_forall2.
      - intros j d x y D L X Y. destruct (forall2_nth _ _ _ E j d D) as (x' & X' & EX). destruct (forall2_nth _ _ _ P j d D) as (y' & Y' & EY).
        assert (x' = x) by congruence. assert (y' = y) by congruence. subst x' y'.
        destruct (parity_one _ _ _ _ _ _ _ _ _ _ EX) as (y' & EY' & Q). assert (y' = y) by congruence. subst y'.
        destruct (Q L) as (st & r & ST & RT & PR). exists yc, vol, strike, fwd, u, disp, st, r.
        split; [destruct VD; constructor; assumption|]. split; [exact ST|]. split; [exact RT|].
        rewrite PR, <- exp_plus. replace (- u + r) with (- (u - r)) by lra. f_equal. lra.
    Qed.
  End Parity.

  Lemma expired_worthless i v dates l : (exists k, i = ISpotEuropean v k) \/ (exists f d x, i = IForwardEuropean v f d x) ->
    prices i dates = Ok l ->
    forall j d, nth_error dates j = Some d -> dt_leb d (van_expiry v) = false -> nth_error l j = Some 0.
  Proof.
    intros [(k & ->)|(f & d & x & ->)] E; cbn [M_Instruments.prices] in E.
    - eapply option_expired. exact E.
    - destruct (_ <? _)%Z; [discriminate|]. eapply option_expired. exact E.
  Qed.

  Lemma spot_parity : (forall x, cdf (- x) = 1 - cdf x) -> forall v k dates lc,
    prices (ISpotEuropean (as_kind Call v) k) dates = Ok lc ->
    exists lp, prices (ISpotEuropean (as_kind Put v) k) dates = Ok lp /\
      forall j d x y, nth_error dates j = Some d -> dt_leb d (van_expiry v) = true -> nth_error lc j = Some x -> nth_error lp j = Some y ->
      exists F yc vol disp u st r,
        price (van_underlying v) (van_expiry v) = Ok F /\
        ctx_yield_curve c (credit_id (van_underlying v)) (van_pay_date v) = Ok yc /\
        ctx_vol_surface c (van_underlying v) (dt_date (van_expiry v)) (ctx_forward_curve c (van_underlying v) (dt_date (van_expiry v))) = Ok vol /\
        displacement nan vol (dt_date (van_expiry v)) = Ok disp /\
        rt nan yc (van_pay_date v) = Ok u /\ apply_rule (van_settlement v) (dt_date d) = Ok st /\ rt nan yc st = Ok r /\
        x - y = exp (- (u - r)) * (F - k - 2 * disp).
  Proof.
    intros sym v k dates lc E. cbn [M_Instruments.prices] in *. destruct (parity_batch sym v _ _ _ _ E) as (lp & P & Q). exists lp. split; [exact P|].
    intros j d x y D L X Y. destruct (Q j d x y D L X Y) as (yc & vol & strike & fwd & u & disp & st & r & [A B C D' E' F'] & ST & RT & PR).
    cbn [as_kind van_underlying van_expiry] in C. unfold M_Instruments.price.
    destruct (first_price _) as [F|e|e]; try discriminate. injection C as <- <-.
    exists F, yc, vol, disp, u, st, r. split; [reflexivity|]. repeat (split; [assumption|]). assumption.
  Qed.

  Lemma forward_parity : (forall x, cdf (- x) = 1 - cdf x) -> forall v f d0 x0 dates lc,
    prices (IForwardEuropean (as_kind Call v) f d0 x0) dates = Ok lc ->
    exists lp, prices (IForwardEuropean (as_kind Put v) f d0 x0) dates = Ok lp /\
      forall j d x y, nth_error dates j = Some d -> dt_leb d (van_expiry v) = true -> nth_error lc j = Some x -> nth_error lp j = Some y ->
      exists F0 F yc vol disp u st r,
        prices (van_underlying v) [d0; van_expiry v] = Ok [F0; F] /\
        ctx_yield_curve c (credit_id (van_underlying v)) (van_pay_date v) = Ok yc /\
        ctx_vol_surface c (van_underlying v) (dt_date (van_expiry v)) (ctx_forward_curve c (van_underlying v) (dt_date (van_expiry v))) = Ok vol /\
        displacement nan vol (dt_date (van_expiry v)) = Ok disp /\
        rt nan yc (van_pay_date v) = Ok u /\ apply_rule (van_settlement v) (dt_date d) = Ok st /\ rt nan yc st = Ok r /\
        x - y = exp (- (u - r)) * (F - F0 * f - 2 * disp).
  Proof.
    intros sym v f d0 x0 dates lc E. cbn [M_Instruments.prices] in *. destruct (_ <? _)%Z; [discriminate|].
    destruct (parity_batch sym v _ _ _ _ E) as (lp & P & Q). exists lp. split; [exact P|].
    intros j d x y D L X Y. destruct (Q j d x y D L X Y) as (yc & vol & strike & fwd & u & disp & st & r & [A B C D' E' F'] & ST & RT & PR).
    cbn [as_kind van_underlying van_expiry] in C.
    destruct (M_Instruments.prices nan cdf c (van_underlying v) _) as [ps|e|e]; try discriminate. cbn [bind] in C.
    destruct ps as [|F0 [|F [|? ?]]]; try discriminate. injection C as <- <-.
    exists F0, F, yc, vol, disp, u, st, r. split; [reflexivity|]. repeat (split; [assumption|]). assumption.
  Qed.

  (** ** A forward-starting option and the spot-starting one it becomes *)
  Lemma forward_start_price v f d0 x0 x F dates :
    (ctx_spot_date c <= dt_date d0)%Z -> prices (van_underlying v) [d0; van_expiry v] = Ok [x; F] ->
    price (van_underlying v) (van_expiry v) = Ok F ->
    (forall d, In d dates -> dt_leb d (van_expiry v) = true -> exists t, time_to_day_fraction (van_underlying v) d = Ok t /\
       ddf_leb x0 t = true /\ ddf_leb (mkDDF from_nil 0) t = true) ->
    prices (IForwardEuropean v f d0 x0) dates = prices (ISpotEuropean v (x * f)) dates.
  Proof.
    intros S P Q A. cbn [M_Instruments.prices]. destruct (Z.ltb_spec (dt_date d0) (ctx_spot_date c)); [lia|].
    rewrite P. cbn [bind]. unfold M_Instruments.price in Q. rewrite Q. cbn [bind]. unfold vanilla_prices. destruct dates as [|d1 dates]; [reflexivity|].
    destruct (ctx_yield_curve c _ _) as [yc|e|e]; cbn [bind]; try reflexivity.
    destruct (ctx_vol_surface c _ _ _) as [vol|e|e]; cbn [bind]; try reflexivity.
    destruct (rt nan yc _) as [u|e|e]; cbn [bind]; try reflexivity.
    destruct (displacement nan vol _) as [disp|e|e]; cbn [bind]; try reflexivity.
    destruct (guard _ _); cbn [bind]; try reflexivity.
    revert A. generalize (d1 :: dates). intros l A. rnum. induction l as [|d l IH]; [reflexivity|]. cbn [mapM].
    assert (G : forall k1 f1 w, vanilla_price nan cdf v x0 yc vol (x * f) k1 f1 w d = vanilla_price nan cdf v (mkDDF from_nil n0) yc vol (x * f) k1 f1 w d).
    { intros k1 f1 w. unfold vanilla_price. destruct (dt_leb d (van_expiry v)) eqn:L; [|reflexivity].
      destruct (A d (or_introl eq_refl) L) as (t & T & L1 & L2). rewrite T. cbn [bind]. change (@n0 R RNum) with 0. now rewrite L1, L2. }
    rewrite G, IH; [reflexivity|]. intros d' I. apply A. now right.
  Qed.

  (** ** A settled option at expiry *)
  Lemma fixed_value_at_expiry t v k x yc : apply_rule (van_settlement v) (dt_date (van_expiry v)) = Ok (van_pay_date v) ->
    get_optional t (instrument_id (van_underlying v)) (van_expiry v) = Some x ->
    ctx_yield_curve c (van_credit_id v) (van_pay_date v) = Ok yc ->
    (van_cash_or_physical v = PhysicalSettled -> price (van_underlying v) (van_expiry v) = Ok x) ->
    exists d, fix_instrument t (ISpotEuropean v k) = Ok (Some d) /\
      adds_up (fun i y => price i (van_expiry v) = Ok y) d (payoff (van_put_or_call v) x k).
  Proof.
    intros A G Y U. destruct (fix_settles t v k x G) as (d & E & S). exists d. split; [exact E|].
    assert (Z : price (payment_of v) (van_expiry v) = Ok 1).
    { eapply zero_coupon_settled; eauto. apply dt_leb_refl. }
    destruct (van_cash_or_physical v) eqn:C.
    - rewrite (fix_cash t v k x G C) in E. injection E as <-. set (p := payoff _ _ _) in *.
      assert (0 <= p) by (unfold p; rewrite payoff_sign; apply Rmax_r). destruct (Rltb_spec 0 p).
      + rewrite <- (Rmult_1_r p) at 2. rewrite <- (Rplus_0_r (p * 1)). constructor; [exact Z|constructor].
      + replace p with 0 by lra. constructor.
    - refine (adds_impl _ _ _ _ _ S). intros i y [((id & cur & ->) & ->)|(-> & ->)]; [|auto].
      eapply zero_coupon_settled; eauto. apply dt_leb_refl.
  Qed.
End Pricing.
