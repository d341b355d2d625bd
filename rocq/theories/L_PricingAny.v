(** Bonds, currencies and options priced and fixed in any arithmetic. *)
From Coq Require Import ZArith List String Bool Lia.
From Verif Require Import Prelude Num M_Dates M_Calendar M_Curves M_Fixings M_Forward M_Vol M_Black76 M_Instruments S_Instruments
  L_Num L_Vol L_Instruments L_Pricing.
Import ListNotations.
Open Scope list_scope.

Section Any.
  Context {T : Type} {N : Num T} {TR : Trans T}.

  (** ** Fixing *)
  Lemma fix_cash_any (t : fixing_table T) v k x : get_optional t (instrument_id (van_underlying v)) (van_expiry v) = Some x ->
    van_cash_or_physical v = CashSettled ->
    let pay := nmul (option_sign (van_put_or_call v)) (nsub x k) in
    fix_instrument t (ISpotEuropean v k) = Ok (Some (if nltb n0 pay then [(pay, payment_of v)] else [])).
  Proof. intros F C. cbn [fix_instrument]. unfold fix_spot_european. rewrite (proj1 (get_fixing_cases t _ _) x F), C. reflexivity. Qed.

  Lemma fix_physical_any (t : fixing_table T) v k x : get_optional t (instrument_id (van_underlying v)) (van_expiry v) = Some x ->
    van_cash_or_physical v = PhysicalSettled ->
    let sign := option_sign (van_put_or_call v) in
    fix_instrument t (ISpotEuropean v k) =
      Ok (Some (if nltb n0 (nmul sign (nsub x k)) then [(nmul (nopp k) sign, payment_of v); (sign, van_underlying v)] else [])).
  Proof. intros F C. cbn [fix_instrument]. unfold fix_spot_european. rewrite (proj1 (get_fixing_cases t _ _) x F), C. reflexivity. Qed.

  (** ** Prices *)
  Variables (nan : T) (cdf : T -> T) (c : pricing_context T).
  Notation prices := (prices nan cdf c).
  Notation price := (price nan cdf c).

  Lemma zero_coupon_is_df id cr cur ex pay s d yc st : ctx_yield_curve c cr pay = Ok yc -> dt_leb d ex = true ->
    apply_rule s (dt_date d) = Ok st -> price (IZeroCoupon id cr cur ex pay s) d = df nan yc pay st.
  Proof.
    intros Y L ST. unfold M_Instruments.price, first_price. cbn [M_Instruments.prices mapM]. rewrite Y. cbn [bind].
    rewrite L, ST. cbn [bind]. destruct (df nan yc pay st); reflexivity.
  Qed.

  Lemma zero_coupon_gone_any id cr cur ex pay s d yc : ctx_yield_curve c cr pay = Ok yc -> dt_leb d ex = false ->
    price (IZeroCoupon id cr cur ex pay s) d = Ok n0.
  Proof. intros Y L. unfold M_Instruments.price, first_price. cbn [M_Instruments.prices mapM]. rewrite Y. cbn [bind]. now rewrite L. Qed.

  Lemma zero_coupon_batch_any id cr cur ex pay s dates l : prices (IZeroCoupon id cr cur ex pay s) dates = Ok l ->
    forall j d, nth_error dates j = Some d -> exists x, nth_error l j = Some x /\ price (IZeroCoupon id cr cur ex pay s) d = Ok x.
  Proof.
    intros E j d D. cbn [M_Instruments.prices] in E. destruct (ctx_yield_curve c cr pay) as [yc|e|e] eqn:Y; try discriminate.
    cbn [bind] in E. apply mapM_forall2 in E. destruct (forall2_nth _ _ _ E j d D) as (x & X & P). exists x. split; [exact X|].
    unfold M_Instruments.price, first_price. cbn [M_Instruments.prices mapM]. rewrite Y. cbn [bind]. rewrite P. reflexivity.
  Qed.

  Lemma currency_one_any cc dates l : prices (ICurrency cc) dates = Ok l -> forall j d, nth_error dates j = Some d -> nth_error l j = Some n1.
  Proof. cbn [M_Instruments.prices]. intros E. injection E as <-. intros j d D. rewrite nth_error_map, D. reflexivity. Qed.

  (** Black's formula for a call or a put. *)
  Lemma vanilla_any v dates from sf l : vanilla_prices nan cdf c v dates from sf = Ok l ->
    forall j d x, nth_error dates j = Some d -> nth_error l j = Some x ->
    exists yc vol k F u disp,
      ctx_yield_curve c (credit_id (van_underlying v)) (van_pay_date v) = Ok yc /\
      ctx_vol_surface c (van_underlying v) (dt_date (van_expiry v)) (ctx_forward_curve c (van_underlying v) (dt_date (van_expiry v))) = Ok vol /\
      sf = Ok (k, F) /\ rt nan yc (van_pay_date v) = Ok u /\ displacement nan vol (dt_date (van_expiry v)) = Ok disp /\
      nltb (nsub F disp) n0 = false /\
      vanilla_price nan cdf v from yc vol k (nadd k disp) (nsub F disp) (nexp (nopp u)) d = Ok x.
  Proof.
    intros E j d x D X. unfold vanilla_prices in E. destruct dates as [|d0 ds]; [destruct j; discriminate|].
    destruct (ctx_yield_curve c _ _) as [yc|e|e] eqn:Y; cbn [bind] in E; try discriminate.
    destruct (ctx_vol_surface c _ _ _) as [vol|e|e] eqn:V; cbn [bind] in E; try discriminate.
    destruct sf as [(strike, fwd)|e|e]; cbn [bind] in E; try discriminate.
    destruct (rt nan yc _) as [u|e|e] eqn:U; cbn [bind] in E; try discriminate.
    destruct (displacement nan vol _) as [disp|e|e] eqn:Ds; cbn [bind] in E; try discriminate.
    unfold guard in E. destruct (nltb (nsub fwd disp) n0) eqn:G; cbn [negb bind] in E; try discriminate.
    apply mapM_forall2 in E. destruct (forall2_nth _ _ _ E j d D) as (x' & X' & P). assert (x' = x) by congruence. subst x'.
    exists yc, vol, strike, fwd, u, disp. repeat (split; [solve [reflexivity | assumption]|]). exact P.
  Qed.

  Lemma vanilla_expired_any v dates from sf l : vanilla_prices nan cdf c v dates from sf = Ok l ->
    forall j d, nth_error dates j = Some d -> dt_leb d (van_expiry v) = false -> nth_error l j = Some n0.
  Proof.
    intros E j d D L. pose proof (vanilla_length _ _ _ _ _ _ _ _ E) as Len.
    destruct (nth_error l j) as [x|] eqn:X.
    - destruct (vanilla_any v dates from sf l E j d x D X) as (yc & vol & k & F & u & disp & _ & _ & _ & _ & _ & _ & P).
      unfold vanilla_price in P. rewrite L in P. congruence.
    - apply nth_error_None in X. assert (j < List.length dates)%nat by (apply nth_error_Some; congruence). lia.
  Qed.

  Lemma expired_any i v dates l : (exists k, i = ISpotEuropean v k) \/ (exists f d x, i = IForwardEuropean v f d x) ->
    prices i dates = Ok l -> forall j d, nth_error dates j = Some d -> dt_leb d (van_expiry v) = false -> nth_error l j = Some n0.
  Proof.
    intros [(k & ->)|(f & d & x & ->)] E; cbn [M_Instruments.prices] in E.
    - eapply vanilla_expired_any. exact E.
    - destruct (_ <? _)%Z; [discriminate|]. eapply vanilla_expired_any. exact E.
  Qed.

  Definition black (pc : put_or_call) : T -> T -> T -> T -> T :=
    match pc with Call => call_price cdf | Put => put_price cdf end.

  Lemma vanilla_black v from yc vol strike k f w d x : dt_leb d (van_expiry v) = true ->
    vanilla_price nan cdf v from yc vol strike k f w d = Ok x ->
    exists st r now q, apply_rule (van_settlement v) (dt_date d) = Ok st /\ rt nan yc st = Ok r /\
      time_to_day_fraction (van_underlying v) d = Ok now /\
      forward_variance nan vol (if ddf_leb from now then now else from) (van_expiry_time v) strike = Ok q /\ nltb q n0 = false /\
      x = black (van_put_or_call v) (nmul w (nexp r)) f k (nsqrt q).
  Proof.
    intros L E. unfold vanilla_price in E. rewrite L in E.
    destruct (apply_rule _ _) as [st|e|e] eqn:ST; cbn [bind] in *; try discriminate.
    destruct (rt nan yc st) as [r|e|e] eqn:RT; cbn [bind] in *; try discriminate.
    destruct (time_to_day_fraction _ _) as [now|e|e] eqn:TT; cbn [bind] in *; try discriminate.
    destruct (forward_variance _ _ _ _ _) as [q|e|e] eqn:FV; cbn [bind] in *; try discriminate.
    unfold guard in E. destruct (nltb q n0) eqn:Q; cbn [negb bind] in *; try discriminate.
    exists st, r, now, q. repeat (split; [solve [reflexivity | assumption]|]). unfold black. destruct (van_put_or_call v); congruence.
  Qed.

  Lemma spot_black v k dates l : prices (ISpotEuropean v k) dates = Ok l ->
    forall j d x, nth_error dates j = Some d -> dt_leb d (van_expiry v) = true -> nth_error l j = Some x ->
    exists F yc vol disp u st r now q,
      price (van_underlying v) (van_expiry v) = Ok F /\
      ctx_yield_curve c (credit_id (van_underlying v)) (van_pay_date v) = Ok yc /\
      ctx_vol_surface c (van_underlying v) (dt_date (van_expiry v)) (ctx_forward_curve c (van_underlying v) (dt_date (van_expiry v))) = Ok vol /\
      displacement nan vol (dt_date (van_expiry v)) = Ok disp /\ rt nan yc (van_pay_date v) = Ok u /\
      apply_rule (van_settlement v) (dt_date d) = Ok st /\ rt nan yc st = Ok r /\
      time_to_day_fraction (van_underlying v) d = Ok now /\
      forward_variance nan vol (if ddf_leb (mkDDF from_nil n0) now then now else mkDDF from_nil n0) (van_expiry_time v) k = Ok q /\
      nltb (nsub F disp) n0 = false /\ nltb q n0 = false /\
      x = black (van_put_or_call v) (nmul (nexp (nopp u)) (nexp r)) (nsub F disp) (nadd k disp) (nsqrt q).
  Proof.
    intros E j d x D L X. cbn [M_Instruments.prices] in E.
    destruct (vanilla_any v dates _ _ l E j d x D X) as (yc & vol & k' & F & u & disp & Y & V & SF & U & Ds & G & P).
    destruct (vanilla_black v _ _ _ _ _ _ _ _ _ L P) as (st & r & now & q & ST & RT & TT & FV & Q & Ex).
    unfold M_Instruments.price. destruct (first_price _) as [F'|e|e]; cbn [bind] in SF; try discriminate. injection SF as <- <-.
    exists F', yc, vol, disp, u, st, r, now, q. repeat (split; [solve [reflexivity | assumption]|]). exact Ex.
  Qed.

  Lemma spot_priced v k d F yc vol disp u st r now q : dt_leb d (van_expiry v) = true ->
    price (van_underlying v) (van_expiry v) = Ok F ->
    ctx_yield_curve c (credit_id (van_underlying v)) (van_pay_date v) = Ok yc ->
    ctx_vol_surface c (van_underlying v) (dt_date (van_expiry v)) (ctx_forward_curve c (van_underlying v) (dt_date (van_expiry v))) = Ok vol ->
    displacement nan vol (dt_date (van_expiry v)) = Ok disp -> rt nan yc (van_pay_date v) = Ok u ->
    apply_rule (van_settlement v) (dt_date d) = Ok st -> rt nan yc st = Ok r ->
    time_to_day_fraction (van_underlying v) d = Ok now ->
    forward_variance nan vol (if ddf_leb (mkDDF from_nil n0) now then now else mkDDF from_nil n0) (van_expiry_time v) k = Ok q ->
    nltb (nsub F disp) n0 = false -> nltb q n0 = false ->
    price (ISpotEuropean v k) d = Ok (black (van_put_or_call v) (nmul (nexp (nopp u)) (nexp r)) (nsub F disp) (nadd k disp) (nsqrt q)).
  Proof.
    intros L P Y V Ds U ST RT TT FV G Q. unfold M_Instruments.price in *. cbn [M_Instruments.prices]. rewrite P. cbn [bind].
    unfold vanilla_prices. rewrite Y. cbn [bind]. rewrite V. cbn [bind]. rewrite U. cbn [bind]. rewrite Ds. cbn [bind]. unfold guard. rewrite G. cbn [negb bind mapM].
    unfold vanilla_price. rewrite L, ST. cbn [bind]. rewrite RT. cbn [bind]. rewrite TT. cbn [bind]. rewrite FV. cbn [bind]. unfold guard. rewrite Q. cbn [negb bind first_price].
    unfold black. destruct (van_put_or_call v); reflexivity.
  Qed.

  Lemma forward_black v f d0 x0 dates l : prices (IForwardEuropean v f d0 x0) dates = Ok l ->
    forall j d x, nth_error dates j = Some d -> dt_leb d (van_expiry v) = true -> nth_error l j = Some x ->
    exists F0 F yc vol disp u st r now q,
      prices (van_underlying v) [d0; van_expiry v] = Ok [F0; F] /\
      ctx_yield_curve c (credit_id (van_underlying v)) (van_pay_date v) = Ok yc /\
      ctx_vol_surface c (van_underlying v) (dt_date (van_expiry v)) (ctx_forward_curve c (van_underlying v) (dt_date (van_expiry v))) = Ok vol /\
      displacement nan vol (dt_date (van_expiry v)) = Ok disp /\ rt nan yc (van_pay_date v) = Ok u /\
      apply_rule (van_settlement v) (dt_date d) = Ok st /\ rt nan yc st = Ok r /\
      time_to_day_fraction (van_underlying v) d = Ok now /\
      forward_variance nan vol (if ddf_leb x0 now then now else x0) (van_expiry_time v) (nmul F0 f) = Ok q /\
      nltb (nsub F disp) n0 = false /\ nltb q n0 = false /\
      x = black (van_put_or_call v) (nmul (nexp (nopp u)) (nexp r)) (nsub F disp) (nadd (nmul F0 f) disp) (nsqrt q).
  Proof.
    intros E j d x D L X. cbn [M_Instruments.prices] in E. destruct (_ <? _)%Z; [discriminate|].
    destruct (vanilla_any v dates _ _ l E j d x D X) as (yc & vol & k' & F & u & disp & Y & V & SF & U & Ds & G & P).
    destruct (vanilla_black v _ _ _ _ _ _ _ _ _ L P) as (st & r & now & q & ST & RT & TT & FV & Q & Ex).
    destruct (M_Instruments.prices nan cdf c (van_underlying v) _) as [ps|e|e]; cbn [bind] in SF; try discriminate.
    destruct ps as [|F0 [|F' [|? ?]]]; try discriminate. injection SF as <- <-.
    exists F0, F', yc, vol, disp, u, st, r, now, q. repeat (split; [solve [reflexivity | assumption]|]). exact Ex.
  Qed.

  Lemma forward_start_any v f d0 x0 x F dates :
    (ctx_spot_date c <= dt_date d0)%Z -> prices (van_underlying v) [d0; van_expiry v] = Ok [x; F] ->
    price (van_underlying v) (van_expiry v) = Ok F ->
    (forall d, In d dates -> dt_leb d (van_expiry v) = true -> exists t, time_to_day_fraction (van_underlying v) d = Ok t /\
       ddf_leb x0 t = true /\ ddf_leb (mkDDF from_nil n0) t = true) ->
    prices (IForwardEuropean v f d0 x0) dates = prices (ISpotEuropean v (nmul x f)) dates.
  Proof.
    intros Hs P Q A. cbn [M_Instruments.prices]. destruct (Z.ltb_spec (dt_date d0) (ctx_spot_date c)); [lia|].
    rewrite P. cbn [bind]. unfold M_Instruments.price in Q. rewrite Q. cbn [bind]. unfold vanilla_prices. destruct dates as [|d1 dates]; [reflexivity|].
    destruct (ctx_yield_curve c _ _) as [yc|e|e]; cbn [bind]; try reflexivity.
    destruct (ctx_vol_surface c _ _ _) as [vol|e|e]; cbn [bind]; try reflexivity.
    destruct (rt nan yc _) as [u|e|e]; cbn [bind]; try reflexivity.
    destruct (displacement nan vol _) as [disp|e|e]; cbn [bind]; try reflexivity.
    destruct (guard _ _); cbn [bind]; try reflexivity.
    revert A. generalize (d1 :: dates). intros l A. induction l as [|d l IH]; [reflexivity|]. cbn [mapM].
    assert (G : forall k1 f1 w, vanilla_price nan cdf v x0 yc vol (nmul x f) k1 f1 w d = vanilla_price nan cdf v (mkDDF from_nil n0) yc vol (nmul x f) k1 f1 w d).
    { intros k1 f1 w. unfold vanilla_price. destruct (dt_leb d (van_expiry v)) eqn:L; [|reflexivity].
      destruct (A d (or_introl eq_refl) L) as (t & HT & L1 & L2). rewrite HT. cbn [bind]. now rewrite L1, L2. }
    rewrite G, IH; [reflexivity|]. intros d' I. apply A. now right.
  Qed.
End Any.
