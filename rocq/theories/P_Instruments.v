(** Properties of instruments: fixing, decomposition and prices (C32-C36, and the zero-coupon part of C21). *)
From Coq Require Import ZArith List String Bool Reals Lra.
From Verif Require Import Prelude Num M_Dates M_Calendar M_Curves M_Fixings M_Forward M_Vol M_Black76 M_Instruments
  S_Vol S_Instruments L_Num L_Curves L_Vol L_VolCases L_Instruments L_Pricing L_InstrumentCases L_PricingAny.
Import ListNotations.
Open Scope list_scope.
Open Scope R_scope.

(** ** C32: fixing a European option *)

(** A table that knows the fixing at expiry turns the option into holdings worth exactly its payoff when they settle, a
    unit of cash being worth one and the underlying its fixing. *)
Theorem C32_payoff : forall t v k x, get_optional t (instrument_id (van_underlying v)) (van_expiry v) = Some x ->
  exists d, fix_instrument t (ISpotEuropean v k) = Ok (Some d) /\ adds_up (settles v x) d (payoff (van_put_or_call v) x k).
Proof. exact fix_settles. Qed.
Print Assumptions C32_payoff.

(** Cash settlement: one payment of the payoff, or nothing at all. *)
Theorem C32_cash : forall t v k x, get_optional t (instrument_id (van_underlying v)) (van_expiry v) = Some x ->
  van_cash_or_physical v = CashSettled ->
  fix_instrument t (ISpotEuropean v k) =
    Ok (Some (if Rltb 0 (payoff (van_put_or_call v) x k) then [(payoff (van_put_or_call v) x k, payment_of v)] else [])).
Proof. exact fix_cash. Qed.
Print Assumptions C32_cash.

(** Physical settlement: the strike is paid and the underlying received (a call), or the other way round. *)
Theorem C32_physical : forall t v k x, get_optional t (instrument_id (van_underlying v)) (van_expiry v) = Some x ->
  van_cash_or_physical v = PhysicalSettled ->
  fix_instrument t (ISpotEuropean v k) =
    Ok (Some (if Rltb 0 (payoff (van_put_or_call v) x k)
              then match van_put_or_call v with
                   | Call => [(- k, payment_of v); (1, van_underlying v)]
                   | Put => [(k, payment_of v); (- 1, van_underlying v)]
                   end
              else [])).
Proof. exact fix_physical. Qed.
Print Assumptions C32_physical.

(** The same in any arithmetic, floating-point or exact. *)
Theorem C32_cash_exact : forall T (N : Num T) (t : fixing_table T) v k x, get_optional t (instrument_id (van_underlying v)) (van_expiry v) = Some x ->
  van_cash_or_physical v = CashSettled ->
  let pay := nmul (match van_put_or_call v with Call => n1 | Put => nopp n1 end) (nsub x k) in
  fix_instrument t (ISpotEuropean v k) = Ok (Some (if nltb n0 pay then [(pay, payment_of v)] else [])).
Proof. exact @fix_cash_any. Qed.
Print Assumptions C32_cash_exact.
Theorem C32_physical_exact : forall T (N : Num T) (t : fixing_table T) v k x, get_optional t (instrument_id (van_underlying v)) (van_expiry v) = Some x ->
  van_cash_or_physical v = PhysicalSettled ->
  let sign := match van_put_or_call v with Call => n1 | Put => nopp n1 end in
  fix_instrument t (ISpotEuropean v k) =
    Ok (Some (if nltb n0 (nmul sign (nsub x k)) then [(nmul (nopp k) sign, payment_of v); (sign, van_underlying v)] else [])).
Proof. exact @fix_physical_any. Qed.
Print Assumptions C32_physical_exact.

(** The payment is a zero coupon of the option's credit, in the underlying's currency, on the option's payment date. *)
Theorem C32_payment : forall T (v : vanilla T), payment_of v =
  IZeroCoupon (van_id v ++ ":payment") (van_credit_id v) (payoff_currency (van_underlying v)) (van_expiry v) (van_pay_date v) (van_settlement v).
Proof. exact (fun T v => eq_refl). Qed.
Print Assumptions C32_payment.

(** Without the fixing the option is left alone, unless the fixing should be known, which is an error. *)
Theorem C32_unknown : forall T (N : Num T) (t : fixing_table T) v k, get_optional t (instrument_id (van_underlying v)) (van_expiry v) = None ->
  ((known_until t <= dt_date (van_expiry v))%Z -> fix_instrument t (ISpotEuropean v k) = Ok None) /\
  ((dt_date (van_expiry v) < known_until t)%Z -> exists m, fix_instrument t (ISpotEuropean v k) = Err m).
Proof. exact @fix_unknown. Qed.
Print Assumptions C32_unknown.

(** Priced at expiry, the settlement is worth the payoff, under any model, if the underlying is priced at its fixing. *)
Theorem C32_price_at_expiry : forall nan cdf c t v k x yc,
  apply_rule (van_settlement v) (dt_date (van_expiry v)) = Ok (van_pay_date v) ->
  get_optional t (instrument_id (van_underlying v)) (van_expiry v) = Some x ->
  ctx_yield_curve c (van_credit_id v) (van_pay_date v) = Ok yc ->
  (van_cash_or_physical v = PhysicalSettled -> price nan cdf c (van_underlying v) (van_expiry v) = Ok x) ->
  exists d, fix_instrument t (ISpotEuropean v k) = Ok (Some d) /\
    adds_up (fun i y => price nan cdf c i (van_expiry v) = Ok y) d (payoff (van_put_or_call v) x k).
Proof. exact fixed_value_at_expiry. Qed.
Print Assumptions C32_price_at_expiry.

(** Fixing again with the same table changes nothing, if it leaves the underlying alone. *)
Theorem C32_idempotent : forall T (N : Num T) (t : fixing_table T) v k d, unaffected t (van_underlying v) ->
  fix_instrument t (ISpotEuropean v k) = Ok (Some d) -> fix_all d t = Ok None.
Proof. exact (fun T N t v k d U E => proj2 (fix_all_none t d) (fix_twice t _ d (pu_spot t v k U) E)). Qed.
Print Assumptions C32_idempotent.

Example C32_case : get_optional one_fixing (instrument_id stock) (mkDT 5%Z Open_) = Some 120 /\
  get_optional one_fixing (instrument_id stock) (mkDT 15%Z Open_) = None /\ unaffected one_fixing stock /\
  from_fixings 10%Z [("BP"%string, [(mkDT 5%Z Open_, 120)])] = Ok one_fixing /\
  vanilla_new "OPT" "OPT-CR" stock NullRule (mkDT 5%Z Open_) Call CashSettled = Ok (option_on stock 5%Z Call CashSettled) /\
  apply_rule (van_settlement (option_on stock 5%Z Call CashSettled)) 5%Z = Ok (van_pay_date (option_on stock 5%Z Call CashSettled)) /\
  payoff Call 120 100 = 20.
Proof.
  repeat split.
  - exact (option_on_new 5%Z Call CashSettled).
  - cbn. rewrite Rmax_left; lra.
Qed.

(** ** C33: forward-starting options *)

Theorem C33_becomes_spot_starting : forall T (N : Num T) (t : fixing_table T) v f d x0 x, get_optional t (instrument_id (van_underlying v)) d = Some x ->
  fix_instrument t (IForwardEuropean v f d x0) =
  match fix_instrument t (ISpotEuropean v (nmul x f)) with
  | Ok None => Ok (Some [(n1, ISpotEuropean v (nmul x f))])
  | r => r
  end.
Proof. exact @fix_forward. Qed.
Print Assumptions C33_becomes_spot_starting.

Theorem C33_unknown : forall T (N : Num T) (t : fixing_table T) v f d x0, get_optional t (instrument_id (van_underlying v)) d = None ->
  ((known_until t <= dt_date d)%Z -> fix_instrument t (IForwardEuropean v f d x0) = Ok None) /\
  ((dt_date d < known_until t)%Z -> exists m, fix_instrument t (IForwardEuropean v f d x0) = Err m).
Proof. exact @fix_forward_unknown. Qed.
Print Assumptions C33_unknown.

(** Its price is the price of the option it becomes, if the underlying is priced at the fixing on the strike date and no
    valuation time is before the strike time. *)
Theorem C33_same_price : forall T (N : Num T) (TR : Trans T) (nan : T) cdf c v f d0 x0 x F dates,
  (ctx_spot_date c <= dt_date d0)%Z -> prices nan cdf c (van_underlying v) [d0; van_expiry v] = Ok [x; F] ->
  price nan cdf c (van_underlying v) (van_expiry v) = Ok F ->
  (forall d, In d dates -> dt_leb d (van_expiry v) = true -> exists t, time_to_day_fraction (van_underlying v) d = Ok t /\
     ddf_leb x0 t = true /\ ddf_leb (mkDDF from_nil n0) t = true) ->
  prices nan cdf c (IForwardEuropean v f d0 x0) dates = prices nan cdf c (ISpotEuropean v (nmul x f)) dates.
Proof. exact @forward_start_any. Qed.
Print Assumptions C33_same_price.

Example C33_case : forall nan cdf, let c := market (ZeroRateCurve 0%Z) 100 (DriftlessForward 100) (FlatVolSurface (/ 5) EveryDay (mkDDF 0%Z 0)) in
  let v := option_on stock 365%Z Put CashSettled in
  (ctx_spot_date c <= dt_date (mkDT 0%Z Open_))%Z /\ prices nan cdf c (van_underlying v) [mkDT 0%Z Open_; van_expiry v] = Ok [100; 100] /\
  price nan cdf c (van_underlying v) (van_expiry v) = Ok 100 /\
  (forall d, In d [mkDT 0%Z Open_] -> dt_leb d (van_expiry v) = true -> exists t, time_to_day_fraction (van_underlying v) d = Ok t /\
     ddf_leb (mkDDF 0%Z 0) t = true /\ ddf_leb (mkDDF from_nil 0) t = true).
Proof.
  intros nan cdf. repeat split.
  - cbv. discriminate.
  - intros d [<-|[]] _. exists (mkDDF 0%Z 0). split; [exact (stock_time 0%Z)|]. change from_nil with 0%Z. rewrite leb_same. auto.
Qed.

(** ** C34: fixing a portfolio *)

(** Each holding is replaced by its decomposition, in place, with weights multiplied; [None] if nothing changed. *)
Theorem C34_replaces : forall T (N : Num T) (t : fixing_table T) l r, fix_all l t = Ok r <->
  exists ds, Forall2 (fun h d => fix_instrument t (snd h) = Ok d) l ds /\
    r = if existsb (fun d => match d with Some _ => true | None => false end) ds then Some (replaced_all l ds) else None.
Proof. exact @fix_all_ok. Qed.
Print Assumptions C34_replaces.

Theorem C34_nothing_changed : forall T (N : Num T) (t : fixing_table T) l, fix_all l t = Ok None <-> Forall (fun h => unaffected t (snd h)) l.
Proof. exact @fix_all_none. Qed.
Print Assumptions C34_nothing_changed.

(** The first holding that fails decides the failure. *)
Theorem C34_first_error : forall T (N : Num T) (t : fixing_table T) l X, (forall a, X <> Ok a) ->
  (fix_all l t = X <->
   exists h : T * instrument T, first_failure (fun h => fix_instrument t (snd h)) l h /\ fix_instrument t (snd h) = X).
Proof. exact @fix_all_bad. Qed.
Print Assumptions C34_first_error.

(** A basket does the same to its members, and so on down. *)
Theorem C34_basket : forall T (N : Num T) (t : fixing_table T) id cr cur s ms,
  fix_instrument t (IBasket id cr cur s ms) =
  match fix_all ms t with
  | Ok (Some ms') => Ok (Some [(n1, IBasket (id ++ ":fixed") cr cur s ms')])
  | r => r
  end.
Proof. exact @fix_basket. Qed.
Print Assumptions C34_basket.

(** Whatever the portfolio will be worth, it will be worth after fixing it, at any depth, if the table is truthful. *)
Theorem C34_worth : forall fx now t, truthful fx t -> forall l l' x, adds_up (worth fx now) l x ->
  fix_all l t = Ok (Some l') -> adds_up (worth fx now) l' x.
Proof. exact fix_worth. Qed.
Print Assumptions C34_worth.

Theorem C34_idempotent : forall T (N : Num T) (t : fixing_table T) l l', Forall (fun h => plain_underlyings t (snd h)) l ->
  fix_all l t = Ok (Some l') -> fix_all l' t = Ok None.
Proof. exact @fix_all_twice. Qed.
Print Assumptions C34_idempotent.

Example C34_case : (exists d, fix_all book one_fixing = Ok (Some d)) /\ truthful (fun _ _ => 120) one_fixing /\
  (exists x, adds_up (worth (fun _ _ => 120) (fun _ => 120)) book x) /\ Forall (fun h => plain_underlyings one_fixing (snd h)) book.
Proof. exact (conj book_fixed (conj one_fixing_truthful (conj book_worth (book_plain one_fixing)))). Qed.

(** ** C35: prices are linear *)

(** A basket is priced exactly when its members are ... *)
Theorem C35_basket_priced : forall T (N : Num T) (TR : Trans T) (nan : T) cdf c id cr cur s ms dates,
  (exists l, prices nan cdf c (IBasket id cr cur s ms) dates = Ok l) <->
  Forall (fun h => exists ps, prices nan cdf c (snd h) dates = Ok ps) ms.
Proof. exact @basket_total. Qed.
Print Assumptions C35_basket_priced.

(** ... and on each date at the weighted sum of their prices. *)
Theorem C35_basket_sum : forall nan cdf c id cr cur s ms dates l, prices nan cdf c (IBasket id cr cur s ms) dates = Ok l ->
  List.length l = List.length dates /\
  forall j x, nth_error l j = Some x <->
    (j < List.length dates)%nat /\ adds_up (nth_price (fun i => prices nan cdf c i dates) j) ms x.
Proof. exact basket_sum. Qed.
Print Assumptions C35_basket_sum.

(** In any arithmetic, floating-point or exact, that sum is taken from nought over the members in order, each adding its price
    times its weight. *)
Theorem C35_basket_exact : forall T (N : Num T) (TR : Trans T) (nan : T) cdf c id cr cur s ms dates l,
  prices nan cdf c (IBasket id cr cur s ms) dates = Ok l ->
  List.length l = List.length dates /\
  forall j, (j < List.length dates)%nat -> exists ps, Forall2 (fun h p => nth_price (fun i => prices nan cdf c i dates) j (snd h) p) ms ps /\
    nth_error l j = Some (sum_in_order n0 (map (fun q => nmul (snd q) (fst (fst q))) (combine ms ps))).
Proof. exact @basket_exact. Qed.
Print Assumptions C35_basket_exact.

(** Otherwise the first member that fails decides. *)
Theorem C35_basket_error : forall T (N : Num T) (TR : Trans T) (nan : T) cdf c id cr cur s ms dates X, (forall a, X <> Ok a) ->
  (prices nan cdf c (IBasket id cr cur s ms) dates = X <->
   exists h : T * instrument T, first_failure (fun h => prices nan cdf c (snd h) dates) ms h /\ prices nan cdf c (snd h) dates = X).
Proof. exact @basket_failure. Qed.
Print Assumptions C35_basket_error.

Theorem C35_concatenation : forall nan cdf c id cr cur s ms ms' dates l l',
  prices nan cdf c (IBasket id cr cur s ms) dates = Ok l -> prices nan cdf c (IBasket id cr cur s ms') dates = Ok l' ->
  exists m, prices nan cdf c (IBasket id cr cur s (ms ++ ms')) dates = Ok m /\
    forall j, nth_error m j = match nth_error l j, nth_error l' j with Some x, Some y => Some (x + y) | _, _ => None end.
Proof. exact basket_concat. Qed.
Print Assumptions C35_concatenation.

(** At any depth: down to the instruments that are no baskets, whose weights are multiplied on the way. *)
Theorem C35_nested : forall nan cdf c dates j w i ls, leaves w i ls ->
  forall x, nth_price (fun i => prices nan cdf c i dates) j i x -> adds_up (nth_price (fun i => prices nan cdf c i dates) j) ls (w * x).
Proof. exact leaves_sum. Qed.
Print Assumptions C35_nested.

Theorem C35_nested_priced : forall T (N : Num T) (TR : Trans T) (nan : T) cdf c dates w i ls, leaves w i ls ->
  (exists ps, prices nan cdf c i dates = Ok ps) <-> Forall (fun h => exists ps, prices nan cdf c (snd h) dates = Ok ps) ls.
Proof. exact @leaves_total. Qed.
Print Assumptions C35_nested_priced.

Theorem C35_leaves_exist : forall T (N : Num T) (i : instrument T) w, exists ls, leaves w i ls.
Proof. exact @leaves_exist. Qed.
Print Assumptions C35_leaves_exist.

(** One price per date asked for. *)
Theorem C35_length : forall T (N : Num T) (TR : Trans T) (nan : T) cdf c i dates (l : list T), prices nan cdf c i dates = Ok l -> List.length l = List.length dates.
Proof. exact @prices_length. Qed.
Print Assumptions C35_length.

Example C35_case : forall nan cdf,
  let c := market (ZeroRateCurve 0%Z) 100 (DriftlessForward 100) (FlatVolSurface (/ 5) EveryDay (mkDDF 0%Z 0)) in
  let inner := IBasket "IN" "CR" usd NullRule [(2, stock); (3, ICurrency usd)] in
  (exists l, prices nan cdf c (IBasket "OUT" "CR" usd NullRule [(4, inner); (5, stock)]) [mkDT 0%Z Open_; mkDT 7%Z Close_] = Ok l) /\
  leaves 1 (IBasket "OUT" "CR" usd NullRule [(4, inner); (5, stock)]) [(1 * 4 * 2, stock); (1 * 4 * 3, ICurrency usd); (1 * 5, stock)].
Proof.
  intros nan cdf c inner. split; [eexists; reflexivity|].
  apply leaves_basket. apply (all_cons _ _ _ _ [(1 * 4 * 2, stock); (1 * 4 * 3, ICurrency usd)] [(1 * 5, stock)]).
  - apply leaves_basket. apply (all_cons _ _ _ _ [_] [_]); [apply leaf; discriminate|].
    apply (all_cons _ _ _ _ [_] []); [apply leaf; discriminate|constructor].
  - apply (all_cons _ _ _ _ [_] []); [apply leaf; discriminate|constructor].
Qed.

(** ** C36: bonds, cash and options *)

(** Up to its ex-date a zero coupon is worth the payment discounted from the payment date to settlement ... *)
Theorem C36_zero_coupon : forall nan cdf c id cr cur ex pay s d yc st u v, ctx_yield_curve c cr pay = Ok yc -> dt_leb d ex = true ->
  apply_rule s (dt_date d) = Ok st -> rt nan yc pay = Ok u -> rt nan yc st = Ok v ->
  price nan cdf c (IZeroCoupon id cr cur ex pay s) d = Ok (exp (- (u - v))).
Proof. exact zero_coupon_value. Qed.
Print Assumptions C36_zero_coupon.

(** ... in any arithmetic the discount factor of the curve ... *)
Theorem C36_zero_coupon_exact : forall T (N : Num T) (TR : Trans T) (nan : T) cdf c id cr cur ex pay s d yc st,
  ctx_yield_curve c cr pay = Ok yc -> dt_leb d ex = true -> apply_rule s (dt_date d) = Ok st ->
  price nan cdf c (IZeroCoupon id cr cur ex pay s) d = df nan yc pay st.
Proof. exact @zero_coupon_is_df. Qed.
Print Assumptions C36_zero_coupon_exact.

(** ... and later nothing. *)
Theorem C36_zero_coupon_gone : forall T (N : Num T) (TR : Trans T) (nan : T) cdf c id cr cur ex pay s d yc, ctx_yield_curve c cr pay = Ok yc -> dt_leb d ex = false ->
  price nan cdf c (IZeroCoupon id cr cur ex pay s) d = Ok n0.
Proof. exact @zero_coupon_gone_any. Qed.
Print Assumptions C36_zero_coupon_gone.

(** A batch of prices is each date's price. *)
Theorem C36_zero_coupon_batch : forall T (N : Num T) (TR : Trans T) (nan : T) cdf c id cr cur ex pay s dates l, prices nan cdf c (IZeroCoupon id cr cur ex pay s) dates = Ok l ->
  forall j d, nth_error dates j = Some d ->
  exists x, nth_error l j = Some x /\ price nan cdf c (IZeroCoupon id cr cur ex pay s) d = Ok x.
Proof. exact @zero_coupon_batch_any. Qed.
Print Assumptions C36_zero_coupon_batch.

(** C21: so a positive rate makes a zero coupon worth less than one. *)
Theorem C21_zero_coupon_below_one : forall nan cdf c id cr cur ex pay s d b l u, ctx_yield_curve c cr pay = Ok (RateCurveAct365 b l) ->
  dt_leb d ex = true -> apply_rule s (dt_date d) = Ok b -> (b < pay)%Z -> rt nan (RateCurveAct365 b l) pay = Ok u -> 0 < u ->
  exists x, price nan cdf c (IZeroCoupon id cr cur ex pay s) d = Ok x /\ 0 < x < 1.
Proof. exact zero_coupon_below_one. Qed.
Print Assumptions C21_zero_coupon_below_one.

Theorem C36_currency : forall T (N : Num T) (TR : Trans T) (nan : T) cdf c cc dates l, prices nan cdf c (ICurrency cc) dates = Ok l ->
  forall j d, nth_error dates j = Some d -> nth_error l j = Some n1.
Proof. exact @currency_one_any. Qed.
Print Assumptions C36_currency.

(** After expiry an option that is priced at all is worth nothing. *)
Theorem C36_expired : forall T (N : Num T) (TR : Trans T) (nan : T) cdf c i v dates l, (exists k, i = ISpotEuropean v k) \/ (exists f d x, i = IForwardEuropean v f d x) ->
  prices nan cdf c i dates = Ok l ->
  forall j d, nth_error dates j = Some d -> dt_leb d (van_expiry v) = false -> nth_error l j = Some n0.
Proof. exact @expired_any. Qed.
Print Assumptions C36_expired.

(** Up to expiry it is priced, in any arithmetic, by Black's formula: discounted from payment to settlement, on the forward less
    and the strike plus the displacement of the vol surface, with the forward variance from the valuation time to expiry. *)
Theorem C36_black : forall T (N : Num T) (TR : Trans T) (nan : T) cdf c v k dates l, prices nan cdf c (ISpotEuropean v k) dates = Ok l ->
  forall j d x, nth_error dates j = Some d -> dt_leb d (van_expiry v) = true -> nth_error l j = Some x ->
  exists F yc vol disp u st r now q,
    price nan cdf c (van_underlying v) (van_expiry v) = Ok F /\
    ctx_yield_curve c (credit_id (van_underlying v)) (van_pay_date v) = Ok yc /\
    ctx_vol_surface c (van_underlying v) (dt_date (van_expiry v)) (ctx_forward_curve c (van_underlying v) (dt_date (van_expiry v))) = Ok vol /\
    displacement nan vol (dt_date (van_expiry v)) = Ok disp /\ rt nan yc (van_pay_date v) = Ok u /\
    apply_rule (van_settlement v) (dt_date d) = Ok st /\ rt nan yc st = Ok r /\
    time_to_day_fraction (van_underlying v) d = Ok now /\
    forward_variance nan vol (if ddf_leb (mkDDF from_nil n0) now then now else mkDDF from_nil n0) (van_expiry_time v) k = Ok q /\
    nltb (nsub F disp) n0 = false /\ nltb q n0 = false /\
    x = match van_put_or_call v with Call => call_price cdf | Put => put_price cdf end
          (nmul (nexp (nopp u)) (nexp r)) (nsub F disp) (nadd k disp) (nsqrt q).
Proof. exact @spot_black. Qed.
Print Assumptions C36_black.

(** It is priced whenever those parts can be had and are not negative. *)
Theorem C36_black_total : forall T (N : Num T) (TR : Trans T) (nan : T) cdf c v k d F yc vol disp u st r now q, dt_leb d (van_expiry v) = true ->
  price nan cdf c (van_underlying v) (van_expiry v) = Ok F ->
  ctx_yield_curve c (credit_id (van_underlying v)) (van_pay_date v) = Ok yc ->
  ctx_vol_surface c (van_underlying v) (dt_date (van_expiry v)) (ctx_forward_curve c (van_underlying v) (dt_date (van_expiry v))) = Ok vol ->
  displacement nan vol (dt_date (van_expiry v)) = Ok disp -> rt nan yc (van_pay_date v) = Ok u ->
  apply_rule (van_settlement v) (dt_date d) = Ok st -> rt nan yc st = Ok r ->
  time_to_day_fraction (van_underlying v) d = Ok now ->
  forward_variance nan vol (if ddf_leb (mkDDF from_nil n0) now then now else mkDDF from_nil n0) (van_expiry_time v) k = Ok q ->
  nltb (nsub F disp) n0 = false -> nltb q n0 = false ->
  price nan cdf c (ISpotEuropean v k) d = Ok (match van_put_or_call v with Call => call_price cdf | Put => put_price cdf end
    (nmul (nexp (nopp u)) (nexp r)) (nsub F disp) (nadd k disp) (nsqrt q)).
Proof. exact @spot_priced. Qed.
Print Assumptions C36_black_total.

(** A forward-starting option likewise, its strike being the fraction of the forward to the strike date, and no variance counting
    before the strike time. *)
Theorem C36_black_forward_start : forall T (N : Num T) (TR : Trans T) (nan : T) cdf c v f d0 x0 dates l,
  prices nan cdf c (IForwardEuropean v f d0 x0) dates = Ok l ->
  forall j d x, nth_error dates j = Some d -> dt_leb d (van_expiry v) = true -> nth_error l j = Some x ->
  exists F0 F yc vol disp u st r now q,
    prices nan cdf c (van_underlying v) [d0; van_expiry v] = Ok [F0; F] /\
    ctx_yield_curve c (credit_id (van_underlying v)) (van_pay_date v) = Ok yc /\
    ctx_vol_surface c (van_underlying v) (dt_date (van_expiry v)) (ctx_forward_curve c (van_underlying v) (dt_date (van_expiry v))) = Ok vol /\
    displacement nan vol (dt_date (van_expiry v)) = Ok disp /\ rt nan yc (van_pay_date v) = Ok u /\
    apply_rule (van_settlement v) (dt_date d) = Ok st /\ rt nan yc st = Ok r /\
    time_to_day_fraction (van_underlying v) d = Ok now /\
    forward_variance nan vol (if ddf_leb x0 now then now else x0) (van_expiry_time v) (nmul F0 f) = Ok q /\
    nltb (nsub F disp) n0 = false /\ nltb q n0 = false /\
    x = match van_put_or_call v with Call => call_price cdf | Put => put_price cdf end
          (nmul (nexp (nopp u)) (nexp r)) (nsub F disp) (nadd (nmul F0 f) disp) (nsqrt q).
Proof. exact @forward_black. Qed.
Print Assumptions C36_black_forward_start.

(** Put-call parity: the put can be priced if the call can, and on each date up to expiry they differ by the discounted
    difference of forward and strike, less twice the displacement of the vol surface. *)
Theorem C36_parity : forall nan cdf c, (forall x, cdf (- x) = 1 - cdf x) -> forall v k dates lc,
  prices nan cdf c (ISpotEuropean (as_kind Call v) k) dates = Ok lc ->
  exists lp, prices nan cdf c (ISpotEuropean (as_kind Put v) k) dates = Ok lp /\
    forall j d x y, nth_error dates j = Some d -> dt_leb d (van_expiry v) = true -> nth_error lc j = Some x -> nth_error lp j = Some y ->
    exists F yc vol disp u st r,
      price nan cdf c (van_underlying v) (van_expiry v) = Ok F /\
      ctx_yield_curve c (credit_id (van_underlying v)) (van_pay_date v) = Ok yc /\
      ctx_vol_surface c (van_underlying v) (dt_date (van_expiry v)) (ctx_forward_curve c (van_underlying v) (dt_date (van_expiry v))) = Ok vol /\
      displacement nan vol (dt_date (van_expiry v)) = Ok disp /\
      rt nan yc (van_pay_date v) = Ok u /\ apply_rule (van_settlement v) (dt_date d) = Ok st /\ rt nan yc st = Ok r /\
      x - y = exp (- (u - r)) * (F - k - 2 * disp).
Proof. exact spot_parity. Qed.
Print Assumptions C36_parity.

(** The same for forward-starting options, with the forward-starting strike. *)
Theorem C36_parity_forward_start : forall nan cdf c, (forall x, cdf (- x) = 1 - cdf x) -> forall v f d0 x0 dates lc,
  prices nan cdf c (IForwardEuropean (as_kind Call v) f d0 x0) dates = Ok lc ->
  exists lp, prices nan cdf c (IForwardEuropean (as_kind Put v) f d0 x0) dates = Ok lp /\
    forall j d x y, nth_error dates j = Some d -> dt_leb d (van_expiry v) = true -> nth_error lc j = Some x -> nth_error lp j = Some y ->
    exists F0 F yc vol disp u st r,
      prices nan cdf c (van_underlying v) [d0; van_expiry v] = Ok [F0; F] /\
      ctx_yield_curve c (credit_id (van_underlying v)) (van_pay_date v) = Ok yc /\
      ctx_vol_surface c (van_underlying v) (dt_date (van_expiry v)) (ctx_forward_curve c (van_underlying v) (dt_date (van_expiry v))) = Ok vol /\
      displacement nan vol (dt_date (van_expiry v)) = Ok disp /\
      rt nan yc (van_pay_date v) = Ok u /\ apply_rule (van_settlement v) (dt_date d) = Ok st /\ rt nan yc st = Ok r /\
      x - y = exp (- (u - r)) * (F - F0 * f - 2 * disp).
Proof. exact forward_parity. Qed.
Print Assumptions C36_parity_forward_start.

(** So parity on the underlying's own forward fails where the surface subtracts fixed dividends. *)
Theorem C36_parity_refuted : forall nan cdf, (forall x, cdf (- x) = 1 - cdf x) -> exists c v k F x y,
  (forall d, price nan cdf c (van_underlying v) (mkDT d Open_) = Ok F) /\
  (forall cr d, ctx_yield_curve c cr d = Ok (ZeroRateCurve 0%Z)) /\
  price nan cdf c (ISpotEuropean (as_kind Call v) k) (mkDT 0%Z Open_) = Ok x /\
  price nan cdf c (ISpotEuropean (as_kind Put v) k) (mkDT 0%Z Open_) = Ok y /\ x - y = (F - k) - 10 /\ F = 100 /\ k = 90.
Proof. exact parity_fails. Qed.
Print Assumptions C36_parity_refuted.

Example C36_case : forall nan cdf, exists l,
  prices nan cdf (market (ZeroRateCurve 0%Z) 100 (DriftlessForward 100) (FlatVolSurface (/ 5) EveryDay (mkDDF 0%Z 0)))
    (ISpotEuropean (option_on stock 365%Z Call CashSettled) 90) [mkDT 400%Z Open_] = Ok l /\ nth_error l 0 = Some 0.
Proof.
  intros nan cdf. pose proof (expired_case nan cdf Call) as E. unfold price, first_price in E.
  destruct (prices _ _ _ _ _) as [[|x l]|e|e]; try discriminate. injection E as ->. eexists. split; reflexivity.
Qed.
