(** Model of src/instruments (mod.rs, assets.rs, bonds.rs, basket.rs, options.rs). *)
From Coq Require Import ZArith List String Bool.
From Verif Require Import Prelude Num M_Dates M_Calendar M_Curves M_Fixings M_Forward M_Vol M_Black76.
Import ListNotations.
Open Scope string_scope.

(** assets.rs:33-37 [struct Currency]. *)
Record currency (T : Type) := mkCurrency { cur_id : string; cur_settlement : date_rule T }.
Arguments mkCurrency {T} cur_id cur_settlement.
Arguments cur_id {T} c : rename.
Arguments cur_settlement {T} c : rename.

(** options.rs:30-40. *)
Inductive put_or_call := Put | Call.
Inductive option_settlement := CashSettled | PhysicalSettled.

(** options.rs:44-57 [struct VanillaOption], over the type of its underlying. *)
Record vanilla_of (T U : Type) := mkVanilla {
  van_id : string;
  van_credit_id : string;
  van_underlying : U;
  van_settlement : date_rule T;
  van_expiry : datetime;
  van_put_or_call : put_or_call;
  van_cash_or_physical : option_settlement;
  van_expiry_time : ddf T;
  van_pay_date : date
}.
Arguments mkVanilla {T U}.
Arguments van_id {T U} v : rename.
Arguments van_credit_id {T U} v : rename.
Arguments van_underlying {T U} v : rename.
Arguments van_settlement {T U} v : rename.
Arguments van_expiry {T U} v : rename.
Arguments van_put_or_call {T U} v : rename.
Arguments van_cash_or_physical {T U} v : rename.
Arguments van_expiry_time {T U} v : rename.
Arguments van_pay_date {T U} v : rename.

(** The implementations of [trait Instrument]: assets.rs:172-178, 307-311, bonds.rs:24-32, basket.rs:30-37,
    options.rs:178-183, 203-212.  [Rc] sharing is not represented. *)
Inductive instrument (T : Type) :=
| ICurrency (c : currency T)
| ICreditEntity (id : string) (cur : currency T) (settlement : date_rule T)
| IEquity (id credit_id : string) (cur : currency T) (settlement : date_rule T)
| IZeroCoupon (id credit_id : string) (cur : currency T) (ex_date : datetime) (payment_date : date) (settlement : date_rule T)
| IBasket (id credit_id : string) (cur : currency T) (settlement : date_rule T) (members : list (T * instrument T))
| ISpotEuropean (v : vanilla_of T (instrument T)) (strike : T)
| IForwardEuropean (v : vanilla_of T (instrument T)) (strike_fraction : T) (strike_date : datetime) (strike_time : ddf T).
Arguments ICurrency {T} c.
Arguments ICreditEntity {T} id cur settlement.
Arguments IEquity {T} id credit_id cur settlement.
Arguments IZeroCoupon {T} id credit_id cur ex_date payment_date settlement.
Arguments IBasket {T} id credit_id cur settlement members.
Arguments ISpotEuropean {T} v strike.
Arguments IForwardEuropean {T} v strike_fraction strike_date strike_time.

Notation vanilla T := (vanilla_of T (instrument T)).
Notation holdings T := (list (T * instrument T)).

(** mod.rs:344-361 [enum SpotRequirement]; [RequiredOnlyForValuation] is returned by nothing. *)
Inductive spot_requirement := NotRequired | RequiredOnlyForValuation | Required.

(** mod.rs:443-486 [trait PricingContext] without [correlation], which no instrument calls.  The forward handed to
    [vol_surface] as a closure is a result here. *)
Record pricing_context (T : Type) := mkContext {
  ctx_spot_date : date;
  ctx_yield_curve : string -> date -> res (curve T);
  ctx_spot : string -> res T;
  ctx_forward_curve : instrument T -> date -> res (forward T);
  ctx_vol_surface : instrument T -> date -> res (forward T) -> res (vol_surface T)
}.
Arguments mkContext {T}.
Arguments ctx_spot_date {T} p : rename.
Arguments ctx_yield_curve {T} p : rename.
Arguments ctx_spot {T} p : rename.
Arguments ctx_forward_curve {T} p : rename.
Arguments ctx_vol_surface {T} p : rename.

Section FixAll.
  Context {T : Type} `{Num T}.
  (** [Instrument::fix] of one holding. *)
  Variable fix_one : instrument T -> res (option (holdings T)).
  Variable instruments : holdings T.
  Local Open Scope num_scope.

  (** mod.rs:138-175 [fix_all]: the loop, with [basket], [uncopied] and [modified]. *)
  Fixpoint fix_all_loop (rest : holdings T) (basket : holdings T) (uncopied : nat) (modified : bool)
      : res (option (holdings T)) :=
    match rest with
    | [] => Ok (if modified then Some basket else None)
    | (weight, instr) :: rest' =>
        match fix_one instr with
        | Err m => Err m
        | Panic m => Panic m
        | Ok (Some decomposition) =>
            let basket1 := if modified then basket else (basket ++ firstn uncopied instruments)%list in
            let uncopied1 := if modified then uncopied else 0%nat in
            fix_all_loop rest' (basket1 ++ map (fun d => (weight * fst d, snd d)) decomposition)%list uncopied1 true
        | Ok None =>
            if modified then fix_all_loop rest' (basket ++ [(weight, instr)])%list uncopied true
            else fix_all_loop rest' basket (S uncopied) false
        end
    end.
End FixAll.

Section SumPrices.
  Context {T : Type} `{Num T}.
  Variable price_one : instrument T -> res (list T).
  Local Open Scope num_scope.

  (** basket.rs:163-165: the inner loop. *)
  Fixpoint add_weighted (weight : T) (temp out : list T) : list T :=
    match temp, out with
    | i :: temp', o :: out' => o + i * weight :: add_weighted weight temp' out'
    | _, _ => out
    end.

  (** basket.rs:158-166: the loop over the members.  Every kind of instrument is priceable. *)
  Fixpoint basket_loop (members : holdings T) (out : list T) : res (list T) :=
    match members with
    | [] => Ok out
    | (weight, underlying) :: members' =>
        match price_one underlying with
        | Err m => Err m
        | Panic m => Panic m
        | Ok temp => basket_loop members' (add_weighted weight temp out)
        end
    end.
End SumPrices.

Section Instruments.
  Context {T : Type} {N : Num T} {TR : Trans T}.
  Local Open Scope num_scope.
  Implicit Types i u : instrument T.

  (** [InstanceId::id]. *)
  Definition instrument_id i : string :=
    match i with
    | ICurrency c => cur_id c
    | ICreditEntity id _ _ | IEquity id _ _ _ | IZeroCoupon id _ _ _ _ _ | IBasket id _ _ _ _ => id
    | ISpotEuropean v _ | IForwardEuropean v _ _ _ => van_id v
    end.

  (** [Instrument::credit_id]. *)
  Definition credit_id i : string :=
    match i with
    | ICurrency c => cur_id c
    | ICreditEntity id _ _ => id
    | IEquity _ credit _ _ | IZeroCoupon _ credit _ _ _ _ | IBasket _ credit _ _ _ => credit
    | ISpotEuropean v _ | IForwardEuropean v _ _ _ => van_credit_id v
    end.

  (** [Instrument::payoff_currency]. *)
  Fixpoint payoff_currency i : currency T :=
    match i with
    | ICurrency c => c
    | ICreditEntity _ cur _ | IEquity _ _ cur _ | IZeroCoupon _ _ cur _ _ _ | IBasket _ _ cur _ _ => cur
    | ISpotEuropean v _ | IForwardEuropean v _ _ _ => payoff_currency (van_underlying v)
    end.

  (** [Instrument::settlement]. *)
  Definition settlement i : date_rule T :=
    match i with
    | ICurrency c => cur_settlement c
    | ICreditEntity _ _ s | IEquity _ _ _ s | IZeroCoupon _ _ _ _ _ s | IBasket _ _ _ s _ => s
    | ISpotEuropean v _ | IForwardEuropean v _ _ _ => van_settlement v
    end.

  (** [Instrument::time_to_day_fraction]: mod.rs:93-96, assets.rs:227-237, basket.rs:80-90. *)
  Definition time_to_day_fraction i (dt : datetime) : res (ddf T) :=
    match i with
    | IEquity _ _ _ _ | IBasket _ _ _ _ _ =>
        ddf_new (dt_date dt) (match dt_tod dt with Open_ | EDSP => n0 | Close_ => nlit 4 5 end)
    | _ => Err "Underlying does not support volatility"
    end.

  (** [vol_time_dynamics] and [vol_forward_dynamics], mod.rs:102-113: no instrument overrides the defaults. *)
  Definition vol_time_dynamics_of i : vol_time_dynamics := ConstantExpiryDynamics.
  Definition vol_forward_dynamics_of i : vol_forward_dynamics := StickyStrike.

  (** options.rs:67-83 [VanillaOption::new]. *)
  Definition vanilla_new (id credit : string) (underlying : instrument T) (s : date_rule T) (expiry : datetime)
      (pc : put_or_call) (cp : option_settlement) : res (vanilla T) :=
    let* pay := apply_rule s (dt_date expiry) in
    let* time := time_to_day_fraction underlying expiry in
    Ok (mkVanilla id credit underlying s expiry pc cp time pay).

  (** options.rs:219-238 [SpotStartingEuropean::new]. *)
  Definition spot_european_new (id credit : string) (underlying : instrument T) (s : date_rule T) (expiry : datetime)
      (strike : T) (pc : put_or_call) (cp : option_settlement) : res (instrument T) :=
    if nltb strike n0 then Err "Strike must be greater or equal to zero"
    else let* v := vanilla_new id credit underlying s expiry pc cp in Ok (ISpotEuropean v strike).

  (** options.rs:250-275 [ForwardStartingEuropean::new]. *)
  Definition forward_european_new (id credit : string) (underlying : instrument T) (s : date_rule T) (expiry : datetime)
      (fraction : T) (strike_date : datetime) (pc : put_or_call) (cp : option_settlement) : res (instrument T) :=
    if nleb fraction n0 then Err "Strike fraction must be greater than zero"
    else
      let* time := time_to_day_fraction underlying strike_date in
      let* v := vanilla_new id credit underlying s expiry pc cp in
      Ok (IForwardEuropean v fraction strike_date time).

  (** options.rs:347-349: +1 for a call, -1 for a put. *)
  Definition option_sign (pc : put_or_call) : T := match pc with Call => n1 | Put => - n1 end.

  (** options.rs:352-358: the cash payment of a fixed option. *)
  Definition payment_of (v : vanilla T) : instrument T :=
    IZeroCoupon (van_id v ++ ":payment") (van_credit_id v) (payoff_currency (van_underlying v))
      (van_expiry v) (van_pay_date v) (van_settlement v).

  (** options.rs:335-389 [SpotStartingEuropean::fix]. *)
  Definition fix_spot_european (t : fixing_table T) (v : vanilla T) (strike : T) : res (option (holdings T)) :=
    let* fixing := get_fixing t (instrument_id (van_underlying v)) (van_expiry v) in
    match fixing with
    | None => Ok None
    | Some spot_fixing =>
        let sign := option_sign (van_put_or_call v) in
        Ok (Some
          (match van_cash_or_physical v with
           | CashSettled =>
               let payment := sign * (spot_fixing - strike) in
               if nltb n0 payment then [(payment, payment_of v)] else []
           | PhysicalSettled =>
               if nltb n0 (sign * (spot_fixing - strike))
               then [(- strike * sign, payment_of v); (sign, van_underlying v)] else []
           end))
    end.

  (** options.rs:413-438 [ForwardStartingEuropean::fix]. *)
  Definition fix_forward_european (t : fixing_table T) (v : vanilla T) (fraction : T) (strike_date : datetime)
      : res (option (holdings T)) :=
    let* fixing := get_fixing t (instrument_id (van_underlying v)) strike_date in
    match fixing with
    | None => Ok None
    | Some f =>
        let strike := f * fraction in
        let* further := fix_spot_european t v strike in
        match further with
        | Some d => Ok (Some d)
        | None => Ok (Some [(n1, ISpotEuropean v strike)])
        end
    end.

  (** [Instrument::fix]: mod.rs:120-123 (unaffected by default), basket.rs:96-108 and the two above. *)
  Fixpoint fix_instrument (t : fixing_table T) (i : instrument T) : res (option (holdings T)) :=
    match i with
    | ICurrency _ | ICreditEntity _ _ _ | IEquity _ _ _ _ | IZeroCoupon _ _ _ _ _ _ => Ok None
    | IBasket id credit cur s members =>
        match fix_all_loop (fix_instrument t) members members [] 0 false with
        | Ok (Some basket) => Ok (Some [(n1, IBasket (id ++ ":fixed") credit cur s basket)])
        | Ok None => Ok None
        | Err m => Err m
        | Panic m => Panic m
        end
    | ISpotEuropean v strike => fix_spot_european t v strike
    | IForwardEuropean v fraction strike_date _ => fix_forward_european t v fraction strike_date
    end.

  (** mod.rs:138-175 [fix_all]. *)
  Definition fix_all (l : holdings T) (t : fixing_table T) : res (option (holdings T)) :=
    fix_all_loop (fix_instrument t) l l [] 0 false.

  (** What NaN is: used where the code writes NAN or reads past a curve without extrapolation. *)
  Variable nan : T.
  (** statrs' normal distribution, see M_Black76. *)
  Variable cdf : T -> T.
  Variable c : pricing_context T.

  (** options.rs:127-155: one date of the loop in [VanillaOption::prices]. *)
  Definition vanilla_price (v : vanilla T) (vol_from : ddf T) (yc : curve T) (vol : vol_surface T)
      (strike k f df_from_base : T) (d : datetime) : res T :=
    if dt_leb d (van_expiry v) then
      let* settlement_date := apply_rule (van_settlement v) (dt_date d) in
      let* r := rt nan yc settlement_date in
      let df := df_from_base * nexp r in
      let* val_date := time_to_day_fraction (van_underlying v) d in
      let from_date := if ddf_leb vol_from val_date then val_date else vol_from in
      let* variance := forward_variance nan vol from_date (van_expiry_time v) strike in
      let* _ := guard (negb (nltb variance n0)) "Negative variance" in
      let sqrt_var := nsqrt variance in
      Ok (match van_put_or_call v with
          | Put => put_price cdf df f k sqrt_var
          | Call => call_price cdf df f k sqrt_var
          end)
    else Ok n0.

  (** options.rs:87-165 [VanillaOption::prices].  [strike_and_forward] is a closure in the code; it is looked at only
      after the curve and the surface. *)
  Definition vanilla_prices (v : vanilla T) (dates : list datetime) (vol_from : ddf T) (strike_and_forward : res (T * T))
      : res (list T) :=
    match dates with
    | [] => Ok []
    | _ =>
        let expiry_date := dt_date (van_expiry v) in
        let u := van_underlying v in
        let* yc := ctx_yield_curve c (credit_id u) (van_pay_date v) in
        let* vol := ctx_vol_surface c u expiry_date (ctx_forward_curve c u expiry_date) in
        let* (strike, forward) := strike_and_forward in
        let* r := rt nan yc (van_pay_date v) in
        let df_from_base := nexp (- r) in
        let* disp := displacement nan vol expiry_date in
        let k := strike + disp in
        let f := forward - disp in
        let* _ := guard (negb (nltb f n0)) "Negative forward" in
        mapM (vanilla_price v vol_from yc vol strike k f df_from_base) dates
    end.

  (** mod.rs:392-398 [Priceable::price]: a batch of one. *)
  Definition first_price (r : res (list T)) : res T :=
    let* l := r in match l with x :: _ => Ok x | [] => Panic "index out of bounds" end.

  (** [Priceable::prices]: assets.rs:122-132, 281-303, 383-390, bonds.rs:124-141, basket.rs:147-168, options.rs:445-483. *)
  Fixpoint prices (i : instrument T) (dates : list datetime) : res (list T) :=
    match i with
    | ICurrency _ | ICreditEntity _ _ _ => Ok (map (fun _ => n1) dates)
    | IEquity id _ _ _ =>
        match dates with
        | [] => Ok []
        | d :: rest =>
            if (match rest with [] => (dt_date d =? ctx_spot_date c)%Z | _ => false end)
            then let* s := ctx_spot c id in Ok [s]
            else
              let* fc := ctx_forward_curve c i (dt_date (last dates d)) in
              mapM (fun d => forward_at nan fc (dt_date d)) dates
        end
    | IZeroCoupon _ credit _ ex payment s =>
        let* yc := ctx_yield_curve c credit payment in
        mapM (fun d => if dt_leb d ex then
                         let* settlement_date := apply_rule s (dt_date d) in df nan yc payment settlement_date
                       else Ok n0) dates
    | IBasket _ _ _ _ members =>
        basket_loop (fun u => prices u dates) members (map (fun _ => n0) dates)
    | ISpotEuropean v strike =>
        vanilla_prices v dates (mkDDF from_nil n0)
          (let* f := first_price (prices (van_underlying v) [van_expiry v]) in Ok (strike, f))
    | IForwardEuropean v fraction strike_date strike_time =>
        if (dt_date strike_date <? ctx_spot_date c)%Z
        then Err "You should fix the European before pricing it, so it does not forward-start in the past"
        else
          vanilla_prices v dates strike_time
            (let* values := prices (van_underlying v) [strike_date; van_expiry v] in
             match values with
             | [a; b] => Ok (a * fraction, b)
             | _ => Panic "index out of bounds"
             end)
    end.

  (** mod.rs:392-398 [Priceable::price]. *)
  Definition price (i : instrument T) (d : datetime) : res T := first_price (prices i [d]).
End Instruments.
