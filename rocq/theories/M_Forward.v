(** Model of src/data/divstream.rs, src/data/forward.rs and src/data/bumpdivs.rs. *)
From Coq Require Import ZArith List String Bool.
From Verif Require Import Prelude Num M_Dates M_Search M_Calendar M_Interp M_Curves.
Import ListNotations.
Open Scope string_scope.

(** divstream.rs:40-46 [struct Dividend]. *)
Record dividend (T : Type) := mkDiv { cash : T; relative : T; ex_date : date; pay_date : date }.
Arguments mkDiv {T}.
Arguments cash {T} d.
Arguments relative {T} d.
Arguments ex_date {T} d.
Arguments pay_date {T} d.

(** divstream.rs:80-84 [struct DividendStream]. *)
Record div_stream (T : Type) := mkStream { dividends : list (dividend T); div_yield : curve T; last_cash_ex_date : date }.
Arguments mkStream {T}.
Arguments dividends {T} d.
Arguments div_yield {T} d.
Arguments last_cash_ex_date {T} d.

(** divstream.rs:164-170 [struct DividendAccumulation]. *)
Record accumulation (T : Type) := mkAcc
  { acc_ex_date : date; acc_undiscounted : T; acc_discounted : T; acc_cash : T; acc_cash_remaining : T }.
Arguments mkAcc {T}.
Arguments acc_ex_date {T} a.
Arguments acc_undiscounted {T} a.
Arguments acc_discounted {T} a.
Arguments acc_cash {T} a.
Arguments acc_cash_remaining {T} a.

(** divstream.rs:172-176 [struct DividendBootstrap]. *)
Record bootstrap (T : Type) := mkBoot { boot_base : date; boot_hwm : date; boot_acc : list (accumulation T) }.
Arguments mkBoot {T}.
Arguments boot_base {T} b.
Arguments boot_hwm {T} b.
Arguments boot_acc {T} b.

(** divstream.rs:224-229: the mutable locals of the bootstrap loop. *)
Record boot_state (T : Type) := mkBS
  { bs_prev : date; bs_und : T; bs_disc : T; bs_cash : T; bs_prev_disc : T; bs_acc : list (accumulation T) }.
Arguments mkBS {T}.
Arguments bs_prev {T} b.
Arguments bs_und {T} b.
Arguments bs_disc {T} b.
Arguments bs_cash {T} b.
Arguments bs_prev_disc {T} b.
Arguments bs_acc {T} b.

(** bumpdivs.rs:8-10 [enum BumpDivs]. *)
Inductive bump_divs (T : Type) := BumpAllRelative (size : T).
Arguments BumpAllRelative {T} size.

Section Forward.
  Context {T : Type} `{Num T} `{Trans T}.
  Variable nan : T.
  Local Open Scope num_scope.

  (** divstream.rs:59-62 [bump_all_relative]. *)
  Definition bump_dividend (one_plus_bump : T) (d : dividend T) : dividend T :=
    mkDiv (cash d * one_plus_bump) (relative d * one_plus_bump) (ex_date d) (pay_date d).

  (** divstream.rs:87-104 [DividendStream::new]. *)
  Definition stream_new (divs : list (dividend T)) (yield : curve T) : div_stream T :=
    mkStream divs yield
      (fold_left (fun last d => if negb (cash d =? n0) then ex_date d else last) divs from_nil).

  (** divstream.rs:108-122 [DividendStream::new_bump_all]. *)
  Definition stream_bump_all (s : div_stream T) (bump : T) : div_stream T :=
    mkStream (map (bump_dividend (bump + n1)) (dividends s)) (relative_bump_new (div_yield s) bump) (last_cash_ex_date s).

  (** bumpdivs.rs:18-25 [BumpDivs::apply]. *)
  Definition apply_divs (b : bump_divs T) (s : div_stream T) : div_stream T :=
    match b with BumpAllRelative size => stream_bump_all s size end.

  (** forward.rs:177-183 [log_discount_with_borrow]. *)
  Definition log_discount_with_borrow (rate borrow : curve T) (d : date) : res T :=
    let* r := rt nan rate d in
    let* q := rt nan borrow d in
    Ok (q - r).

  (** forward.rs:167-172 [discount_with_borrow]. *)
  Definition discount_with_borrow (rate borrow : curve T) (base : T) (d : date) : res T :=
    let* l := log_discount_with_borrow rate borrow d in
    Ok (nexp (l - base)).

  (** divstream.rs:242-247 and 278-283: an accumulation for the date just finished. *)
  Definition close_acc (s : boot_state T) : accumulation T :=
    mkAcc (bs_prev s) (bs_und s) (bs_disc s) (bs_cash s) nan.

  (** divstream.rs:249-274: add one dividend to the sums. *)
  Definition boot_add (rate borrow : curve T) (base_qt_rt spot : T) (s : boot_state T) (d : dividend T)
      : res (boot_state T) :=
    let* dfv := discount_with_borrow rate borrow base_qt_rt (pay_date d) in
    let cash_pv := cash d * dfv in
    let und := bs_und s + cash d in
    let disc := bs_disc s + cash_pv in
    let dcash := bs_cash s + cash_pv in
    if negb (relative d =? n0) then
      let* g := discount_with_borrow rate borrow base_qt_rt (ex_date d) in
      let growth := n1 / g in
      let fwd := (spot - bs_prev_disc s) * growth in
      let amount := relative d * fwd in
      Ok (mkBS (bs_prev s) (und + amount) (disc + amount * dfv) dcash (bs_prev_disc s) (bs_acc s))
    else Ok (mkBS (bs_prev s) und disc dcash (bs_prev_disc s) (bs_acc s)).

  (** divstream.rs:231-275: the loop. *)
  Fixpoint boot_loop (rate borrow : curve T) (base_qt_rt spot : T) (base upto : date)
      (divs : list (dividend T)) (s : boot_state T) : res (boot_state T) :=
    match divs with
    | [] => Ok s
    | d :: rest =>
        let ex := ex_date d in
        if (ex <? base)%Z then boot_loop rate borrow base_qt_rt spot base upto rest s
        else if (ex <? bs_prev s)%Z then Err "Dividends not in ex date order"
        else if (upto <? ex)%Z then Ok s
        else
          let s1 := if (bs_prev s <? ex)%Z
                    then mkBS ex (bs_und s) (bs_disc s) (bs_cash s) (bs_disc s) (bs_acc s ++ [close_acc s])
                    else s in
          let* s2 := boot_add rate borrow base_qt_rt spot s1 d in
          boot_loop rate borrow base_qt_rt spot base upto rest s2
    end.

  (** divstream.rs:286-293: the backward walk.  Every discounted_cash_remaining is still NaN when it is read. *)
  Definition fill_remaining (acc : list (accumulation T)) : list (accumulation T) :=
    match rev acc with
    | [] => acc
    | final :: _ =>
        map (fun a => mkAcc (acc_ex_date a) (acc_undiscounted a) (acc_discounted a) (acc_cash a)
                            (acc_cash final - acc_cash_remaining a)) acc
    end.

  (** divstream.rs:198-302 [DividendBootstrap::new]. *)
  Definition bootstrap_new (divs : div_stream T) (rate borrow : curve T) (spot : T) (base hwm : date)
      : res (bootstrap T) :=
    match rev (dividends divs) with
    | [] => Ok (mkBoot base hwm [])
    | final :: _ =>
        if negb (is_zero (div_yield divs)) && (base_date (div_yield divs) <? ex_date final)%Z
        then Err "Dividend yield overlaps dividends"
        else
          let upto := Z.max hwm (last_cash_ex_date divs) in
          let* base_qt_rt := log_discount_with_borrow rate borrow base in
          let* s := boot_loop rate borrow base_qt_rt spot base upto (dividends divs) (mkBS base n0 n0 n0 n0 []) in
          let acc := if (base <? bs_prev s)%Z then (bs_acc s ++ [close_acc s])%list else bs_acc s in
          Ok (mkBoot base upto (fill_remaining acc))
    end.

  (** The lookups of divstream.rs:333-345 and 372-384: the sum at the last ex date up to [to]. *)
  Definition sum_at (field : accumulation T -> T) (b : bootstrap T) (to : date) : res T :=
    if (boot_hwm b <? to)%Z then Err "Accessing dividend stream past the previously stated high_water mark"
    else
      match binary_search_by (boot_acc b) (fun p => (acc_ex_date p ?= to)%Z) with
      | Found i => let* a := at_ (boot_acc b) i in Ok (field a)
      | Missing i => if Nat.eqb i 0 then Ok n0 else let* a := at_ (boot_acc b) (i - 1) in Ok (field a)
      end.

  (** divstream.rs:325-347 and 364-386. *)
  Definition undiscounted_sum_from_base := sum_at acc_undiscounted.
  Definition discounted_sum_from_base := sum_at acc_discounted.

  (** divstream.rs:315-321 [undiscounted_sum] and 353-359 [discounted_sum]. *)
  Definition undiscounted_sum (b : bootstrap T) (from to : date) : res T :=
    let* sum_from := undiscounted_sum_from_base b from in
    let* sum_to := undiscounted_sum_from_base b to in
    Ok (sum_to - sum_from).
  Definition discounted_sum (b : bootstrap T) (from to : date) : res T :=
    let* sum_from := discounted_sum_from_base b from in
    let* sum_to := discounted_sum_from_base b to in
    Ok (sum_to - sum_from).

  (** divstream.rs:391-414 [discounted_cash_divs_after]. *)
  Definition discounted_cash_divs_after (b : bootstrap T) (from : date) : res T :=
    if (boot_hwm b <? from)%Z then Err "Accessing dividend stream past the previously stated high_water mark"
    else
      match binary_search_by (boot_acc b) (fun p => (acc_ex_date p ?= from)%Z) with
      | Found i => let* a := at_ (boot_acc b) i in Ok (acc_cash_remaining a)
      | Missing i => if Nat.eqb i (List.length (boot_acc b)) then Ok n0
                     else let* a := at_ (boot_acc b) i in Ok (acc_cash_remaining a)
      end.

  (** forward.rs:82-90 [struct EquityForward], 42-44 [DriftlessForward] and 63-65 [InterpolatedForward]
      (over a linear interpolator). *)
  Inductive forward :=
  | DriftlessForward (value : T)
  | InterpolatedForward (interp : @linear T date)
  | EquityForward (settlement : date_rule T) (rate borrow yield : curve T) (boot : bootstrap T)
                  (reference_spot base_log_discount : T).

  (** forward.rs:48-50, 70-72 and 95-111 [Forward::forward]. *)
  Definition forward_at (f : forward) (d : date) : res T :=
    match f with
    | DriftlessForward value => Ok value
    | InterpolatedForward interp => linear_at nan interp d
    | EquityForward settlement rate borrow yield boot reference_spot base_log_discount =>
        let* divs := discounted_sum_from_base boot d in
        let* pay := apply_rule settlement d in
        let* log_df := log_discount_with_borrow rate borrow pay in
        let* log_div_yield := rt nan yield pay in
        let growth := nexp (base_log_discount + log_div_yield - log_df) in
        Ok ((reference_spot - divs) * growth)
    end.

  (** forward.rs:26-28 and 113-115 [fixed_divs_after]. *)
  Definition fixed_divs_after (f : forward) (d : date) : res T :=
    match f with
    | EquityForward _ _ _ _ boot _ _ => discounted_cash_divs_after boot d
    | _ => Ok n0
    end.

  (** forward.rs:119-154 [EquityForward::new]. *)
  Definition equity_forward_new (base : date) (spot : T) (settlement : date_rule T) (rate borrow : curve T)
      (divs : div_stream T) (hwm : date) : res forward :=
    let* base_log_discount := log_discount_with_borrow rate borrow base in
    let* spot_date := apply_rule settlement base in
    let* spot_df := discount_with_borrow rate borrow base_log_discount spot_date in
    let reference_spot := spot * spot_df in
    let* boot := bootstrap_new divs rate borrow reference_spot base hwm in
    Ok (EquityForward settlement rate borrow (div_yield divs) boot reference_spot base_log_discount).
End Forward.
Arguments forward T : clear implicits.
