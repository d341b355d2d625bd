(** Properties of rate curves, fixings, dividends and forwards (C20 to C27).  The market of the examples is in
    L_DataCases.v: rates 5% flat from day 100, no borrow, two dividends. *)
From Coq Require Import ZArith List String Bool Lia Reals Lra.
From Verif Require Import Prelude Num M_Dates M_Calendar M_Interp M_Curves M_Fixings M_Forward S_Data.
From Verif Require Import L_Curves L_Fixings L_Forward L_ForwardTop L_Reach L_DataCases.
Import ListNotations.
Open Scope list_scope.
Open Scope R_scope.

(** ** C20: discount factors compose *)

Theorem C20_same : forall nan (c : curve R) d, df nan c d d = Ok 1.
Proof. exact df_same. Qed.
Print Assumptions C20_same.

Theorem C20_compose : forall nan (c : curve R) d1 d2 d3 x y,
  df nan c d1 d2 = Ok x -> df nan c d2 d3 = Ok y -> df nan c d1 d3 = Ok (x * y).
Proof. exact df_compose. Qed.
Print Assumptions C20_compose.

Theorem C20_inverse : forall nan (c : curve R) d1 d2 x, df nan c d1 d2 = Ok x -> df nan c d2 d1 = Ok (/ x).
Proof. exact df_inverse. Qed.
Print Assumptions C20_inverse.

Theorem C20_positive : forall nan (c : curve R) d1 d2 x, df nan c d1 d2 = Ok x -> 0 < x.
Proof. exact df_positive. Qed.
Print Assumptions C20_positive.

(** ... and are there whenever the rates are. *)
Theorem C20_defined : forall nan (c : curve R) d1 d2 u v, rt nan c d1 = Ok u -> rt nan c d2 = Ok v ->
  df nan c d1 d2 = Ok (exp (v - u)).
Proof. exact df_of_rt. Qed.
Print Assumptions C20_defined.

Example C20_case : forall nan d, rt nan flat_curve d = Ok (/ 20 * years 100%Z d).
Proof. exact flat_rt. Qed.

(** ** C21: the direction of discount factors *)

(** The discount factor is the reciprocal of the documented one. *)
Theorem C21_reciprocal : forall nan (c : curve R) d1 d2 u v, rt nan c d1 = Ok u -> rt nan c d2 = Ok v ->
  exists x, df nan c d1 d2 = Ok x /\ x * documented_df u v = 1.
Proof. exact df_reciprocal. Qed.
Print Assumptions C21_reciprocal.

(** With a positive rate it is above one. *)
Theorem C21_above_one : forall nan base l d x, (base < d)%Z -> rt nan (RateCurveAct365 base l) d = Ok x -> 0 < x ->
  exists y, df nan (RateCurveAct365 base l) base d = Ok y /\ 1 < y.
Proof. exact df_above_one. Qed.
Print Assumptions C21_above_one.

Theorem C21_documented_refuted : forall nan, exists u v x, rt nan flat_curve 100%Z = Ok u /\ rt nan flat_curve 465%Z = Ok v /\
  df nan flat_curve 100%Z 465%Z = Ok x /\ documented_df u v < 1 < x.
Proof. exact df_not_documented. Qed.
Print Assumptions C21_documented_refuted.

(** ** C22: yield bumps *)

Theorem C22_continuous : forall nan base c d b x, interpolated_from base c -> rt nan c d = Ok x ->
  rt nan (apply_yield (FlatContinuouslyCompounded b) c) d = Ok (x + b * years base d).
Proof. exact cc_bump. Qed.
Print Assumptions C22_continuous.

Theorem C22_continuous_zero : forall nan (c : curve R) d1 d2,
  df nan (apply_yield (FlatContinuouslyCompounded 0) c) d1 d2 = df nan c d1 d2.
Proof. exact cc_bump_zero. Qed.
Print Assumptions C22_continuous_zero.

Theorem C22_continuous_add : forall nan (c : curve R) b1 b2 d,
  rt nan (apply_yield (FlatContinuouslyCompounded b2) (apply_yield (FlatContinuouslyCompounded b1) c)) d
  = rt nan (apply_yield (FlatContinuouslyCompounded (b1 + b2)) c) d.
Proof. exact cc_bumps_add. Qed.
Print Assumptions C22_continuous_add.

(** exp (rt / t) is the growth over one year. *)
Theorem C22_annualised : forall nan base c d b x, interpolated_from base c -> rt nan c d = Ok x -> d <> base ->
  0 < exp (x / years base d) + b ->
  exists y, rt nan (apply_yield (FlatAnnualised b) c) d = Ok y /\
    exp (y / years base d) = exp (x / years base d) + b.
Proof. exact annualised_bump. Qed.
Print Assumptions C22_annualised.

Theorem C22_annualised_zero : forall nan (c : curve R) d1 d2, df nan (apply_yield (FlatAnnualised 0) c) d1 d2 = df nan c d1 d2.
Proof. exact annualised_bump_zero. Qed.
Print Assumptions C22_annualised_zero.

(** Bumping a zero curve does nothing. *)
Theorem C22_zero_curve : forall nan base b d, rt nan (apply_yield b (ZeroRateCurve base)) d = Ok 0.
Proof. exact zero_curve_bump. Qed.
Print Assumptions C22_zero_curve.

(** The relative bump multiplies by the bump ... *)
Theorem C22_relative : forall nan (c : curve R) b d x, rt nan c d = Ok x -> rt nan (relative_bump_new c b) d = Ok (b * x).
Proof. exact relative_bump. Qed.
Print Assumptions C22_relative.

(** ... and not by one plus the bump: zero does not leave the curve alone. *)
Theorem C22_relative_refuted : forall nan, exists x, rt nan flat_curve 465%Z = Ok x /\ x <> 0 /\
  rt nan (relative_bump_new flat_curve 0) 465%Z = Ok 0.
Proof. exact relative_zero. Qed.
Print Assumptions C22_relative_refuted.

Example C22_case : interpolated_from 100%Z (apply_yield (FlatAnnualised (/ 100)) flat_curve) /\
  0 < exp (/ 20 * years 100%Z 465%Z / years 100%Z 465%Z) + / 100.
Proof. split; [reflexivity|]. pose proof (exp_pos (/ 20 * years 100%Z 465%Z / years 100%Z 465%Z)). lra. Qed.

(** ** C23: fixings *)

Theorem C23_lookup : forall T until l (t : fixing_table T), from_fixings until l = Ok t -> forall id dt,
  (forall v, supplied l id dt v -> get_fixing t id dt = Ok (Some v)) /\
  ((forall v, ~ supplied l id dt v) -> (dt_date dt < until)%Z -> exists e : string, get_fixing t id dt = Err e) /\
  ((forall v, ~ supplied l id dt v) -> (until <= dt_date dt)%Z -> get_fixing t id dt = Ok None).
Proof. exact @from_fixings_get. Qed.
Print Assumptions C23_lookup.

Theorem C23_optional : forall T until l (t : fixing_table T), from_fixings until l = Ok t ->
  forall id dt v, get_optional t id dt = Some v <-> supplied l id dt v.
Proof. exact @from_fixings_ok. Qed.
Print Assumptions C23_optional.

Theorem C23_constructed_iff : forall T until (l : list (string * list (datetime * T))),
  (exists t, from_fixings until l = Ok t) <-> no_duplicates l.
Proof. exact @from_fixings_iff. Qed.
Print Assumptions C23_constructed_iff.

Theorem C23_no_panic : forall T until (l : list (string * list (datetime * T))) e, from_fixings until l <> Panic e.
Proof. exact @from_fixings_no_panic. Qed.
Print Assumptions C23_no_panic.

(** Inserting under an id that is there reports an error, but the old fixings are gone. *)
Theorem C23_failed_insert_refuted : forall T (t : fixing_table T) id f g dt, get id (by_id t) = Some g ->
  (exists e : string, fst (table_insert t id f) = Err e) /\ get_optional (snd (table_insert t id f)) id dt = dt_get dt f.
Proof. exact @insert_overwrites. Qed.
Print Assumptions C23_failed_insert_refuted.

(** Deserialising takes what the constructor refuses. *)
Theorem C23_deserialised_refuted : forall T k (v w : T),
  fixings_load [(k, v); (k, w)] = [(k, w)] /\ exists e : string, fixings_new [(k, v); (k, w)] = Err e.
Proof. exact (fun T k v w => conj (load_last k v w) (new_refuses k v w)). Qed.
Print Assumptions C23_deserialised_refuted.

Example C23_case : no_duplicates [("BP"%string, [(mkDT 10%Z Close_, 1); (mkDT 11%Z Close_, 2)]); ("GSK"%string, [(mkDT 10%Z Close_, 3)])].
Proof.
  split; cbn.
  - repeat constructor; cbn; intuition discriminate.
  - intros id fs [E|[E|[]]]; inversion E; subst; cbn; repeat constructor; cbn; intuition discriminate.
Qed.

(** ** C24: dividend sums *)

(** Bootstrapping succeeds. *)
Theorem C24_succeeds : forall nan s rate borrow spot base hwm disc l, priced_dividends nan s rate borrow spot base disc l ->
  exists b, bootstrap_new nan s rate borrow spot base hwm = Ok b.
Proof. exact bootstrap_total. Qed.
Print Assumptions C24_succeeds.

(** The amounts exist, whatever the dividends. *)
Theorem C24_amounts_exist : forall spot disc base divs, ex_ordered divs -> exists l, map fst l = divs /\ valued spot disc base l.
Proof. exact valued_exists. Qed.
Print Assumptions C24_amounts_exist.

(** Sums between two dates. *)
Theorem C24_between : forall nan s rate borrow spot base hwm disc l, priced_dividends nan s rate borrow spot base disc l ->
  forall b, bootstrap_new nan s rate borrow spot base hwm = Ok b ->
  forall from to, (base <= from <= to)%Z -> (to <= reach s hwm)%Z ->
  undiscounted_sum b from to = Ok (total (after_upto from to) amount l) /\
  discounted_sum b from to = Ok (total (after_upto from to) (present_value disc) l).
Proof. exact sums_between. Qed.
Print Assumptions C24_between.

Theorem C24_from_base : forall nan s rate borrow spot base hwm disc l, priced_dividends nan s rate borrow spot base disc l ->
  forall b, bootstrap_new nan s rate borrow spot base hwm = Ok b ->
  forall to, none_on base s -> (base <= to <= reach s hwm)%Z ->
  undiscounted_sum_from_base b to = Ok (total (after_upto base to) amount l) /\
  discounted_sum_from_base b to = Ok (total (after_upto base to) (present_value disc) l).
Proof. exact sums_from_base. Qed.
Print Assumptions C24_from_base.

Theorem C24_before : forall nan s rate borrow spot base hwm disc l, priced_dividends nan s rate borrow spot base disc l ->
  forall b, bootstrap_new nan s rate borrow spot base hwm = Ok b ->
  forall to, (to < base)%Z -> (to <= reach s hwm)%Z ->
  undiscounted_sum_from_base b to = Ok 0 /\ discounted_sum_from_base b to = Ok 0.
Proof. exact sums_before. Qed.
Print Assumptions C24_before.

Theorem C24_past_is_error : forall nan s rate borrow spot base hwm disc l, priced_dividends nan s rate borrow spot base disc l ->
  forall b, bootstrap_new nan s rate borrow spot base hwm = Ok b ->
  forall from to, (reach s hwm < to)%Z ->
  (exists m, undiscounted_sum_from_base b to = Err m) /\ (exists m, discounted_sum_from_base b to = Err m) /\
  (exists m, undiscounted_sum b from to = Err m) /\ (exists m, discounted_sum b from to = Err m).
Proof. exact sums_past. Qed.
Print Assumptions C24_past_is_error.

(** Dividends out of order are refused. *)
Theorem C24_out_of_order : forall T (N : Num T) (TR : Trans T) (nan : T) s rate borrow spot base hwm p m r (d e : dividend T) b,
  dividends s = p ++ d :: m ++ e :: r -> (base <= ex_date e < ex_date d)%Z ->
  (forall x, In x (dividends s) -> (ex_date x <= reach s hwm)%Z) ->
  bootstrap_new nan s rate borrow spot base hwm <> Ok b.
Proof. exact @out_of_order. Qed.
Print Assumptions C24_out_of_order.

(** A bootstrap reaches at least every cash dividend of the stream, in any arithmetic; a dividend whose cash is no number counts. *)
Theorem C24_reaches_cash : forall T (N : Num T) (divs : list (dividend T)) y hwm d, ex_ordered divs -> In d divs -> (cash d =? n0)%num = false ->
  (ex_date d <= reach (stream_new divs y) hwm)%Z.
Proof. exact @cash_within_any. Qed.
Print Assumptions C24_reaches_cash.

Theorem C24_reach : forall T (N : Num T) (divs : list (dividend T)) y hwm, divs <> [] ->
  reach (stream_new divs y) hwm = hwm \/ reach (stream_new divs y) hwm = from_nil \/
  exists d, In d divs /\ (cash d =? n0)%num = false /\ reach (stream_new divs y) hwm = ex_date d.
Proof. exact @reach_any. Qed.
Print Assumptions C24_reach.

Example C24_case : forall nan spot, (exists l, priced_dividends nan two_divs flat_curve no_borrow spot 100%Z flat_disc l) /\
  none_on 100%Z two_divs /\ reach two_divs 150%Z = 150%Z.
Proof. exact (fun nan spot => conj (two_divs_priced nan spot) (conj (proj1 two_divs_facts) (proj2 (proj2 two_divs_facts)))). Qed.

(** ** C25: dividends on the base date, and cash dividends to come *)

(** Dividends on the base date count if there is a later one ... *)
Theorem C25_base_date_counted : forall nan s rate borrow spot base hwm disc l, priced_dividends nan s rate borrow spot base disc l ->
  forall b, bootstrap_new nan s rate borrow spot base hwm = Ok b ->
  forall to, one_within base (reach s hwm) s -> (base <= to <= reach s hwm)%Z ->
  undiscounted_sum_from_base b to = Ok (total (from_upto base to) amount l) /\
  discounted_sum_from_base b to = Ok (total (from_upto base to) (present_value disc) l).
Proof. exact sums_later. Qed.
Print Assumptions C25_base_date_counted.

(** ... and not otherwise. *)
Theorem C25_base_date_not_counted : forall nan s rate borrow spot base hwm disc l, priced_dividends nan s rate borrow spot base disc l ->
  forall b, bootstrap_new nan s rate borrow spot base hwm = Ok b ->
  forall to, ~ one_within base (reach s hwm) s -> (to <= reach s hwm)%Z ->
  undiscounted_sum_from_base b to = Ok 0 /\ discounted_sum_from_base b to = Ok 0.
Proof. exact sums_no_later. Qed.
Print Assumptions C25_base_date_not_counted.

Theorem C25_base_date_refuted : forall nan spot, exists b b',
  bootstrap_new nan today_alone flat_curve no_borrow spot 100%Z 150%Z = Ok b /\
  bootstrap_new nan today_and_later flat_curve no_borrow spot 100%Z 150%Z = Ok b' /\
  undiscounted_sum_from_base b 100%Z = Ok 0 /\ undiscounted_sum_from_base b' 100%Z = Ok 2.
Proof. exact today_witness. Qed.
Print Assumptions C25_base_date_refuted.

(** On floating-point numbers, whatever exponential and logarithm: the cash dividends after a date are NaN. *)
Theorem C25_cash_after_refuted : forall (TF : Trans F64) s rate borrow spot base hwm b from d,
  ex_ordered (dividends s) -> bootstrap_new F_nan s rate borrow spot base hwm = Ok b ->
  In d (dividends s) -> (base < ex_date d <= reach s hwm)%Z -> (from <= ex_date d)%Z ->
  discounted_cash_divs_after b from = Ok F_nan.
Proof. exact remaining_nan_f64. Qed.
Print Assumptions C25_cash_after_refuted.

(** ** C26: bumped dividends *)

Theorem C26_dividends : forall (s : div_stream R) bump,
  Forall2 (fun d d' => cash d' = (1 + bump) * cash d /\ relative d' = (1 + bump) * relative d /\
                       ex_date d' = ex_date d /\ pay_date d' = pay_date d)
    (dividends s) (dividends (apply_divs (BumpAllRelative bump) s)).
Proof. exact bump_scales. Qed.
Print Assumptions C26_dividends.

(** Cash dividends: the sums scale. *)
Theorem C26_sums : forall nan (s : div_stream R) bump rate borrow spot base hwm disc l b b' from to,
  priced_dividends nan s rate borrow spot base disc l ->
  (forall d, In d (dividends s) -> relative d = 0 /\ (ex_date d <= base_date (div_yield s))%Z) ->
  bootstrap_new nan s rate borrow spot base hwm = Ok b ->
  bootstrap_new nan (apply_divs (BumpAllRelative bump) s) rate borrow spot base hwm = Ok b' ->
  (base <= from <= to)%Z -> (to <= reach s hwm)%Z ->
  exists x y, undiscounted_sum b from to = Ok x /\ undiscounted_sum b' from to = Ok ((1 + bump) * x) /\
              discounted_sum b from to = Ok y /\ discounted_sum b' from to = Ok ((1 + bump) * y).
Proof. exact bump_cash_sums. Qed.
Print Assumptions C26_sums.

(** The yield is multiplied by the bump, not by one plus the bump. *)
Theorem C26_yield : forall nan (s : div_stream R) bump d y, rt nan (div_yield s) d = Ok y ->
  rt nan (div_yield (apply_divs (BumpAllRelative bump) s)) d = Ok (bump * y).
Proof. exact bump_yield_scales. Qed.
Print Assumptions C26_yield.

(** Dividends past the base date of the yield: bootstrapping fails after any bump. *)
Theorem C26_overlap : forall T (N : Num T) (TR : Trans T) (nan : T) (s : div_stream T) bump rate borrow spot base hwm p d,
  dividends s = p ++ [d] -> (base_date (div_yield s) < ex_date d)%Z ->
  bootstrap_new nan (apply_divs (BumpAllRelative bump) s) rate borrow spot base hwm = Err "Dividend yield overlaps dividends".
Proof. exact @bump_overlaps. Qed.
Print Assumptions C26_overlap.

Theorem C26_bumpable_refuted : forall nan spot bump,
  (exists b, bootstrap_new nan two_divs flat_curve no_borrow spot 100%Z 150%Z = Ok b) /\
  (exists m, bootstrap_new nan (apply_divs (BumpAllRelative bump) two_divs) flat_curve no_borrow spot 100%Z 150%Z = Err m).
Proof. exact bump_breaks. Qed.
Print Assumptions C26_bumpable_refuted.

(** ** C27: the equity forward *)

Theorem C27_succeeds : forall nan base spot settlement rate borrow s hwm spot_date x0 disc l,
  apply_rule settlement base = Ok spot_date -> discounts nan rate borrow base spot_date x0 ->
  priced_dividends nan s rate borrow (spot * x0) base disc l ->
  exists f, equity_forward_new nan base spot settlement rate borrow s hwm = Ok f.
Proof. exact forward_exists. Qed.
Print Assumptions C27_succeeds.

(** The forward, in full: the spot less the dividends, grown at rate less borrow plus yield from one settlement date to
    the other. *)
Theorem C27_forward : forall nan base spot settlement rate borrow s hwm spot_date x0 disc l,
  apply_rule settlement base = Ok spot_date -> discounts nan rate borrow base spot_date x0 ->
  priced_dividends nan s rate borrow (spot * x0) base disc l ->
  forall f, equity_forward_new nan base spot settlement rate borrow s hwm = Ok f ->
  forall d p x y, none_on base s -> (base <= d <= reach s hwm)%Z ->
  apply_rule settlement d = Ok p -> discounts nan rate borrow base p x -> rt nan (div_yield s) p = Ok y ->
  forward_at nan f d = Ok ((spot * x0 - total (after_upto base d) (present_value disc) l) / x * exp y).
Proof. exact forward_value. Qed.
Print Assumptions C27_forward.

(** On the base date it is the spot, up to the yield until settlement. *)
Theorem C27_starts_at_spot : forall nan base spot settlement rate borrow s hwm spot_date x0 disc l,
  apply_rule settlement base = Ok spot_date -> discounts nan rate borrow base spot_date x0 ->
  priced_dividends nan s rate borrow (spot * x0) base disc l ->
  forall f, equity_forward_new nan base spot settlement rate borrow s hwm = Ok f ->
  forall y, none_on base s -> (base <= reach s hwm)%Z -> rt nan (div_yield s) spot_date = Ok y ->
  forward_at nan f base = Ok (spot * exp y).
Proof. exact forward_base. Qed.
Print Assumptions C27_starts_at_spot.

(** From one date to a later one: growth, and a fall by the dividends in between. *)
Theorem C27_change : forall nan base spot settlement rate borrow s hwm spot_date x0 disc l,
  apply_rule settlement base = Ok spot_date -> discounts nan rate borrow base spot_date x0 ->
  priced_dividends nan s rate borrow (spot * x0) base disc l ->
  forall f, equity_forward_new nan base spot settlement rate borrow s hwm = Ok f ->
  forall d1 d2 p1 p2 x1 x2 y1 y2, (base <= d1 <= d2)%Z -> (d2 <= reach s hwm)%Z ->
  apply_rule settlement d1 = Ok p1 -> discounts nan rate borrow base p1 x1 -> rt nan (div_yield s) p1 = Ok y1 ->
  apply_rule settlement d2 = Ok p2 -> discounts nan rate borrow base p2 x2 -> rt nan (div_yield s) p2 = Ok y2 ->
  exists f1 f2, forward_at nan f d1 = Ok f1 /\ forward_at nan f d2 = Ok f2 /\
    f2 * x2 * exp (- y2) = f1 * x1 * exp (- y1) - total (after_upto d1 d2) (present_value disc) l.
Proof. exact forward_change. Qed.
Print Assumptions C27_change.

(** All dividends relative: proportional to the spot. *)
Theorem C27_proportional : forall nan base spot k settlement rate borrow s hwm spot_date x0 disc l f f' d p x y,
  apply_rule settlement base = Ok spot_date -> discounts nan rate borrow base spot_date x0 ->
  priced_dividends nan s rate borrow (spot * x0) base disc l -> (forall e, In e (dividends s) -> cash e = 0) ->
  equity_forward_new nan base spot settlement rate borrow s hwm = Ok f ->
  equity_forward_new nan base (k * spot) settlement rate borrow s hwm = Ok f' ->
  none_on base s -> (base <= d <= reach s hwm)%Z ->
  apply_rule settlement d = Ok p -> discounts nan rate borrow base p x -> rt nan (div_yield s) p = Ok y ->
  exists v, forward_at nan f d = Ok v /\ forward_at nan f' d = Ok (k * v).
Proof. exact forward_scales. Qed.
Print Assumptions C27_proportional.

Theorem C27_past_is_error : forall nan base spot settlement rate borrow s hwm f d spot_date x0 disc l,
  apply_rule settlement base = Ok spot_date -> discounts nan rate borrow base spot_date x0 ->
  priced_dividends nan s rate borrow (spot * x0) base disc l ->
  equity_forward_new nan base spot settlement rate borrow s hwm = Ok f -> (reach s hwm < d)%Z ->
  exists m, forward_at nan f d = Err m.
Proof. exact forward_past. Qed.
Print Assumptions C27_past_is_error.

(** A dividend yield ought to lower the forward. *)
Theorem C27_yield_refuted : forall nan spot, 0 < spot -> exists f f' v v',
  equity_forward_new nan 100%Z spot NullRule flat_curve no_borrow (stream_new [] (ZeroRateCurve 100%Z)) 500%Z = Ok f /\
  equity_forward_new nan 100%Z spot NullRule flat_curve no_borrow (stream_new [] flat_curve) 500%Z = Ok f' /\
  forward_at nan f 465%Z = Ok v /\ forward_at nan f' 465%Z = Ok v' /\ v < v'.
Proof. exact yield_raises. Qed.
Print Assumptions C27_yield_refuted.

Example C27_case : forall nan d, apply_rule (@NullRule R) d = Ok d /\ discounts nan flat_curve no_borrow 100%Z d (flat_disc d) /\
  rt nan (div_yield two_divs) d = Ok (0 * 0).
Proof. exact (fun nan d => conj eq_refl (conj (flat_discounts nan d) eq_refl)). Qed.
