(** Specification vocabulary for curves, fixings, dividends and forwards. *)
From Coq Require Import ZArith List String Bool Reals.
From Verif Require Import Prelude M_Dates M_Curves M_Fixings M_Forward.
Import ListNotations.
Open Scope list_scope.
Open Scope R_scope.

(** ** Curves *)

(** A stack of bumps on an interpolated curve that starts at [base]. *)
Fixpoint interpolated_from (base : date) (c : curve R) : Prop :=
  match c with
  | ZeroRateCurve _ => False
  | RateCurveAct365 b _ => b = base
  | AnnualisedFlatBump c _ | ContinuouslyCompoundedFlatBump c _ | RelativeBump c _ => interpolated_from base c
  end.

(** Act/365. *)
Definition years (base d : date) : R := IZR (d - base) / 365.

(** What the documentation of curves.rs:17-23 calls the discount factor, from rt at the two dates. *)
Definition documented_df (rt_from rt_to : R) : R := exp (- rt_to) / exp (- rt_from).

(** ** Fixings *)

Definition supplied {T} (l : list (string * list (datetime * T))) (id : string) (dt : datetime) (v : T) : Prop :=
  exists fs, In (id, fs) l /\ In (dt, v) fs.

Definition no_duplicates {T} (l : list (string * list (datetime * T))) : Prop :=
  NoDup (map fst l) /\ forall id fs, In (id, fs) l -> NoDup (map fst fs).

(** ** Dividends *)

(** The total of w over the dividends whose ex date satisfies P; each comes with its amount. *)
Fixpoint total (P : date -> bool) (w : dividend R -> R -> R) (l : list (dividend R * R)) : R :=
  match l with
  | [] => 0
  | (d, a) :: l' => (if P (ex_date d) then w d a else 0) + total P w l'
  end.

Definition amount (d : dividend R) (a : R) : R := a.
(** Value today of an amount paid on the pay date. *)
Definition present_value (disc : date -> R) (d : dividend R) (a : R) : R := a * disc (pay_date d).

(** Every dividend from [base] on is worth its cash plus its fraction of the forward just before the ex date: the spot
    less the dividends that went ex before, grown to the ex date. *)
Definition valued (spot : R) (disc : date -> R) (base : date) (l : list (dividend R * R)) : Prop :=
  forall d a, In (d, a) l -> (base <= ex_date d)%Z ->
    a = cash d + relative d * ((spot - total (fun ex => (base <=? ex)%Z && (ex <? ex_date d)%Z)%bool
                                             (present_value disc) l) / disc (ex_date d)).

(** In order of ex date. *)
Fixpoint ex_ordered {T} (l : list (dividend T)) : Prop :=
  match l with
  | [] => True
  | d :: l' => (forall e, In e l' -> (ex_date d <= ex_date e)%Z) /\ ex_ordered l'
  end.

(** The discount factors are known for all dates of the dividends from [base] on. *)
Definition discountable (disc_at : date -> res R) (disc : date -> R) (base : date) (l : list (dividend R)) : Prop :=
  forall d, In d l -> (base <= ex_date d)%Z ->
    disc_at (pay_date d) = Ok (disc (pay_date d)) /\ disc_at (ex_date d) = Ok (disc (ex_date d)).

(** The dividend yield does not overlap the dividends. *)
Definition yield_apart (s : div_stream R) : Prop :=
  is_zero (div_yield s) = true \/ forall d, In d (dividends s) -> (ex_date d <= base_date (div_yield s))%Z.

Definition after_upto (from to : date) (ex : date) : bool := (from <? ex)%Z && (ex <=? to)%Z.
Definition from_upto (from to : date) (ex : date) : bool := (from <=? ex)%Z && (ex <=? to)%Z.

(** A stream in order, with its yield apart, whose dividends can be discounted to [base] by [disc] and have the amounts
    given in [l] when the equity is worth [spot] on [base]. *)
Record priced_dividends (nan : R) (s : div_stream R) (rate borrow : curve R) (spot : R) (base : date)
    (disc : date -> R) (l : list (dividend R * R)) : Prop := {
  pd_base : exists q, log_discount_with_borrow nan rate borrow base = Ok q /\
              discountable (discount_with_borrow nan rate borrow q) disc base (dividends s);
  pd_order : ex_ordered (dividends s);
  pd_yield : yield_apart s;
  pd_list : map fst l = dividends s;
  pd_valued : valued spot disc base l
}.

(** How far a bootstrap reaches. *)
Definition reach {T} (s : div_stream T) (hwm : date) : date :=
  match dividends s with [] => hwm | _ => Z.max hwm (last_cash_ex_date s) end.

Definition none_on {T} (base : date) (s : div_stream T) : Prop := forall d, In d (dividends s) -> ex_date d <> base.
Definition one_within {T} (base to : date) (s : div_stream T) : Prop := exists d, In d (dividends s) /\ (base < ex_date d <= to)%Z.

(** [x] is the discount factor from [base] to [d] with borrow. *)
Definition discounts (nan : R) (rate borrow : curve R) (base d : date) (x : R) : Prop :=
  exists q, log_discount_with_borrow nan rate borrow base = Ok q /\ discount_with_borrow nan rate borrow q d = Ok x.
