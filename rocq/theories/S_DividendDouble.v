(** Specification vocabulary for dividends and equity forwards on doubles. *)
From Coq Require Import ZArith List Reals.
From Flocq Require Import Core.
From Verif Require Import Prelude Num M_Dates M_Curves M_Forward S_Data S_Double S_CurveDouble.
Import ListNotations.
Open Scope R_scope.

(** The stream of dividends whose numbers are those that the doubles stand for. *)
Definition exact_dividend (d : dividend F64) : dividend R := mkDiv (real (cash d)) (real (relative d)) (ex_date d) (pay_date d).
Definition exact_stream (s : div_stream F64) : div_stream R :=
  mkStream (map exact_dividend (dividends s)) (exact_curve (div_yield s)) (last_cash_ex_date s).

(** The discount factor with borrow from [base] to [d], if there is one. *)
Definition factor (nan : R) (rate borrow : curve R) (base d : date) : R :=
  match (let* q := log_discount_with_borrow nan rate borrow base in discount_with_borrow nan rate borrow q d) with Ok x => x | _ => 0 end.

(** What the dividends from [base] to [upto] would come to today, had they all been of one sign: cash, and fractions of the spot and
    of all before. *)
Fixpoint gross_dividends (disc : date -> R) (base upto : date) (spot gross : R) (divs : list (dividend F64)) : R :=
  match divs with
  | [] => gross
  | d :: rest =>
      if (ex_date d <? base)%Z then gross_dividends disc base upto spot gross rest
      else if (upto <? ex_date d)%Z then gross
      else gross_dividends disc base upto spot
             (gross + Rabs (real (cash d)) * disc (pay_date d) + Rabs (real (relative d)) * ((spot + gross) / disc (ex_date d)) * disc (pay_date d)) rest
  end.

(** Amounts with which nothing overflows or underflows. *)
Definition ordinary_amount (k : Z) (x : F64) : Prop := finite x /\ (real x = 0 \/ bpow radix2 (- k) <= Rabs (real x) <= bpow radix2 k).
Definition ordinary_dividend (d : dividend F64) : Prop := ordinary_amount 300 (cash d) /\ ordinary_amount 100 (relative d).

(** The dates at which the curves are asked for rates. *)
Definition dividend_dates (divs : list (dividend F64)) : list date := flat_map (fun d => [ex_date d; pay_date d]) divs.
