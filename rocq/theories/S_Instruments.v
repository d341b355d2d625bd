(** Specification vocabulary for instruments: payoffs, values of holdings, leaves of nested baskets, declared data. *)
From Coq Require Import ZArith List String Bool Reals.
From Verif Require Import Prelude Num M_Dates M_Calendar M_Curves M_Fixings M_Forward M_Vol M_Instruments.
Import ListNotations.
Open Scope list_scope.
Open Scope R_scope.

(** What an option pays at expiry. *)
Definition payoff (pc : put_or_call) (spot strike : R) : R :=
  match pc with Call => Rmax (spot - strike) 0 | Put => Rmax (strike - spot) 0 end.

(** [x] is the weighted sum of the holdings, each valued by [val]. *)
Inductive adds_up {I} (val : I -> R -> Prop) : list (R * I) -> R -> Prop :=
| adds_nil : adds_up val [] 0
| adds_cons w i l x y : val i x -> adds_up val l y -> adds_up val ((w, i) :: l) (w * x + y).

(** A unit of cash paid on the option's payment date, on the option's own credit. *)
Definition cash_of (v : vanilla R) (i : instrument R) : Prop :=
  exists id cur, i = IZeroCoupon id (van_credit_id v) cur (van_expiry v) (van_pay_date v) (van_settlement v).

(** What a settled option's holdings are worth when they settle: cash is worth one, the underlying its fixing. *)
Definition settles (v : vanilla R) (fixing : R) : instrument R -> R -> Prop :=
  fun i x => (cash_of v i /\ x = 1) \/ (i = van_underlying v /\ x = fixing).

(** Applying a table to one holding: what it is replaced by, with weights multiplied; itself if unaffected. *)
Definition replaced_by {T} {N : Num T} (h : T * instrument T) (d : option (holdings T)) : holdings T :=
  match d with
  | None => [h]
  | Some l => map (fun x => (nmul (fst h) (fst x), snd x)) l
  end.

(** The portfolio after each holding has been replaced. *)
Fixpoint replaced_all {T} {N : Num T} (l : holdings T) (ds : list (option (holdings T))) : holdings T :=
  match l, ds with
  | h :: l', d :: ds' => replaced_by h d ++ replaced_all l' ds'
  | _, _ => []
  end.

(** The first failure in a list of outcomes. *)
Definition first_failure {A B} (f : A -> res B) (l : list A) (bad : A) : Prop :=
  exists l1 l2, l = l1 ++ bad :: l2 /\ Forall (fun a => exists b, f a = Ok b) l1.

(** A table leaves an instrument alone. *)
Definition unaffected {T} {N : Num T} (t : fixing_table T) (i : instrument T) : Prop := fix_instrument t i = Ok None.

(** Every option inside has an underlying that the table leaves alone (equities always are). *)
Inductive plain_underlyings {T} {N : Num T} (t : fixing_table T) : instrument T -> Prop :=
| pu_currency c : plain_underlyings t (ICurrency c)
| pu_credit id cur s : plain_underlyings t (ICreditEntity id cur s)
| pu_equity id cr cur s : plain_underlyings t (IEquity id cr cur s)
| pu_zero id cr cur ex pay s : plain_underlyings t (IZeroCoupon id cr cur ex pay s)
| pu_basket id cr cur s ms : Forall (fun h => plain_underlyings t (snd h)) ms -> plain_underlyings t (IBasket id cr cur s ms)
| pu_spot v k : unaffected t (van_underlying v) -> plain_underlyings t (ISpotEuropean v k)
| pu_forward v f d x : unaffected t (van_underlying v) -> plain_underlyings t (IForwardEuropean v f d x).

(** What instruments are worth once everything is known: [fx] is what each instrument fixed at, [now] the final price of
    each equity.  A physically settled option is only given a worth if the delivered underlying is worth its fixing. *)
Inductive worth (fx : string -> datetime -> R) (now : string -> R) : instrument R -> R -> Prop :=
| worth_currency c : worth fx now (ICurrency c) 1
| worth_credit id cur s : worth fx now (ICreditEntity id cur s) 1
| worth_equity id cr cur s : worth fx now (IEquity id cr cur s) (now id)
| worth_zero id cr cur ex pay s : worth fx now (IZeroCoupon id cr cur ex pay s) 1
| worth_basket id cr cur s ms x : adds_up (worth fx now) ms x -> worth fx now (IBasket id cr cur s ms) x
| worth_spot v k x : x = fx (instrument_id (van_underlying v)) (van_expiry v) ->
    (van_cash_or_physical v = PhysicalSettled -> worth fx now (van_underlying v) x) ->
    worth fx now (ISpotEuropean v k) (payoff (van_put_or_call v) x k)
| worth_forward v f d t x y : x = fx (instrument_id (van_underlying v)) (van_expiry v) ->
    y = fx (instrument_id (van_underlying v)) d ->
    (van_cash_or_physical v = PhysicalSettled -> worth fx now (van_underlying v) x) ->
    worth fx now (IForwardEuropean v f d t) (payoff (van_put_or_call v) x (f * y)).

(** A table that tells the truth. *)
Definition truthful (fx : string -> datetime -> R) (t : fixing_table R) : Prop :=
  forall id dt x, get_optional t id dt = Some x -> x = fx id dt.

(** The members of nested baskets, with weights multiplied down to them. *)
Inductive leaves {T} {N : Num T} : T -> instrument T -> holdings T -> Prop :=
| leaf w i : (forall id cr cur s ms, i <> IBasket id cr cur s ms) -> leaves w i [(w, i)]
| leaves_basket w id cr cur s ms l : all_leaves w ms l -> leaves w (IBasket id cr cur s ms) l
with all_leaves {T} {N : Num T} : T -> holdings T -> holdings T -> Prop :=
| all_nil w : all_leaves w [] []
| all_cons w w' i ms l l' : leaves (nmul w w') i l -> all_leaves w ms l' -> all_leaves w ((w', i) :: ms) (l ++ l').

(** The sum of some terms, in the order and with the rounding of the arithmetic. *)
Fixpoint sum_in_order {T} {N : Num T} (from : T) (terms : list T) : T :=
  match terms with
  | [] => from
  | x :: terms' => sum_in_order (nadd from x) terms'
  end.

(** The [j]th of a batch of prices. *)
Definition nth_price {T} (price_all : instrument T -> res (list T)) (j : nat) : instrument T -> T -> Prop :=
  fun i x => exists ps, price_all i = Ok ps /\ nth_error ps j = Some x.

(** The same option as a call and as a put. *)
Definition as_kind (pc : put_or_call) (v : vanilla R) : vanilla R :=
  mkVanilla (van_id v) (van_credit_id v) (van_underlying v) (van_settlement v) (van_expiry v) pc
    (van_cash_or_physical v) (van_expiry_time v) (van_pay_date v).
