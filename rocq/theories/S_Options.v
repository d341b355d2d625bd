(** Specification vocabulary for making options. *)
From Coq Require Import ZArith List String.
From Verif Require Import Prelude Num M_Dates M_Instruments.

(** Shares and baskets are what options are written on. *)
Definition has_volatility {T} (u : instrument T) : Prop := match u with IEquity _ _ _ _ | IBasket _ _ _ _ _ => True | _ => False end.

(** The part of a day that has gone: none at the open, nor when the settlement price is taken, and four fifths at the close. *)
Definition time_in_day {T} {N : Num T} (tod : time_of_day) : T := match tod with Close_ => nlit 4 5 | Open_ | EDSP => n0 end.
