(** C69: which options can be made, and what they are. *)
From Coq Require Import ZArith List String Bool Reals Lra.
From Verif Require Import Prelude Num M_Dates M_Calendar M_Curves M_Fixings M_Forward M_Vol M_Instruments S_Instruments S_Options L_Num L_OptionNew.
Import ListNotations.
Open Scope list_scope.
Open Scope R_scope.

(** C69: an option that starts now is made exactly when it is on a share or a basket, its settlement rule gives a day for the
    expiry, and its strike is not negative; then it pays on that day and expires at the time of day it was given. *)
Theorem C69_spot : forall id cr (u : instrument R) s e k pc cp i, spot_european_new id cr u s e k pc cp = Ok i <->
  exists pay, apply_rule s (dt_date e) = Ok pay /\ has_volatility u /\ 0 <= k /\
    i = ISpotEuropean (mkVanilla id cr u s e pc cp (mkDDF (dt_date e) (time_in_day (dt_tod e))) pay) k.
Proof. exact spot_iff_R. Qed.
Print Assumptions C69_spot.

(** C69: one that starts later, likewise, if its strike is a positive part of the fixing on the strike date. *)
Theorem C69_forward : forall id cr (u : instrument R) s e f d pc cp i, forward_european_new id cr u s e f d pc cp = Ok i <->
  exists pay, apply_rule s (dt_date e) = Ok pay /\ has_volatility u /\ 0 < f /\
    i = IForwardEuropean (mkVanilla id cr u s e pc cp (mkDDF (dt_date e) (time_in_day (dt_tod e))) pay) f d (mkDDF (dt_date d) (time_in_day (dt_tod d))).
Proof. exact forward_iff_R. Qed.
Print Assumptions C69_forward.

(** C69: on doubles the same, except that a strike or fraction that is no number is taken too. *)
Theorem C69_doubles : forall id cr (u : instrument F64) s e x d pc cp i,
  (spot_european_new id cr u s e x pc cp = Ok i <->
    exists pay, apply_rule s (dt_date e) = Ok pay /\ has_volatility u /\ (x = F_nan \/ nleb n0 x = true) /\
      i = ISpotEuropean (mkVanilla id cr u s e pc cp (mkDDF (dt_date e) (time_in_day (dt_tod e))) pay) x) /\
  (forward_european_new id cr u s e x d pc cp = Ok i <->
    exists pay, apply_rule s (dt_date e) = Ok pay /\ has_volatility u /\ (x = F_nan \/ nltb n0 x = true) /\
      i = IForwardEuropean (mkVanilla id cr u s e pc cp (mkDDF (dt_date e) (time_in_day (dt_tod e))) pay) x d (mkDDF (dt_date d) (time_in_day (dt_tod d)))).
Proof. exact made_F. Qed.
Print Assumptions C69_doubles.

Theorem C69_nan_refuted : exists i j, let u := IEquity "BP" "BP-CR" (mkCurrency "USD" NullRule) NullRule in
  spot_european_new "OPT" "OPT-CR" u NullRule (mkDT 365%Z Close_) F_nan Call CashSettled = Ok i /\
  forward_european_new "OPT" "OPT-CR" u NullRule (mkDT 365%Z Close_) F_nan (mkDT 100%Z Open_) Call CashSettled = Ok j.
Proof. exact nan_made. Qed.
Print Assumptions C69_nan_refuted.

(** C69: nothing keeps the strike date of an option before its expiry. If it is later, then while it is unknown fixings leave the
    option as it is, its own expiry passes without a payment, and after that it is worth nothing. *)
Theorem C69_order_refuted : forall T (N : Num T) (TR : Trans T) id cr (u : instrument T) s e f d pc cp i,
  forward_european_new id cr u s e f d pc cp = Ok i -> dt_ltb e d = true ->
  (forall t, get_optional t (instrument_id u) d = None -> (known_until t <= dt_date d)%Z -> fix_instrument t i = Ok None) /\
  (forall (nan : T) cdf c day l, dt_ltb e day = true -> prices nan cdf c i [day] = Ok l -> l = [n0]).
Proof. exact late_strike. Qed.
Print Assumptions C69_order_refuted.

Example C69_order_case : exists i, forward_european_new "OPT" "OPT-CR" (IEquity "BP" "BP-CR" (mkCurrency "USD" NullRule) NullRule) NullRule
  (mkDT 10%Z Open_) 1 (mkDT 20%Z Open_) Call CashSettled = Ok i /\ dt_ltb (mkDT 10%Z Open_) (mkDT 20%Z Open_) = true.
Proof. exact late_strike_case. Qed.
