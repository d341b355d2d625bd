(** An option whose strike is yet to be set, off a surface with one volatility, on doubles. *)
From Coq Require Import ZArith List String Bool Lia Reals Lra.
From Coq.Floats Require Import SpecFloat.
From Flocq Require Import Core BinarySingleNaN.
From Verif Require Import Prelude Num M_Dates M_Calendar M_Interp M_Curves M_Fixings M_Forward M_Vol M_Black76 M_Instruments S_Double S_CurveDouble S_BlackDouble
  L_Num L_Double L_PricingAny L_BlackDouble L_VolDouble.
Import ListNotations.
Open Scope string_scope.
Open Scope list_scope.
Open Scope R_scope.

Section Any.
  Context {T : Type} {NT : Num T} {TT : Trans T}.
  Variables (nan : T) (cdf : T -> T) (c : pricing_context T).
  Lemma start_price_any v f d0 x0 d F0 F yc vol disp u st r now q : dt_leb d (van_expiry v) = true -> (dt_date d0 <? ctx_spot_date c)%Z = false ->
    prices nan cdf c (van_underlying v) [d0; van_expiry v] = Ok [F0; F] ->
    ctx_yield_curve c (credit_id (van_underlying v)) (van_pay_date v) = Ok yc ->
    ctx_vol_surface c (van_underlying v) (dt_date (van_expiry v)) (ctx_forward_curve c (van_underlying v) (dt_date (van_expiry v))) = Ok vol ->
    displacement nan vol (dt_date (van_expiry v)) = Ok disp -> rt nan yc (van_pay_date v) = Ok u ->
    apply_rule (van_settlement v) (dt_date d) = Ok st -> rt nan yc st = Ok r ->
    time_to_day_fraction (van_underlying v) d = Ok now ->
    forward_variance nan vol (if ddf_leb x0 now then now else x0) (van_expiry_time v) (nmul F0 f) = Ok q ->
    nltb (nsub F disp) n0 = false -> nltb q n0 = false ->
    price nan cdf c (IForwardEuropean v f d0 x0) d =
      Ok (black cdf (van_put_or_call v) (nmul (nexp (nopp u)) (nexp r)) (nsub F disp) (nadd (nmul F0 f) disp) (nsqrt q)).
  Proof.
    intros L SD P Y V Ds U ST RT TT' FV G Q. unfold M_Instruments.price in *. cbn [M_Instruments.prices]. rewrite SD, P. cbn [bind].
    unfold vanilla_prices. rewrite Y. cbn [bind]. rewrite V. cbn [bind]. rewrite U. cbn [bind]. rewrite Ds. cbn [bind]. unfold guard. rewrite G. cbn [negb bind mapM].
    unfold vanilla_price. rewrite L, ST. cbn [bind]. rewrite RT. cbn [bind]. rewrite TT'. cbn [bind]. rewrite FV. cbn [bind]. unfold guard. rewrite Q. cbn [negb bind first_price].
    unfold black. destruct (van_put_or_call v); reflexivity.
  Qed.
End Any.

Definition fifth_everywhere : list (ddf F64 * smile F64) := [(mkDDF 365%Z n0, FlatSmile (nlit 1 5)); (mkDDF 730%Z n0, FlatSmile (nlit 1 5))].

Definition fifth_surface : vol_by_probability F64 := Eval vm_compute in
  match vbp_new F_nan fifth_everywhere EveryDay (mkDDF 0%Z n0) level_hundred level_hundred NoCashDivs with
  | Ok s => s | _ => mkVBP [] EveryDay (mkDDF 0%Z n0) level_hundred level_hundred NoCashDivs [] [] [] end.
Lemma fifth_surface_new nan :
  vbp_new nan fifth_everywhere EveryDay (mkDDF 0%Z n0) level_hundred level_hundred NoCashDivs = Ok fifth_surface.
Proof. vm_compute. reflexivity. Qed.

Definition share_start (pc : put_or_call) : vanilla F64 :=
  mkVanilla "OPT" "OPT-CR" share NullRule (mkDT 730%Z Open_) pc CashSettled (mkDDF 730%Z n0) 730%Z.
Lemma share_start_new pc : forward_european_new "OPT" "OPT-CR" share NullRule (mkDT 730%Z Open_) n1 (mkDT 365%Z Open_) pc CashSettled =
  Ok (IForwardEuropean (share_start pc) n1 (mkDT 365%Z Open_) (mkDDF 365%Z n0)).
Proof. vm_compute. reflexivity. Qed.
Definition smile_market : pricing_context F64 :=
  mkContext 0%Z (fun _ _ => Ok (ZeroRateCurve 0%Z)) (fun _ => Ok (nofZ 100)) (fun _ _ => Ok (DriftlessForward (nofZ 100)))
    (fun _ _ _ => Ok (VolByProbability fifth_surface)).

Lemma start_price_is (TR : Trans F64) nan cdf pc :
  price nan cdf smile_market (IForwardEuropean (share_start pc) n1 (mkDT 365%Z Open_) (mkDDF 365%Z n0)) (mkDT 0%Z Open_) =
    Ok (black cdf pc (nmul (nexp (nopp n0)) (nexp n0)) (nsub (nofZ 100 : F64) n0) (nadd (nmul (nofZ 100) n1) n0) (nsqrt (n0 : F64))).
Proof.
  apply (start_price_any nan cdf smile_market (share_start pc) n1 (mkDT 365%Z Open_) (mkDDF 365%Z n0) (mkDT 0%Z Open_) (nofZ 100) (nofZ 100) (ZeroRateCurve 0%Z)
    (VolByProbability fifth_surface) n0 n0 0%Z n0 (mkDDF 0%Z n0) n0); vm_compute; reflexivity.
Qed.

Lemma start_nan : forall (TR : Trans F64) nan cdf pc, logs TR -> cdf F_nan = F_nan -> exists s i,
  vbp_new nan [(mkDDF 365%Z n0, FlatSmile (nlit 1 5)); (mkDDF 730%Z n0, FlatSmile (nlit 1 5))] EveryDay (mkDDF 0%Z n0) level_hundred level_hundred NoCashDivs = Ok s /\
  forward_european_new "OPT" "OPT-CR" (IEquity "BP" "BP-CR" (mkCurrency "USD" NullRule) NullRule) NullRule (mkDT 730%Z Open_) n1 (mkDT 365%Z Open_) pc CashSettled = Ok i /\
  price nan cdf (mkContext 0%Z (fun _ _ => Ok (ZeroRateCurve 0%Z)) (fun _ => Ok (nofZ 100)) (fun _ _ => Ok (DriftlessForward (nofZ 100)))
    (fun _ _ _ => Ok (VolByProbability s))) i (mkDT 0%Z Open_) = Ok F_nan.
Proof.
  intros TR nan cdf pc HL CN. exists fifth_surface. eexists. split; [apply fifth_surface_new|]. split; [apply share_start_new|].
  assert (Q : nsqrt (n0 : F64) = n0) by (vm_compute; reflexivity).
  pose proof (start_price_is TR nan cdf pc) as E. rewrite Q in E. refine (eq_trans E _). f_equal.
  assert (F : finite (nsub (nofZ 100) n0 : F64)) by (split; reflexivity). assert (F' : finite (nadd (nmul (nofZ 100) n1) n0 : F64)) by (split; reflexivity).
  assert (R : real (nsub (nofZ 100) n0) = 100) by (vm_compute; lra). assert (R' : real (nadd (nmul (nofZ 100) n1) n0) = 100) by (vm_compute; lra).
  destruct (at_the_money cdf TR (nmul (nexp (nopp n0)) (nexp n0)) (nsub (nofZ 100) n0) (nadd (nmul (nofZ 100) n1) n0) HL CN F F') as [C P]; [lra|lra|].
  destruct pc; assumption.
Qed.
