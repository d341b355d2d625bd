(** C73: the change of a European option as time passes. *)
From Coq Require Import ZArith List String Bool Reals.
From Verif Require Import Prelude Num M_Dates M_Calendar M_Curves M_Forward M_Vol M_Instruments M_Deps M_Risk M_Reports
  S_Math S_Data S_Vol S_Expectation S_Greeks L_InstrumentCases L_RiskCases L_Theta L_ThetaCases.
Import ListNotations.
Open Scope list_scope.
Open Scope string_scope.
Open Scope R_scope.

(** A holding w of an option on a share, off a vol surface that starts on the spot date and has volatility [vol] and time [t] for
    the option, and a report on a day d before it expires, by when [e] of that time has elapsed.  The report gives the price on
    that day and its difference from the value today.  Both are Black's, discounted: the first with the volatility over the time
    that is left, from the spot as it is or, if forwards are kept, from the forward to that day. *)
Theorem C73_theta : forall nan N w v k id cr cur st, van_underlying v = IEquity id cr cur st ->
  forall md sp bt gs s surface vol t e value r sp' sv sv',
  let u := van_underlying v in let expiry := dt_date (van_expiry v) in let d := bsd_date (bt_spot_date_bump bt) in
  (0 <= md_spot_date md)%Z -> (md_spot_date md < d < expiry)%Z -> self_pricer_new nan [(w, ISpotEuropean v k)] md = Ok sp ->
  get id (md_spots md) = Some s -> get id (md_vols md) = Some surface ->
  ddf_date (vs_base surface) = md_spot_date md -> 0 <= ddf_frac (vs_base surface) ->
  volatility_is nan surface (van_expiry_time v) k vol t -> 0 <= vol ->
  year_fraction (vs_calendar surface) (vs_base surface) (mkDDF d 0) = Ok e -> 1 / 1000000000000 <= e <= t -> self_price nan N sp = Ok value ->
  generate nan (self_ops nan N) (TimeBumpedGenerator bt gs) sp sv value = (Ok r, sp', sv') ->
  exists price subs D D' disp x F F', r = TimeBumpedReport price (price - value) subs /\
    other_inputs nan md v k D disp (vol * sqrt t) /\ other_inputs nan (on_date md d) v k D' disp (vol * sqrt (t - e)) /\ 0 < D /\ 0 < D' /\
    match bsd_dynamics (bt_spot_date_bump bt) with StickySpot => x = s | StickyForward => forward_if nan md u d s x end /\
    forward_if nan md u expiry s F /\ forward_if nan (on_date md d) u expiry x F' /\
    value = w * (D * blacks_price N (van_put_or_call v) (F - disp) (k + disp) (vol * sqrt t)) /\
    price = w * (D' * blacks_price N (van_put_or_call v) (F' - disp) (k + disp) (vol * sqrt (t - e))).
Proof. exact option_theta. Qed.
Print Assumptions C73_theta.

(** When forwards are kept they are: the forward to a later date e from the forward to d, seen on d, is the one seen today.  The
    dividends may be cash or relative, before d or after, but none on the two days, and the yield starts after settlement of d. *)
Theorem C73_forward_kept : forall nan md u d e s x F F' rate borrow divs,
  get (credit_id u) (md_yields md) = Some rate -> get (instrument_id u) (md_borrows md) = Some borrow ->
  get (instrument_id u) (md_divs md) = Some divs -> ex_ordered (dividends divs) -> yield_apart divs -> none_on (md_spot_date md) divs -> none_on d divs ->
  (forall dv, In dv (dividends divs) -> (exists q, log_discount_with_borrow nan rate borrow (pay_date dv) = Ok q) /\
    (exists q, log_discount_with_borrow nan rate borrow (ex_date dv) = Ok q)) ->
  (md_spot_date md <= d <= e)%Z -> (exists p, apply_rule (settlement u) d = Ok p /\ rt nan (div_yield divs) p = Ok 0) ->
  forward_if nan md u d s x -> forward_if nan md u e s F -> forward_if nan (on_date md d) u e x F' -> F' = F.
Proof. exact forward_kept. Qed.
Print Assumptions C73_forward_kept.

(** A share with a cash dividend before day five and a relative one after. *)
Example C73_forward_kept_applies : forall nan s, exists x F, forward_if nan (div_market s) stock 5%Z s x /\
  forward_if nan (div_market s) stock 15%Z s F /\ forward_if nan (on_date (div_market s) 5%Z) stock 15%Z x F.
Proof. exact divs_kept. Qed.

(** But if there is a yield up to then it is counted again. *)
Theorem C73_yield : forall nan md u d e s x F F' divs y, get (instrument_id u) (md_divs md) = Some divs -> dividends divs = [] ->
  (exists p, apply_rule (settlement u) d = Ok p /\ rt nan (div_yield divs) p = Ok y) ->
  forward_if nan md u d s x -> forward_if nan md u e s F -> forward_if nan (on_date md d) u e x F' -> F' = F * exp y.
Proof. exact forward_grown. Qed.
Print Assumptions C73_yield.

Theorem C73_kept_refuted : forall nan s, 0 < s -> exists md u x F F', md_spot_date md = 0%Z /\ forward_if nan md u 5%Z s x /\
  forward_if nan md u 15%Z s F /\ forward_if nan (on_date md 5%Z) u 15%Z x F' /\ F < F'.
Proof. exact yield_twice. Qed.
Print Assumptions C73_kept_refuted.

(** Time decay: where the forward is kept, an option held gains less than interest on its value, and loses if there is none. *)
Theorem C73_decay : forall nan N w v k id cr cur st, van_underlying v = IEquity id cr cur st -> normal_cdf N ->
  forall md sp bt gs s surface vol t e value r sp' sv sv',
  let u := van_underlying v in let expiry := dt_date (van_expiry v) in let d := bsd_date (bt_spot_date_bump bt) in
  (0 <= md_spot_date md)%Z -> (md_spot_date md < d < expiry)%Z -> self_pricer_new nan [(w, ISpotEuropean v k)] md = Ok sp ->
  get id (md_spots md) = Some s -> get id (md_vols md) = Some surface ->
  ddf_date (vs_base surface) = md_spot_date md -> 0 <= ddf_frac (vs_base surface) ->
  volatility_is nan surface (van_expiry_time v) k vol t -> 0 < vol ->
  year_fraction (vs_calendar surface) (vs_base surface) (mkDDF d 0) = Ok e -> 1 / 1000000000000 <= e < t -> self_price nan N sp = Ok value ->
  generate nan (self_ops nan N) (TimeBumpedGenerator bt gs) sp sv value = (Ok r, sp', sv') -> 0 < w ->
  exists price theta subs D D' disp sd sd' x F F', r = TimeBumpedReport price theta subs /\
    other_inputs nan md v k D disp sd /\ other_inputs nan (on_date md d) v k D' disp sd' /\
    match bsd_dynamics (bt_spot_date_bump bt) with StickySpot => x = s | StickyForward => forward_if nan md u d s x end /\
    forward_if nan md u expiry s F /\ forward_if nan (on_date md d) u expiry x F' /\
    (F' = F -> disp < F -> 0 < k + disp -> theta < (D' / D - 1) * value /\ (D' = D -> theta < 0)).
Proof. exact option_decay. Qed.
Print Assumptions C73_decay.

(** A call of 15 days, five days on, whichever way the spot moves. *)
Example C73_applies : forall nan N s dyn, normal_cdf N -> 0 < s -> exists sp value price theta,
  self_pricer_new nan [(1, call_100)] (flat_market s) = Ok sp /\ self_price nan N sp = Ok value /\
  generate nan (self_ops nan N) (TimeBumpedGenerator (mkBumpTime (mkBumpSpotDate 5%Z dyn) 5%Z) []) sp saved_prefetch_new value =
    (Ok (TimeBumpedReport price theta []), sp, saved_prefetch_new) /\
  (dyn = StickyForward -> theta < (exp (5 * (5 / 365)) - 1) * value).
Proof. exact one_call_theta. Qed.
