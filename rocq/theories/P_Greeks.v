(** C71, C72: the greeks reported for a European option. *)
From Coq Require Import ZArith List String Bool Reals.
From Verif Require Import Prelude Num M_Dates M_Calendar M_Curves M_Forward M_Vol M_Black76 M_Instruments M_Deps M_Risk M_Reports
  S_Math S_Vol S_Reports S_Greeks L_ForwardAffine L_Greeks L_Vega L_InstrumentCases L_RiskCases L_ReportCases L_GreeksCases L_VegaCases.
Import ListNotations.
Open Scope list_scope.
Open Scope R_scope.

(** ** C71: the delta and gamma of a European option *)

(** The forward is affine in the spot, whatever the dividends: the forward of a mixture of two spots is the mixture of the forwards. *)
Theorem C71_forward : forall nan md (v : vanilla R) l x y F G K, let u := van_underlying v in let d := dt_date (van_expiry v) in
  forward_if nan md u d x F -> forward_if nan md u d y G -> forward_if nan md u d (l * x + (1 - l) * y) K -> K = l * F + (1 - l) * G.
Proof. exact (fun nan md v l x y F G K => forward_between nan v md l x y F G K). Qed.
Print Assumptions C71_forward.

(** A holding w of an option on a share, before it expires, with the delta and gamma from spots h up and h down.  With [down] and
    [up] the forwards at the two spots, the delta is the hedge ratio of Black's formula at a forward between the two, times the
    discount factor and the slope of the forward in the spot; it is this near the hedge ratio at the forward itself; and the gamma
    is positive for a holding and negative for a short one. *)
Theorem C71_delta : forall nan N w v k id cr cur st, van_underlying v = IEquity id cr cur st -> normal_cdf N ->
  forall md sp s h value r sp' sv', let u := van_underlying v in let expiry := dt_date (van_expiry v) in
  (md_spot_date md < expiry)%Z -> self_pricer_new nan [(w, ISpotEuropean v k)] md = Ok sp ->
  get id (md_spots md) = Some s -> 0 < s -> 0 < h < 1 -> self_price nan N sp = Ok value ->
  generate nan (self_ops nan N) (DeltaGammaGenerator h) sp saved_prefetch_new value = (Ok r, sp', sv') ->
  exists m delta gamma D disp sd down here up, r = DeltaGammaReport h m /\ get id m = Some (delta, gamma) /\
    other_inputs nan md v k D disp sd /\
    forward_if nan md u expiry (s * (1 - h)) down /\ forward_if nan md u expiry s here /\ forward_if nan md u expiry (s * (1 + h)) up /\
    here = (down + up) / 2 /\ 0 < D /\
    (disp < down < up -> 0 < k + disp -> 0 < sd ->
      (exists z, down < z < up /\
         delta = w * (D * ((up - down) / (2 * h * s)) * hedge N (van_put_or_call v) (d_one (z - disp) (k + disp) sd))) /\
      Rabs (delta - w * (D * ((up - down) / (2 * h * s)) * hedge N (van_put_or_call v) (d_one (here - disp) (k + disp) sd))) <=
        Rabs w * (D * ((up - down) / (2 * h * s)) * ((up - down) / (2 * (down - disp) * sd))) /\
      (0 < w -> 0 < gamma) /\ (w < 0 -> gamma < 0)).
Proof. exact option_greeks. Qed.
Print Assumptions C71_delta.

(** A share without dividends: the slope is the forward over the spot, so the reported delta of a call tends to that of the
    textbooks, D F/s N(d1), as h does to nothing. *)
Theorem C71_no_dividends : forall nan N w v k id cr cur st, van_underlying v = IEquity id cr cur st -> normal_cdf N ->
  forall md sp s h divs value r sp' sv', let u := van_underlying v in let expiry := dt_date (van_expiry v) in
  (md_spot_date md < expiry)%Z -> self_pricer_new nan [(w, ISpotEuropean v k)] md = Ok sp ->
  get id (md_spots md) = Some s -> 0 < s -> 0 < h < 1 -> get id (md_divs md) = Some divs -> dividends divs = [] -> self_price nan N sp = Ok value ->
  generate nan (self_ops nan N) (DeltaGammaGenerator h) sp saved_prefetch_new value = (Ok r, sp', sv') ->
  exists m delta gamma D disp sd F, r = DeltaGammaReport h m /\ get id m = Some (delta, gamma) /\
    other_inputs nan md v k D disp sd /\ forward_if nan md u expiry s F /\
    (0 < F -> disp < F * (1 - h) -> 0 < k + disp -> 0 < sd ->
      (exists z, F * (1 - h) < z < F * (1 + h) /\ delta = w * (D * (F / s) * hedge N (van_put_or_call v) (d_one (z - disp) (k + disp) sd))) /\
      Rabs (delta - w * (D * (F / s) * hedge N (van_put_or_call v) (d_one (F - disp) (k + disp) sd))) <=
        Rabs w * (D * (F / s) * (h * F / ((F * (1 - h) - disp) * sd)))).
Proof. exact plain_greeks. Qed.
Print Assumptions C71_no_dividends.

(** So the delta of a call held is positive and less than that of its forward, that of a put negative and no further than its
    forward's from zero, and the gamma of either positive. *)
Theorem C71_signs : forall nan N w v k id cr cur st, van_underlying v = IEquity id cr cur st -> normal_cdf N ->
  forall md sp s h value r sp' sv', let u := van_underlying v in let expiry := dt_date (van_expiry v) in
  (md_spot_date md < expiry)%Z -> self_pricer_new nan [(w, ISpotEuropean v k)] md = Ok sp ->
  get id (md_spots md) = Some s -> 0 < s -> 0 < h < 1 -> self_price nan N sp = Ok value ->
  generate nan (self_ops nan N) (DeltaGammaGenerator h) sp saved_prefetch_new value = (Ok r, sp', sv') -> 0 < w ->
  exists m delta gamma D disp sd down up, r = DeltaGammaReport h m /\ get id m = Some (delta, gamma) /\
    other_inputs nan md v k D disp sd /\ forward_if nan md u expiry (s * (1 - h)) down /\ forward_if nan md u expiry (s * (1 + h)) up /\
    (disp < down < up -> 0 < k + disp -> 0 < sd -> 0 < gamma /\
      match van_put_or_call v with
      | Call => 0 < delta < w * (D * ((up - down) / (2 * h * s)))
      | Put => - (w * (D * ((up - down) / (2 * h * s)))) < delta < 0
      end).
Proof. exact option_signs. Qed.
Print Assumptions C71_signs.

(** A call of 15 days on a share at any spot: the report exists, and its delta is between 0 and 1. *)
Example C71_applies : forall nan N s h, normal_cdf N -> 0 < s -> 0 < h < 1 -> exists sp value m sp' sv' delta gamma,
  self_pricer_new nan [(1, call_100)] (flat_market s) = Ok sp /\ self_price nan N sp = Ok value /\
  generate nan (self_ops nan N) (DeltaGammaGenerator h) sp saved_prefetch_new value = (Ok (DeltaGammaReport h m), sp', sv') /\
  get "BP" m = Some (delta, gamma) /\ 0 < delta < 1 /\ 0 < gamma.
Proof. exact one_call_greeks. Qed.

(** ** C72: the vega and volga of a European option *)

(** A holding w of an option on a share, off a vol surface that starts on the spot date and has volatility [vol] for the option,
    with the vega and volga from adding b to the volatilities.  The vega is that of Black's formula at a volatility between the
    two bumped ones, over 1 + b.  The volga is not a second difference: it is the difference of the vega V at a higher volatility
    and (1 - b)/(1 + b) times that at a lower one, over b, which is about the second derivative and twice the vega. *)
Theorem C72_vega : forall nan N w v k id cr cur st, van_underlying v = IEquity id cr cur st -> normal_cdf N ->
  forall phi md sp s surface vol t b value r sp' sv', (forall x, derivable_pt_lim N x (phi x)) ->
  let u := van_underlying v in let expiry := dt_date (van_expiry v) in let lower := vol - b * (1 - b) / (1 + b) in
  (0 <= md_spot_date md < expiry)%Z -> self_pricer_new nan [(w, ISpotEuropean v k)] md = Ok sp ->
  get id (md_spots md) = Some s -> get id (md_vols md) = Some surface ->
  ddf_date (vs_base surface) = md_spot_date md -> 0 <= ddf_frac (vs_base surface) ->
  volatility_is nan surface (van_expiry_time v) k vol t -> 0 < t -> 0 < b < 1 -> b * (1 - b) / (1 + b) < vol -> self_price nan N sp = Ok value ->
  generate nan (self_ops nan N) (VegaVolgaGenerator (FlatAdditive b)) sp saved_prefetch_new value = (Ok r, sp', sv') ->
  exists m vega volga D disp sd F, r = VegaVolgaReport b m /\ get id m = Some (vega, volga) /\
    other_inputs nan md v k D disp sd /\ forward_if nan md u expiry s F /\ sd = vol * sqrt t /\ 0 < D /\
    (disp < F -> 0 < k + disp -> let V := vega_at phi D (F - disp) (k + disp) (sqrt t) in
      (exists z, lower < z < vol + b /\ vega = w * V z / (1 + b)) /\
      (exists x y, vol < x < vol + b /\ lower < y < vol /\ volga = w * (V x - (1 - b) / (1 + b) * V y) / b)).
Proof. exact option_vega. Qed.
Print Assumptions C72_vega.

(** So the vega of an option held is positive.  And so is the volga of one at the money forward, unless its
    volatility or its time is very large ... *)
Theorem C72_signs : forall nan N w v k id cr cur st, van_underlying v = IEquity id cr cur st -> normal_cdf N ->
  forall md sp s surface vol t b value r sp' sv', let u := van_underlying v in let expiry := dt_date (van_expiry v) in
  (0 <= md_spot_date md < expiry)%Z -> self_pricer_new nan [(w, ISpotEuropean v k)] md = Ok sp ->
  get id (md_spots md) = Some s -> get id (md_vols md) = Some surface ->
  ddf_date (vs_base surface) = md_spot_date md -> 0 <= ddf_frac (vs_base surface) ->
  volatility_is nan surface (van_expiry_time v) k vol t -> 0 < t -> 0 < b < 1 -> b * (1 - b) / (1 + b) < vol -> self_price nan N sp = Ok value ->
  generate nan (self_ops nan N) (VegaVolgaGenerator (FlatAdditive b)) sp saved_prefetch_new value = (Ok r, sp', sv') -> 0 < w ->
  exists m vega volga D disp sd F, r = VegaVolgaReport b m /\ get id m = Some (vega, volga) /\
    other_inputs nan md v k D disp sd /\ forward_if nan md u expiry s F /\
    (disp < F -> 0 < k + disp -> 0 < vega /\
      (F - disp = k + disp -> (vol + b) * t < 4 -> 0 < volga)).
Proof. exact option_vega_sign. Qed.
Print Assumptions C72_signs.

(** ... although its price is concave in the volatility: the volga reported has the wrong sign. *)
Theorem C72_volga_refuted : forall nan N b, normal_cdf N -> 0 < b < 1 ->
  b * (1 - b) / (1 + b) < / 5 ->
  let s := 100 * exp (- growth) in exists sp value m sp' sv' vega volga price,
  self_pricer_new nan [(1, call_100)] (flat_market s) = Ok sp /\ self_price nan N sp = Ok value /\
  generate nan (self_ops nan N) (VegaVolgaGenerator (FlatAdditive b)) sp saved_prefetch_new value = (Ok (VegaVolgaReport b m), sp', sv') /\
  get "BP" m = Some (vega, volga) /\ 0 < vega /\ 0 < volga /\
  (forall x, price_after (self_ops nan N) [BVol "BP" (ReplaceVol x)] sp = Ok (price x)) /\
  (forall x y, 0 < x < y -> (price x + price y) / 2 < price ((x + y) / 2)).
Proof. exact money_volga. Qed.
Print Assumptions C72_volga_refuted.

(** A bump of one point of volatility. *)
Example C72_applies : let b := / 100 in 0 < b < 1 /\ b * (1 - b) / (1 + b) < / 5.
Proof. exact one_point. Qed.
