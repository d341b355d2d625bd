(** C85: deltas and gammas on doubles. *)
From Coq Require Import ZArith List String Reals.
From Flocq Require Import Core.
From Verif Require Import Prelude Num M_Dates M_Vol M_Instruments M_Deps M_Risk M_Reports S_Double S_Instruments S_Risk S_Reports S_GreekDouble
  L_SelfPricer L_BlackDouble L_Displacement L_MeanDoubleCases L_GreekDouble L_GreekDoubleCases.
Import ListNotations.
Open Scope list_scope.
Open Scope R_scope.

(** The report of a portfolio's deltas and gammas, on doubles.  The spots at which the portfolio is priced are one bump up and one bump
    down, up to one part in 2^51 and in 2^47.  If the three prices are within [e] of prices [X], [Y] and [V] then the delta and the gamma
    are those of [X], [Y] and [V], up to the rounding of the differences and what is left of [e] after dividing by the bump. *)
Theorem C85_greeks : forall (TR : Trans F64) (nan : F64) cdf (h : F64) sp u r sp' sv', self_price nan cdf sp = Ok u ->
  generate nan (self_ops nan cdf) (DeltaGammaGenerator h) sp saved_prefetch_new u = (Ok r, sp', sv') ->
  exists m, r = DeltaGammaReport h m /\
  forall id delta gamma, get id m = Some (delta, gamma) -> exists s up down x y,
    look (pf_data (sp_context sp)) (SpotFor id) = Some (ASpot s) /\
    price_with_spot (self_ops nan cdf) id up sp = Ok x /\ price_with_spot (self_ops nan cdf) id down sp = Ok y /\
    (ordinary_bump h s ->
      (finite up /\ Rabs (real up - real s * (1 + real h)) <= bpow radix2 (-51) * Rabs (real s)) /\
      (finite down /\ Rabs (real down - real s * (1 - real h)) <= bpow radix2 (-47) * Rabs (real s)) /\
      (ordinary_price x -> ordinary_price y -> ordinary_price u -> forall X Y V e,
        Rabs (real x - X) <= e -> Rabs (real y - Y) <= e -> Rabs (real u - V) <= e ->
        let z := real h * real s in
        finite delta /\ Rabs (real delta - (X - Y) / (2 * z)) <= 5 * bpow radix2 (-53) * (Rabs (real x - real y) / (2 * Rabs z)) + bpow radix2 (-1075) + e / Rabs z /\
        finite gamma /\ Rabs (real gamma - (X + Y - 2 * V) / (z * z)) <= 8 * bpow radix2 (-53) * ((Rabs (real x) + Rabs (real y) + 2 * Rabs (real u)) / (z * z)) + bpow radix2 (-1075) + 4 * e / (z * z))).
Proof. exact @greeks_double. Qed.
Print Assumptions C85_greeks.

(** A call at 90 on a share at 100, each of whose probabilities is a half, so that it is worth half the share less 45: bumped by a tenth.
    Its delta is three units in the last place more than a half, and its gamma is not zero. *)
Example C85_example : let TF : Trans F64 := first_order in
  self_price F_nan even_chance call_pricer = Ok (nofZ 5) /\ ordinary_bump tenth (nofZ 100) /\ ordinary_price (nofZ 5) /\
  exists sp' sv' delta gamma x y, generate F_nan (self_ops F_nan even_chance) (DeltaGammaGenerator tenth) call_pricer saved_prefetch_new (nofZ 5) =
      (Ok (DeltaGammaReport tenth [(instrument_id share, (delta, gamma))]), sp', sv') /\
    look (pf_data (sp_context call_pricer)) (SpotFor (instrument_id share)) = Some (ASpot (nofZ 100)) /\
    (let up := nmul (nofZ 100) (nadd n1 tenth) in price_with_spot (self_ops F_nan even_chance) (instrument_id share) up call_pricer = Ok x /\
     price_with_spot (self_ops F_nan even_chance) (instrument_id share) (nmul up (nadd n1 (nsub (ndiv (nsub n1 tenth) (nadd n1 tenth)) n1))) call_pricer = Ok y) /\
    ordinary_price x /\ ordinary_price y /\ real delta = / 2 + 3 * bpow radix2 (-53) /\ 0 < real gamma.
Proof. exact greek_case. Qed.
Print Assumptions C85_example.

(** The report of the vegas and volgas of any pricer that does its bumps and restores properly, on doubles, in the same way: here the
    divisor is the size of the bump itself, and the prices are those after the bump and after the bump and its opposite. *)
Theorem C85_vegas : forall (TR : Trans F64) (nan : F64) P (ops : pricer_ops F64 P) new f p u r p' sv', well_behaved ops new -> op_price ops p = Ok u ->
  generate nan ops (VegaVolgaGenerator f) p new u = (Ok r, p', sv') ->
  exists m, r = VegaVolgaReport (vol_bumpsize nan f) m /\
  forall id vega volga, get id m = Some (vega, volga) -> exists x y,
    price_after ops [BVol id f] p = Ok x /\ price_after ops [BVol id f; BVol id (vol_opposite nan f)] p = Ok y /\
    (finite (vol_bumpsize nan f) -> bpow radix2 (-200) <= Rabs (real (vol_bumpsize nan f)) <= bpow radix2 100 ->
      ordinary_price x -> ordinary_price y -> ordinary_price u -> forall X Y V e,
        Rabs (real x - X) <= e -> Rabs (real y - Y) <= e -> Rabs (real u - V) <= e ->
        let z := real (vol_bumpsize nan f) in
        finite vega /\ Rabs (real vega - (X - Y) / (2 * z)) <= 5 * bpow radix2 (-53) * (Rabs (real x - real y) / (2 * Rabs z)) + bpow radix2 (-1075) + e / Rabs z /\
        finite volga /\ Rabs (real volga - (X + Y - 2 * V) / (z * z)) <= 8 * bpow radix2 (-53) * ((Rabs (real x) + Rabs (real y) + 2 * Rabs (real u)) / (z * z)) + bpow radix2 (-1075) + 4 * e / (z * z)).
Proof. exact @vegas_double. Qed.
Print Assumptions C85_vegas.

(** The same call with a volatility of a quarter bumped by a hundredth, with probabilities that are straight lines. *)
Example C85_vegas_example : let TF : Trans F64 := first_order in exists u,
  self_price F_nan straight call_pricer = Ok u /\ ordinary_price u /\
  finite (vol_bumpsize F_nan (FlatAdditive point)) /\ bpow radix2 (-200) <= Rabs (real (vol_bumpsize F_nan (FlatAdditive point))) <= bpow radix2 100 /\
  exists sp' sv' vega volga x y, generate F_nan (self_ops F_nan straight) (VegaVolgaGenerator (FlatAdditive point)) call_pricer saved_prefetch_new u =
      (Ok (VegaVolgaReport point [(instrument_id share, (vega, volga))]), sp', sv') /\
    price_after (self_ops F_nan straight) [BVol (instrument_id share) (FlatAdditive point)] call_pricer = Ok x /\
    price_after (self_ops F_nan straight) [BVol (instrument_id share) (FlatAdditive point); BVol (instrument_id share) (vol_opposite F_nan (FlatAdditive point))] call_pricer = Ok y /\
    ordinary_price x /\ ordinary_price y /\ 10 < real vega.
Proof. exact vega_case. Qed.
Print Assumptions C85_vegas_example.

(** The theta of a report at a later time is the later price less the earlier, rounded once. *)
Theorem C85_theta : forall (TR : Trans F64) (nan : F64) P (ops : pricer_ops F64 P) new bt gs p u r p' sv', well_behaved ops new ->
  generate nan ops (TimeBumpedGenerator bt gs) p new u = (Ok r, p', sv') ->
  exists later x theta subs, op_bump_time ops bt p = (Ok tt, later) /\ op_price ops later = Ok x /\ r = TimeBumpedReport x theta subs /\
    (ordinary_price x -> ordinary_price u -> forall X V e, Rabs (real x - X) <= e -> Rabs (real u - V) <= e ->
      finite theta /\ Rabs (real theta - (X - V)) <= bpow radix2 (-53) * Rabs (real x - real u) + 2 * e).
Proof. exact @theta_double. Qed.
Print Assumptions C85_theta.

(** The same call a day later. *)
Example C85_theta_example : let TF : Trans F64 := first_order in exists u x theta sp' sv', self_price F_nan straight call_pricer = Ok u /\ ordinary_price u /\
  generate F_nan (self_ops F_nan straight) (TimeBumpedGenerator tomorrow []) call_pricer saved_prefetch_new u = (Ok (TimeBumpedReport x theta []), sp', sv') /\
  ordinary_price x /\ real theta < - / 200.
Proof. exact theta_case. Qed.
Print Assumptions C85_theta_example.
