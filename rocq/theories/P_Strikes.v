(** C74: arbitrage between European options on one underlying. *)
From Coq Require Import ZArith List String Bool Reals.
From Verif Require Import Prelude Num M_Dates M_Calendar M_Interp M_Curves M_Forward M_Vol M_Instruments
  S_Math S_Vol S_Strikes L_VolCases L_InstrumentCases L_Strikes L_StrikeCases.
Import ListNotations.
Open Scope list_scope.
Open Scope R_scope.

(** An option with some variance left is worth more than its intrinsic value on the forward, and less than the forward or the strike,
    discounted; the displacement of the vol surface is taken off the forward and put on the strike. *)
Theorem C74_bounds : forall N, normal_cdf N -> forall nan c v k d x, dt_leb d (van_expiry v) = true -> price nan N c (ISpotEuropean v k) d = Ok x ->
  exists vol D F disp start q, option_parts nan N c v vol d D F disp start /\ forward_variance nan vol start (van_expiry_time v) k = Ok q /\ 0 < D /\
    (disp < F -> 0 < k + disp -> 0 < q ->
     match van_put_or_call v with
     | Call => Rmax 0 (D * (F - k - 2 * disp)) < x < D * (F - disp)
     | Put => Rmax 0 (D * (k - F + 2 * disp)) < x < D * (k + disp)
     end).
Proof. exact option_bounds. Qed.
Print Assumptions C74_bounds.

(** Off a surface without a smile, a spread of two strikes is worth between nothing and its discounted width, and a butterfly of
    three is worth something. *)
Theorem C74_strikes : forall N, normal_cdf N -> forall nan c v vol k1 k k2 d x1 x x2, dt_leb d (van_expiry v) = true ->
  ctx_vol_surface c (van_underlying v) (dt_date (van_expiry v)) (ctx_forward_curve c (van_underlying v) (dt_date (van_expiry v))) = Ok vol -> no_smile nan vol ->
  k1 < k < k2 -> price nan N c (ISpotEuropean v k1) d = Ok x1 -> price nan N c (ISpotEuropean v k) d = Ok x -> price nan N c (ISpotEuropean v k2) d = Ok x2 ->
  exists D F disp start q, option_parts nan N c v vol d D F disp start /\ forward_variance nan vol start (van_expiry_time v) k = Ok q /\ 0 < D /\
    (disp < F -> 0 < k1 + disp -> 0 < q ->
     match van_put_or_call v with Call => 0 < x1 - x < D * (k - k1) | Put => 0 < x - x1 < D * (k - k1) end /\
     (k2 - k1) * x < (k2 - k) * x1 + (k - k1) * x2).
Proof. exact option_strikes. Qed.
Print Assumptions C74_strikes.

(** Flat surfaces have no smile, nor has a surface got from one without a smile by bumps or the passing of time. *)
Theorem C74_flat : forall nan vol cal base, no_smile nan (FlatVolSurface vol cal base).
Proof. exact flat_no_smile. Qed.
Print Assumptions C74_flat.

Theorem C74_decorated : forall nan (b s : vol_surface R), no_smile nan b ->
  (exists o base, s = ConstantExpiry b o base \/ s = RollingExpiry b o base) \/ (exists bump, s = ParallelBumpVol b bump) \/
  (exists bump floor, s = TimeScaledBumpVol b bump floor) \/ (exists f, s = StickyDeltaBumpVol b f) -> no_smile nan s.
Proof. exact decorated_no_smile. Qed.
Print Assumptions C74_decorated.

(** Of two options at one strike, with the same forward and discounting, the one with more variance is the dearer. *)
Theorem C74_expiries : forall N, normal_cdf N -> forall nan c v v' k d x x', dt_leb d (van_expiry v) = true -> dt_leb d (van_expiry v') = true ->
  van_put_or_call v' = van_put_or_call v -> price nan N c (ISpotEuropean v k) d = Ok x -> price nan N c (ISpotEuropean v' k) d = Ok x' ->
  exists vol vol' D D' F F' disp disp' start start' q q', option_parts nan N c v vol d D F disp start /\ option_parts nan N c v' vol' d D' F' disp' start' /\
    forward_variance nan vol start (van_expiry_time v) k = Ok q /\ forward_variance nan vol' start' (van_expiry_time v') k = Ok q' /\
    (D' = D -> F' = F -> disp' = disp -> disp < F -> 0 < k + disp -> 0 < q -> 0 < q' -> (x < x' <-> q < q')).
Proof. exact option_expiries. Qed.
Print Assumptions C74_expiries.

(** A surface is checked at the forward only.  Quotes of 20% there for one and two years, and of enough at 110 for one year, are
    accepted; then the call struck at 110 is dearer than the one at 100, and dearer than the one at 110 that expires a year later,
    though there are neither rates nor dividends. *)
Theorem C74_smile_refuted : forall N, normal_cdf N -> forall nan, exists w sm sm' s, cubic_smile_new [(100, / 5); (110, w)] = Ok sm /\
  cubic_smile_new [(100, / 5); (110, / 5)] = Ok sm' /\ vbp_new nan [(year_end 1, sm); (year_end 2, sm')] EveryDay (year_end 0) level level NoCashDivs = Ok s /\
  let c := market (ZeroRateCurve 0%Z) 100 (DriftlessForward 100) (VolByProbability s) in let call d := option_on stock d Call CashSettled in
  exists x y z, price nan N c (ISpotEuropean (call 365%Z) 100) (mkDT 0%Z Open_) = Ok x /\
    price nan N c (ISpotEuropean (call 365%Z) 110) (mkDT 0%Z Open_) = Ok y /\
    price nan N c (ISpotEuropean (call 730%Z) 110) (mkDT 0%Z Open_) = Ok z /\ x < y /\ z < y.
Proof. exact arbitrage. Qed.
Print Assumptions C74_smile_refuted.

(** Off a flat surface: strikes of 90, 100 and 110, and a later expiry. *)
Example C74_applies : forall nan N, normal_cdf N -> forall pc,
  let c := market (ZeroRateCurve 0%Z) 100 (DriftlessForward 100) (FlatVolSurface (/ 5) EveryDay (year_end 0)) in
  let opt d k := ISpotEuropean (option_on stock d pc CashSettled) k in
  exists x1 x x2 z, price nan N c (opt 365%Z 90) (mkDT 0%Z Open_) = Ok x1 /\ price nan N c (opt 365%Z 100) (mkDT 0%Z Open_) = Ok x /\
    price nan N c (opt 365%Z 110) (mkDT 0%Z Open_) = Ok x2 /\ price nan N c (opt 730%Z 100) (mkDT 0%Z Open_) = Ok z /\ 2 * x < x1 + x2 /\ x < z.
Proof. exact flat_strikes. Qed.
