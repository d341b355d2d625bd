(** Option prices at several strikes and expiries. *)
From Coq Require Import ZArith List String Bool Lia Reals Lra.
From Verif Require Import Prelude Num M_Dates M_Calendar M_Interp M_Curves M_Forward M_Vol M_Black76 M_Instruments
  S_Math S_Vol S_Instruments S_Strikes L_Num L_Vol L_VolTime L_VolCases L_Normal L_Black76 L_Pricing L_PricingAny.
Import ListNotations.
Open Scope list_scope.
Open Scope R_scope.

(** ** Surfaces without a smile *)
Lemma variance_same nan s d k k' x x' : no_smile nan s -> variance nan s d k = Ok x -> variance nan s d k' = Ok x' -> x = x'.
Proof.
  intros N E E'. apply variance_real_inv in E, E'. destruct E as (v1 & t1 & V1 & ->), E' as (v2 & t2 & V2 & ->).
  pose proof (volatilities_time nan _ _ _ _ _ V1). pose proof (volatilities_time nan _ _ _ _ _ V2). assert (t2 = t1) by congruence. subst t2.
  now rewrite (N _ _ _ _ _ _ _ V1 V2).
Qed.

Lemma forward_variance_same nan s from to k k' x x' : no_smile nan s ->
  forward_variance nan s from to k = Ok x -> forward_variance nan s from to k' = Ok x' -> x = x'.
Proof.
  intros N E E'. destruct (ddf_leb from (vs_base s)) eqn:B.
  - apply ddf_leb_upto in B. rewrite forward_variance_started in E, E' by exact B. now apply (variance_same nan s to k k').
  - apply ddf_leb_before in B. destruct (vs_forward s) as [f|] eqn:F.
    + now rewrite (forward_variance_no_smile nan s f from to k x F B N E), (forward_variance_no_smile nan s f from to k' x' F B N E').
    + apply forward_variance_none in E, E'; auto. destruct E as [(a & b & A & B' & ->) _], E' as [(a' & b' & A' & B'' & ->) _].
      rewrite (variance_same nan s _ _ _ _ _ N A A'), (variance_same nan s _ _ _ _ _ N B' B''). reflexivity.
Qed.

Lemma flat_no_smile nan vol cal base : no_smile nan (FlatVolSurface vol cal base).
Proof. intros d k k' v t v' t' V V'. unfold volatility_is in *. cbn in V, V'. destruct (year_fraction _ _ _); cbn in *; congruence. Qed.

Lemma decorated_no_smile nan (b s : vol_surface R) : no_smile nan b ->
  (exists o base, s = ConstantExpiry b o base \/ s = RollingExpiry b o base) \/ (exists bump, s = ParallelBumpVol b bump) \/
  (exists bump floor, s = TimeScaledBumpVol b bump floor) \/ (exists f, s = StickyDeltaBumpVol b f) -> no_smile nan s.
Proof.
  intros N H d k k' v t v' t' V V'. unfold volatility_is in V, V'.
  destruct H as [(o & base & [-> | ->])|[(bump & ->)|[(bump & fl & ->)|(f & ->)]]]; cbn [volatilities] in V, V'.
  - inv_bind V. destruct a as (l, u). inv_bind V'. destruct a as (l', u'). injection V as -> _. injection V' as -> _. exact (N _ _ _ _ _ _ _ E E0).
  - inv_bind V. inv_bind V. inv_bind V. destruct a1 as (l, u). rewrite E in V'. cbn [bind] in V'. rewrite E0 in V'. cbn [bind] in V'.
    inv_bind V'. destruct a1 as (l', u'). injection V as -> _. injection V' as -> _. exact (N _ _ _ _ _ _ _ E1 E2).
  - inv_bind V. destruct a as (l, u). inv_bind V'. destruct a as (l', u'). pose proof E as P. pose proof E0 as P'. apply volatilities_pointwise in P, P'.
    destruct P as (_ & P), P' as (_ & P'). inversion P as [|? w ? r Q F]; subst. inversion F; subst. inversion P' as [|? w' ? r' Q' F']; subst. inversion F'; subst.
    cbn in V, V'. injection V as <- _. injection V' as <- _. now rewrite (N _ _ _ _ _ _ _ Q Q').
  - inv_bind V. destruct a as (l, u). inv_bind V'. destruct a as (l', u'). pose proof E as P. pose proof E0 as P'. 
    pose proof (volatilities_time nan _ _ _ _ _ E). pose proof (volatilities_time nan _ _ _ _ _ E0). assert (u' = u) by congruence. subst u'.
    apply volatilities_pointwise in P, P'.
    destruct P as (_ & P), P' as (_ & P'). inversion P as [|? w ? r Q F]; subst. inversion F; subst. inversion P' as [|? w' ? r' Q' F']; subst. inversion F'; subst.
    cbn in V, V'. injection V as <- _. injection V' as <- _. now rewrite (N _ _ _ _ _ _ _ Q Q').
  - destruct (vs_forward b) as [g|]; [|exact (N _ _ _ _ _ _ _ V V')]. inv_bind V. inv_bind V. rewrite E in V'. cbn [bind] in V'. rewrite E0 in V'. cbn [bind] in V'.
    cbn [map] in V, V'. exact (N _ _ _ _ _ _ _ V V').
Qed.

(** ** Prices *)
Section Prices.
  Variable N : R -> R.
  Hypothesis HN : normal_cdf N.
  Variable nan : R.
  Variable c : pricing_context R.

  Lemma parts_fun v d vol D F disp s vol' D' F' disp' s' : option_parts nan N c v vol d D F disp s -> option_parts nan N c v vol' d D' F' disp' s' ->
    vol = vol' /\ D = D' /\ F = F' /\ disp = disp' /\ s = s'.
  Proof.
    intros (yc & y & st & r & now & A0 & A1 & A2 & A3 & A4 & A5 & A6 & -> & A7 & ->) (yc' & y' & st' & r' & now' & B0 & B1 & B2 & B3 & B4 & B5 & B6 & -> & B7 & ->).
    assert (vol' = vol) by congruence. subst vol'.
    assert (yc' = yc) by congruence. subst yc'. assert (st' = st) by congruence. subst st'. assert (y' = y) by congruence. assert (r' = r) by congruence. assert (now' = now) by congruence. subst y' r' now'.
    split; [reflexivity|]. split; [reflexivity|]. split; [congruence|]. split; [congruence|reflexivity].
  Qed.

  Lemma price_parts v k d x : dt_leb d (van_expiry v) = true -> price nan N c (ISpotEuropean v k) d = Ok x ->
    exists vol D F disp start q, option_parts nan N c v vol d D F disp start /\ 0 < D /\ forward_variance nan vol start (van_expiry_time v) k = Ok q /\
      x = match van_put_or_call v with Call => call_price N | Put => put_price N end D (F - disp) (k + disp) (sqrt q).
  Proof.
    intros L E. unfold price in E. destruct (prices nan N c (ISpotEuropean v k) [d]) as [l| |] eqn:P; try discriminate.
    cbn [first_price] in E. assert (X : nth_error l 0 = Some x) by (destruct l; cbn in E; [discriminate|injection E as <-; reflexivity]).
    destruct (spot_black nan N c v k [d] l P 0%nat d x eq_refl L X) as (F & yc & vol & disp & y & st & r & now & q & A1 & A2 & A3 & A4 & A5 & A6 & A7 & A8 & A9 & _ & _ & ->).
    eexists vol, _, F, disp, _, q. split.
    - exists yc, y, st, r, now. repeat (split; [solve [eassumption|reflexivity]|]). reflexivity.
    - split; [apply Rmult_lt_0_compat; apply exp_pos|]. split; [exact A9|]. destruct (van_put_or_call v); reflexivity.
  Qed.

  Lemma option_bounds v k d x : dt_leb d (van_expiry v) = true -> price nan N c (ISpotEuropean v k) d = Ok x ->
    exists vol D F disp start q, option_parts nan N c v vol d D F disp start /\ forward_variance nan vol start (van_expiry_time v) k = Ok q /\ 0 < D /\
      (disp < F -> 0 < k + disp -> 0 < q ->
       match van_put_or_call v with
       | Call => Rmax 0 (D * (F - k - 2 * disp)) < x < D * (F - disp)
       | Put => Rmax 0 (D * (k - F + 2 * disp)) < x < D * (k + disp)
       end).
  Proof.
    intros L E. destruct (price_parts v k d x L E) as (vol & D & F & disp & start & q & P & D0 & Q & ->).
    exists vol, D, F, disp, start, q. split; [exact P|]. split; [exact Q|]. split; [exact D0|]. intros A B C. pose proof (sqrt_lt_R0 q C) as S.
    destruct (call_above_intrinsic N HN D (F - disp) (k + disp) (sqrt q) D0 ltac:(lra) B S) as [X Y].
    destruct (call_below N HN D (F - disp) (k + disp) (sqrt q) D0 ltac:(lra) B S) as [Z W].
    destruct (van_put_or_call v).
    - replace (k - F + 2 * disp) with (k + disp - (F - disp)) by lra. auto.
    - replace (F - k - 2 * disp) with (F - disp - (k + disp)) by lra. auto.
  Qed.

  (** The same option at three strikes, off a surface without a smile. *)
  Lemma option_strikes v vol k1 k k2 d x1 x x2 : dt_leb d (van_expiry v) = true ->
    ctx_vol_surface c (van_underlying v) (dt_date (van_expiry v)) (ctx_forward_curve c (van_underlying v) (dt_date (van_expiry v))) = Ok vol -> no_smile nan vol ->
    k1 < k < k2 -> price nan N c (ISpotEuropean v k1) d = Ok x1 -> price nan N c (ISpotEuropean v k) d = Ok x -> price nan N c (ISpotEuropean v k2) d = Ok x2 ->
    exists D F disp start q, option_parts nan N c v vol d D F disp start /\ forward_variance nan vol start (van_expiry_time v) k = Ok q /\ 0 < D /\
      (disp < F -> 0 < k1 + disp -> 0 < q ->
       match van_put_or_call v with Call => 0 < x1 - x < D * (k - k1) | Put => 0 < x - x1 < D * (k - k1) end /\
       (k2 - k1) * x < (k2 - k) * x1 + (k - k1) * x2).
  Proof.
    intros L HV NS K E1 E E2.
    destruct (price_parts v k1 d x1 L E1) as (vol1 & D1 & F1 & disp1 & s1 & q1 & P1 & D01 & Q1 & X1).
    destruct (price_parts v k d x L E) as (vol' & D & F & disp & s & q & P & D0 & Q & X).
    destruct (price_parts v k2 d x2 L E2) as (vol2 & D2 & F2 & disp2 & s2 & q2 & P2 & D02 & Q2 & X2).
    assert (vol' = vol) by (destruct P as (? & ? & ? & ? & ? & V & _); congruence). subst vol'.
    destruct (parts_fun _ _ _ _ _ _ _ _ _ _ _ _ P P1) as (<- & <- & <- & <- & <-). destruct (parts_fun _ _ _ _ _ _ _ _ _ _ _ _ P P2) as (<- & <- & <- & <- & <-).
    pose proof (forward_variance_same nan vol _ _ _ _ _ _ NS Q Q1) as <-. pose proof (forward_variance_same nan vol _ _ _ _ _ _ NS Q Q2) as <-.
    exists D, F, disp, s, q. split; [exact P|]. split; [exact Q|]. split; [exact D0|]. intros A B C. pose proof (sqrt_lt_R0 q C) as S.
    destruct (call_decreasing_in_k N HN D (F - disp) (k1 + disp) (k + disp) (sqrt q) D0 ltac:(lra) ltac:(lra) S) as [M1 M2].
    pose proof (call_convex_in_k N HN D (F - disp) (k1 + disp) (k + disp) (k2 + disp) (sqrt q) D0 ltac:(lra) ltac:(lra) ltac:(lra) S) as CV.
    pose proof (parity N D (F - disp) (k1 + disp) (sqrt q) (nc_symmetric N HN)) as Y1. pose proof (parity N D (F - disp) (k + disp) (sqrt q) (nc_symmetric N HN)) as Y.
    pose proof (parity N D (F - disp) (k2 + disp) (sqrt q) (nc_symmetric N HN)) as Y2.
    destruct (van_put_or_call v); subst x1 x x2; (split; [|nra]); split; nra.
  Qed.

  (** Two options at one strike with the same forward. *)
  Lemma option_expiries v v' k d x x' : dt_leb d (van_expiry v) = true -> dt_leb d (van_expiry v') = true -> van_put_or_call v' = van_put_or_call v ->
    price nan N c (ISpotEuropean v k) d = Ok x -> price nan N c (ISpotEuropean v' k) d = Ok x' ->
    exists vol vol' D D' F F' disp disp' start start' q q', option_parts nan N c v vol d D F disp start /\ option_parts nan N c v' vol' d D' F' disp' start' /\
      forward_variance nan vol start (van_expiry_time v) k = Ok q /\ forward_variance nan vol' start' (van_expiry_time v') k = Ok q' /\
      (D' = D -> F' = F -> disp' = disp -> disp < F -> 0 < k + disp -> 0 < q -> 0 < q' -> (x < x' <-> q < q')).
  Proof.
    intros L L' PC E E'. destruct (price_parts v k d x L E) as (vol & D & F & disp & s & q & P & D0 & Q & X).
    destruct (price_parts v' k d x' L' E') as (vol' & D' & F' & disp' & s' & q' & P' & D0' & Q' & X'). rewrite PC in X'.
    exists vol, vol', D, D', F, F', disp, disp', s, s', q, q'. split; [exact P|]. split; [exact P'|]. split; [exact Q|]. split; [exact Q'|].
    intros -> -> -> A B C C'. pose proof (sqrt_lt_R0 q C) as S. pose proof (sqrt_lt_R0 q' C') as S'.
    assert (up : forall a b, 0 < a < b -> match van_put_or_call v with Call => call_price N | Put => put_price N end D (F - disp) (k + disp) (sqrt a) <
      match van_put_or_call v with Call => call_price N | Put => put_price N end D (F - disp) (k + disp) (sqrt b)).
    { intros a b AB. assert (0 < sqrt a < sqrt b) by (split; [apply sqrt_lt_R0; lra|apply sqrt_lt_1; lra]).
      destruct (van_put_or_call v); [apply put_increasing_in_s|apply call_increasing_in_s]; auto; lra. }
    subst x x'. split; intros H.
    - destruct (Rtotal_order q q') as [?|[->|?]]; [assumption|lra|]. pose proof (up q' q ltac:(lra)). lra.
    - apply up. lra.
  Qed.
End Prices.
