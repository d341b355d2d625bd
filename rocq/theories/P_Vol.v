(** Properties C28-C31: volatility surfaces, decorators and volatility bumps. *)
From Coq Require Import ZArith List String Bool Lia Reals Lra.
From Verif Require Import Prelude Num M_Dates M_Calendar S_Calendar M_Interp M_Forward M_Vol S_Vol
  L_Vol L_VolTime L_VolPillars L_VolCases L_VolFollow L_VolBatch.
Import ListNotations.
Open Scope list_scope.
Open Scope R_scope.

(** C28: asking for many strikes is asking for each of them; the time does not depend on the strikes.  Holds for any
    number type, doubles included. *)
Theorem C28_each_strike : forall {T} {N : Num T} {TR : Trans T} (nan : T) (s : vol_surface T) d ks vols t,
  volatilities nan s d ks = Ok (vols, t) <->
  vol_time nan s d = Ok t /\ Forall2 (fun k v => volatility_is nan s d k v t) ks vols.
Proof. exact (fun T N TR => @volatilities_each T N TR). Qed.
Print Assumptions C28_each_strike.

(** C28: variance is volatility squared times the time. *)
Theorem C28_variance : forall nan s d k vol t, volatility_is nan s d k vol t -> variance nan s d k = Ok (t * vol ^ 2).
Proof. exact variance_real. Qed.
Print Assumptions C28_variance.

Theorem C28_variances : forall {T} {N : Num T} {TR : Trans T} (nan : T) (s : vol_surface T) d ks vars,
  variances nan s d ks = Ok vars -> Forall2 (fun k x => variance nan s d k = Ok x) ks vars.
Proof. exact (fun T N TR => @variances_each T N TR). Qed.
Print Assumptions C28_variances.

(** C28: a surface evolved in time never has negative variance, whatever date is asked for. *)
Theorem C28_evolved_nonnegative : forall nan s d k x, time_evolved s -> variance nan s d k = Ok x -> 0 <= x.
Proof. exact evolved_nonneg. Qed.
Print Assumptions C28_evolved_nonnegative.

(** C28: a flat surface: the same volatility everywhere, and time by the calendar. *)
Theorem C28_flat : forall nan vol cal base d k x, proper cal ->
  variance nan (FlatVolSurface vol cal base) d k = Ok x -> x = vol ^ 2 * weighted_years cal base d.
Proof.
  exact (fun nan vol cal base d k x P E => match flat_variance nan vol cal base d k x E with
    | ex_intro _ t (conj Et Ex) => eq_trans Ex (eq_trans (f_equal (fun y => y * vol ^ 2) (year_fraction_spec cal base d t P Et)) (Rmult_comm _ _)) end).
Qed.
Print Assumptions C28_flat.

(** C28: the forward variance of a flat surface is its squared volatility times the time between the dates. *)
Theorem C28_flat_forward : forall nan vol cal base from to k x, proper cal -> of_day base -> of_day from -> of_day to ->
  before base from -> upto from to ->
  forward_variance nan (FlatVolSurface vol cal base) from to k = Ok x ->
  (exists u, year_fraction cal from to = Ok u) ->
  x = vol ^ 2 * weighted_years cal from to.
Proof. exact flat_forward_variance. Qed.
Print Assumptions C28_flat_forward.

Theorem C28_flat_forward_total : forall nan vol cal base from to k t t', proper cal -> of_day from -> of_day to ->
  before base from -> upto from to -> year_fraction cal base from = Ok t -> year_fraction cal base to = Ok t' ->
  forward_variance nan (FlatVolSurface vol cal base) from to k = Ok (t' * vol ^ 2 - t * vol ^ 2).
Proof. exact flat_forward_total. Qed.
Print Assumptions C28_flat_forward_total.

(** C28: a parallel bump moves every volatility by the bump, floored at zero, and leaves the time. *)
Theorem C28_parallel : forall nan s d k v t b,
  volatility_is nan s d k v t -> volatility_is nan (ParallelBumpVol s b) d k (Rmax (v + b) 0) t.
Proof. exact parallel. Qed.
Print Assumptions C28_parallel.

Theorem C28_parallel_adds : forall nan s d k v t b c, volatility_is nan s d k v t -> 0 <= v + b ->
  volatility_is nan (ParallelBumpVol (ParallelBumpVol s b) c) d k (Rmax (v + (b + c)) 0) t /\
  volatility_is nan (ParallelBumpVol s (b + c)) d k (Rmax (v + (b + c)) 0) t.
Proof. exact parallel_twice. Qed.
Print Assumptions C28_parallel_adds.

(** C28: a time-scaled bump moves volatility times the square root of time (not less than the floor) by the bump. *)
Theorem C28_time_scaled : forall nan s d k v t b fl, volatility_is nan s d k v t -> 0 < fl -> 0 <= v + b / sqrt (Rmax t fl) ->
  exists v', volatility_is nan (TimeScaledBumpVol s b fl) d k v' t /\ (v' - v) * sqrt (Rmax t fl) = b.
Proof. exact time_scaled. Qed.
Print Assumptions C28_time_scaled.

Theorem C28_time_scaled_floor : forall nan s d k v t b fl, volatility_is nan s d k v t -> v + b / sqrt (Rmax t fl) <= 0 ->
  volatility_is nan (TimeScaledBumpVol s b fl) d k 0 t.
Proof. exact time_scaled_floored. Qed.
Print Assumptions C28_time_scaled_floor.

(** C28: a sticky-delta surface has at a multiple of the new forward the volatility at that multiple of the old one. *)
Theorem C28_sticky_delta : forall nan s d k f f0 a a0 v t, vs_forward s = Some f0 ->
  forward_at nan f0 (ddf_date d) = Ok a0 -> forward_at nan f (ddf_date d) = Ok a -> a <> 0 ->
  (volatility_is nan (StickyDeltaBumpVol s f) d (k * a) v t <-> volatility_is nan s d (k * a0) v t).
Proof. exact sticky_delta. Qed.
Print Assumptions C28_sticky_delta.

(** C28: evolving with constant expiries keeps the volatilities and takes the elapsed time off. *)
Theorem C28_constant_expiry : forall nan s d off b k v t, volatility_is nan s d k v t ->
  volatility_is nan (ConstantExpiry s off b) d k v (Rmax (t - off) 0).
Proof. exact constant_expiry. Qed.
Print Assumptions C28_constant_expiry.

(** C28: so a flat surface evolved to a date has the forward variance from that date. *)
Theorem C28_constant_expiry_flat : forall nan vol cal base spot s' d k, proper cal -> of_day d ->
  (ddf_date base < spot)%Z -> upto (mkDDF spot 0) d ->
  time_modify ConstantExpiryDynamics (FlatVolSurface vol cal base) spot = Ok s' -> s' <> FlatVolSurface vol cal base ->
  forall t, year_fraction cal base d = Ok t ->
  variance nan s' d k = forward_variance nan (FlatVolSurface vol cal base) (mkDDF spot 0) d k.
Proof. exact constant_expiry_flat. Qed.
Print Assumptions C28_constant_expiry_flat.

(** C28: evolving with rolling expiries by n business days gives n business days later what the surface gave before. *)
Theorem C28_rolling_expiry : forall nan s n spot s' d0 d f ks fwd fwd',
  plain (vs_calendar s) -> proper (vs_calendar s) -> ddf_frac (vs_base s) = 0 ->
  business_of (vs_calendar s) (ddf_date (vs_base s)) = true -> (0 < n)%Z ->
  step (vs_calendar s) (ddf_date (vs_base s)) n fwd = Ok spot ->
  business_of (vs_calendar s) d0 = true -> step (vs_calendar s) d0 n fwd' = Ok d -> 0 <= f < 1 ->
  time_modify RollingExpiryDynamics s spot = Ok s' ->
  volatilities nan s' (mkDDF d f) ks = let* (vols, t) := volatilities nan s (mkDDF d0 f) ks in Ok (vols, Rmax t 0).
Proof. exact rolling. Qed.
Print Assumptions C28_rolling_expiry.

(** C28: evolving to the base date does nothing. *)
Theorem C28_evolve_same : forall (s : vol_surface R) dyn d, ddf_date (vs_base s) = d -> time_modify dyn s d = Ok s.
Proof. exact evolve_same. Qed.
Print Assumptions C28_evolve_same.

(** C28: evolving to another date takes the time between them, as the calendar counts it, unless that is nothing. *)
Theorem C28_evolve : forall (s : vol_surface R) dyn d s', d <> ddf_date (vs_base s) ->
  time_modify dyn s d = Ok s' <-> exists yf, year_fraction (vs_calendar s) (vs_base s) (mkDDF d 0) = Ok yf /\
    ((s' = s /\ Rabs yf < 1 / 1000000000000) \/
     (s' = (match dyn with ConstantExpiryDynamics => ConstantExpiry | RollingExpiryDynamics => RollingExpiry end) s yf (mkDDF d 0) /\ 1 / 1000000000000 <= Rabs yf)).
Proof. exact evolves. Qed.
Print Assumptions C28_evolve.

(** C28: under sticky delta the surface follows a forward if and only if that differs from its own at the base date, by more
    than 1e-12 of it. *)
Theorem C28_follow : forall nan (s : vol_surface R) f0 f a a0 s', vs_forward s = Some f0 ->
  forward_at nan f0 (ddf_date (vs_base s)) = Ok a0 -> forward_at nan f (ddf_date (vs_base s)) = Ok a ->
  forward_modify nan StickyDelta s (Ok f) = Ok s' <->
  (s' = s /\ Rabs (a0 - a) < a0 / 1000000000000) \/ (s' = StickyDeltaBumpVol s f /\ a0 / 1000000000000 <= Rabs (a0 - a)).
Proof. exact follows. Qed.
Print Assumptions C28_follow.

(** The surface of two pillars below has a forward of 100, and another one may be of 110. *)
Example C28_follow_case : forall nan v, vbp_new nan (term (/ 5) (3 / 10)) EveryDay (year_end 0) level level NoCashDivs = Ok v ->
  vs_forward (VolByProbability v) = Some (InterpolatedForward level) /\ forward_at nan (InterpolatedForward level) (ddf_date (vs_base (VolByProbability v))) = Ok 100 /\
  forward_at nan (InterpolatedForward (mkLinear Flat Flat [(0%Z, 110)])) (ddf_date (vs_base (VolByProbability v))) = Ok 110.
Proof. exact follow_case. Qed.

(** C28: under sticky strike, or without a forward of its own, it never does. *)
Theorem C28_stays : forall T (N : Num T) (TR : Trans T) (nan : T) dyn (s : vol_surface T) f, dyn = StickyStrike \/ vs_forward s = None ->
  forward_modify nan dyn s f = Ok s.
Proof. exact (fun T N TR nan dyn s f H => match H with or_introl E => eq_ind_r (fun x => forward_modify nan x s f = Ok s) (sticky_strike nan s f) E | or_intror E => no_forward nan dyn s f E end). Qed.
Print Assumptions C28_stays.

(** C29: before the surface has started the forward variance is the variance. *)
Theorem C29_started : forall nan s from to k, upto from (vs_base s) -> forward_variance nan s from to k = variance nan s to k.
Proof. exact forward_variance_started. Qed.
Print Assumptions C29_started.

(** C29: asking for the forward variance of several strikes is asking for each of them; any number type. *)
Theorem C29_each_strike : forall T (N : Num T) (TR : Trans T) (nan : T) s from to ks xs, ks <> [] ->
  (forward_variances nan s from to ks = Ok xs <-> Forall2 (fun k x => forward_variance nan s from to k = Ok x) ks xs).
Proof. exact @forward_variances_cons. Qed.
Print Assumptions C29_each_strike.

(** C29: without a forward (no smile to centre) it is the variance gained between the dates. *)
Theorem C29_without_forward : forall nan s from to k x, vs_forward s = None -> before (vs_base s) from ->
  forward_variance nan s from to k = Ok x -> accumulated nan s from to k x /\ 0 <= x.
Proof. exact forward_variance_none. Qed.
Print Assumptions C29_without_forward.

(** C29: with a forward it is made of differences at [from] and at the smile date; the variance at [to] has no influence. *)
Theorem C29_with_forward : forall nan s f from to k x, vs_forward s = Some f -> before (vs_base s) from ->
  forward_variance nan s from to k = Ok x ->
  exists f1 f2 sd fs a b c e,
    forward_at nan f (ddf_date from) = Ok f1 /\ forward_at nan f (ddf_date to) = Ok f2 /\
    variance nan s from f1 = Ok a /\ variance nan s from f2 = Ok b /\
    find_smile_date s from to = Ok sd /\ forward_at nan f (ddf_date sd) = Ok fs /\
    variance nan s sd fs = Ok c /\ variance nan s sd k = Ok e /\ x = (a - b) + (e - c).
Proof. exact forward_variance_some. Qed.
Print Assumptions C29_with_forward.

(** C29: the smile is the one as many business days after the base date as [to] is after [from]. *)
Theorem C29_smile_date : forall s from to n f b, plain (vs_calendar s) -> proper (vs_calendar s) ->
  ddf_frac from = ddf_frac to -> 0 <= ddf_frac to < 1 ->
  business_of (vs_calendar s) (ddf_date from) = true -> (0 <= n)%Z -> step (vs_calendar s) (ddf_date from) n f = Ok (ddf_date to) ->
  step (vs_calendar s) (ddf_date (vs_base s)) n true = Ok b ->
  find_smile_date s from to = Ok (mkDDF b (ddf_frac to)).
Proof. exact smile_date. Qed.
Print Assumptions C29_smile_date.

(** C29: hence a surface with a forward and no smile has no forward variance at all. *)
Theorem C29_no_smile_zero : forall nan s f from to k x, vs_forward s = Some f -> before (vs_base s) from -> no_smile nan s ->
  forward_variance nan s from to k = Ok x -> x = 0.
Proof. exact forward_variance_no_smile. Qed.
Print Assumptions C29_no_smile_zero.

(** C29: and with a driftless forward only the shape of the smile is left. *)
Theorem C29_driftless : forall nan s f from to k x a, vs_forward s = Some f -> before (vs_base s) from ->
  (forall d, forward_at nan f d = Ok a) ->
  forward_variance nan s from to k = Ok x ->
  exists sd e c, find_smile_date s from to = Ok sd /\ variance nan s sd k = Ok e /\ variance nan s sd a = Ok c /\ x = e - c.
Proof. exact forward_variance_driftless. Qed.
Print Assumptions C29_driftless.

(** C29: a surface that gains variance 1/25 in its second year, with forward variance 0. *)
Theorem C29_accumulated_refuted : forall nan, exists (s : vol_surface R) from to k,
  before (vs_base s) from /\ before from to /\
  accumulated nan s from to k (1 / 25) /\ forward_variance nan s from to k = Ok 0.
Proof. exact second_year. Qed.
Print Assumptions C29_accumulated_refuted.

(** C29: surfaces built of flat smiles are such surfaces. *)
Theorem C29_flat_smiles : forall nan v, all_flat v -> no_smile nan (VolByProbability v).
Proof. exact flat_smiles. Qed.
Print Assumptions C29_flat_smiles.

(** C30: a surface can be built if and only if there are smiles and the variances at the forward never fall. *)
Theorem C30_construction : forall nan cal base fwd smiles divs da,
  (exists v, vbp_new nan smiles cal base fwd divs da = Ok v) <->
  smiles <> [] /\ exists vars, atm_variances nan cal base fwd smiles vars /\ rising 0 vars.
Proof. exact new_iff. Qed.
Print Assumptions C30_construction.

(** C30: on a pillar it is the smile. *)
Theorem C30_pillar : forall nan cal base fwd smiles divs da v, vbp_new nan smiles cal base fwd divs da = Ok v ->
  ordered_pillars smiles -> forall p f vol t k w, In p smiles -> pillar nan cal base fwd p f vol t ->
  smile_at nan (snd p) k = Ok w -> volatility_is nan (VolByProbability v) (fst p) k w t.
Proof. exact at_pillar. Qed.
Print Assumptions C30_pillar.

(** C30: between pillars, at a strike x standard deviations from the forward, the variance is on the straight line in
    time between the variances of the two smiles x standard deviations from their forwards; it is an error if they fall. *)
Theorem C30_between : forall nan cal base fwd smiles divs da v, vbp_new nan smiles cal base fwd divs da = Ok v ->
  ordered_pillars smiles -> forall p q d f0 v0 t0 f1 v1 t1 f t, adjacent smiles p q -> before (fst p) d -> before d (fst q) ->
  pillar nan cal base fwd p f0 v0 t0 -> pillar nan cal base fwd q f1 v1 t1 ->
  linear_at nan fwd (ddf_date d) = Ok f -> year_fraction cal base d = Ok t ->
  0 < f -> 0 < t -> t0 <= t <= t1 -> t0 < t1 ->
  let share := (t - t0) / (t1 - t0) in
  let atm := between (t0 * v0 ^ 2) (t1 * v1 ^ 2) share in
  0 < atm ->
  forall x w0 w1, smile_at nan (snd p) (away f0 (t0 * v0 ^ 2) x) = Ok w0 -> smile_at nan (snd q) (away f1 (t1 * v1 ^ 2) x) = Ok w1 ->
  0 <= t0 ->
  (t0 * w0 ^ 2 <= t1 * w1 ^ 2 ->
     variance nan (VolByProbability v) d (away f atm x) = Ok (between (t0 * w0 ^ 2) (t1 * w1 ^ 2) share)) /\
  (t1 * w1 ^ 2 < t0 * w0 ^ 2 -> exists e, variance nan (VolByProbability v) d (away f atm x) = Err e).
Proof. exact between_pillars. Qed.
Print Assumptions C30_between.

(** C30: in particular at the forward, where it always succeeds. *)
Theorem C30_between_atm : forall nan cal base fwd smiles divs da v, vbp_new nan smiles cal base fwd divs da = Ok v ->
  ordered_pillars smiles -> forall p q d f0 v0 t0 f1 v1 t1 f t, adjacent smiles p q -> before (fst p) d -> before d (fst q) ->
  pillar nan cal base fwd p f0 v0 t0 -> pillar nan cal base fwd q f1 v1 t1 ->
  linear_at nan fwd (ddf_date d) = Ok f -> year_fraction cal base d = Ok t ->
  0 < f -> 0 < t -> t0 <= t <= t1 -> t0 < t1 -> 0 <= t0 ->
  let atm := between (t0 * v0 ^ 2) (t1 * v1 ^ 2) ((t - t0) / (t1 - t0)) in
  0 < atm -> atm_variance nan v d atm.
Proof. exact between_atm. Qed.
Print Assumptions C30_between_atm.

(** C30: outside the pillars, the volatility of the nearest smile as many standard deviations (of volatility one) away. *)
Theorem C30_outside : forall nan cal base fwd smiles divs da v, vbp_new nan smiles cal base fwd divs da = Ok v ->
  ordered_pillars smiles -> forall p d f0 v0 t0 f t,
  (nth_error smiles 0 = Some p /\ before d (fst p)) \/ (nth_error smiles (List.length smiles - 1) = Some p /\ before (fst p) d) ->
  pillar nan cal base fwd p f0 v0 t0 -> linear_at nan fwd (ddf_date d) = Ok f -> year_fraction cal base d = Ok t -> 0 < f -> 0 < t ->
  forall x w, smile_at nan (snd p) (away f0 t0 x) = Ok w -> volatility_is nan (VolByProbability v) d (away f t x) w t.
Proof. exact outside. Qed.
Print Assumptions C30_outside.

(** C30: the variance at the forward never falls from one date to a later one, anywhere after the base date. *)
Theorem C30_no_calendar_arbitrage : forall nan cal base fwd smiles divs da v, vbp_new nan smiles cal base fwd divs da = Ok v ->
  ordered_pillars smiles -> proper cal -> spread nan cal base fwd smiles ->
  forall d d' x y t, of_day d -> of_day d' -> before base d -> before d d' ->
  year_fraction cal base d = Ok t -> 0 < t -> atm_variance nan v d x -> atm_variance nan v d' y ->
  (exists t', year_fraction cal base d' = Ok t') -> x <= y.
Proof. exact atm_rising. Qed.
Print Assumptions C30_no_calendar_arbitrage.

(** C30: strikes and normalised strikes are inverse to each other. *)
Theorem C30_strikes_inverse : forall f a k x, 0 < f -> 0 < a -> 0 < k ->
  to_strike f (sqrt a) (to_normalised f (sqrt a) k) = k /\ to_normalised f (sqrt a) (to_strike f (sqrt a) x) = x.
Proof. exact (fun f a k x F A K => conj (strikes_round f a k F A K) (normalised_round f a x F A)). Qed.
Print Assumptions C30_strikes_inverse.

(** Two yearly pillars with volatilities 20% and 30% and a level forward. *)
Example C30_example : forall nan, exists v,
  vbp_new nan (term (/ 5) (3 / 10)) EveryDay (year_end 0) level level NoCashDivs = Ok v /\
  spread nan EveryDay (year_end 0) level (term (/ 5) (3 / 10)) /\
  pillar nan EveryDay (year_end 0) level (year_end 1, FlatSmile (/ 5)) 100 (/ 5) 1 /\
  atm_variance nan v (mkDDF 547%Z (/ 2)) (11 / 100).
Proof.
  intros nan. destruct (term_new nan (/ 5) (3 / 10)) as (v & E); [lra|]. exists v. split; [exact E|].
  split; [apply term_spread; lra|]. split; [exact (proj1 (term_pillars nan (/ 5) (3 / 10)))|]. exact (term_middle nan v E).
Qed.

(** With 40% and 20% it cannot be built. *)
Example C30_falling : forall nan,
  ~ exists v, vbp_new nan (term (2 / 5) (1 / 5)) EveryDay (year_end 0) level level NoCashDivs = Ok v.
Proof. intros nan. apply term_not_new. lra. Qed.

(** C31: a volatility bumped by b and then by the opposite bump is not at v - b but at v + b - 2b/(1+b). *)
Theorem C31_opposite_vol : forall nan s d k v t b, volatility_is nan s d k v t -> 0 <= v + b -> 1 + b <> 0 ->
  volatility_is nan (apply_vol (vol_opposite nan (FlatAdditive b)) (apply_vol (FlatAdditive b) s)) d k
    (Rmax (v + b - 2 * b / (1 + b)) 0) t.
Proof. exact opposite_vol. Qed.
Print Assumptions C31_opposite_vol.

(** C31: for every upward bump the down sample is too high. *)
Theorem C31_symmetric_vol_refuted : forall nan s d k v t b, volatility_is nan s d k v t -> 0 < b -> 0 < v - b ->
  forall w, volatility_is nan (apply_vol (vol_opposite nan (FlatAdditive b)) (apply_vol (FlatAdditive b) s)) d k w t -> v - b < w.
Proof. exact opposite_vol_wrong. Qed.
Print Assumptions C31_symmetric_vol_refuted.

(** C31: a replacing bump gives its volatility everywhere. *)
Theorem C31_replace : forall nan s vol d k t, year_fraction (vs_calendar s) (vs_base s) d = Ok t ->
  volatility_is nan (apply_vol (ReplaceVol vol) s) d k vol t.
Proof. exact replaced_total. Qed.
Print Assumptions C31_replace.

(** 20% for a year. *)
Example C28_example : forall nan k, volatility_is nan (FlatVolSurface (/ 5) EveryDay (year_end 0)) (year_end 1) k (/ 5) 1.
Proof. intros nan k. apply flat_is. rewrite every_years by (cbn; lia). f_equal. cbn. lra. Qed.
