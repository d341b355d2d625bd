(** Lemmas about decorated surfaces and forward variance over the reals. *)
From Coq Require Import ZArith List String Bool Lia Reals Lra Psatz.
From Verif Require Import Prelude Num L_Num M_Dates M_Search M_Calendar S_Calendar L_Calendar L_CalendarCount
  L_CalendarCases M_Interp M_Forward M_Vol S_Vol L_Vol.
Import ListNotations.
Open Scope list_scope.
Open Scope R_scope.

Lemma nmax_Rmax x y : nmax x y = Rmax x y.
Proof. rnum. unfold Rmax. rewrite Reqb_refl. destruct (Rltb_spec x y), (Rle_dec x y); lra. Qed.

Lemma Rround_IZR n : Rround (IZR n) = n.
Proof.
  unfold Rround, Int_part. destruct (Rle_dec 0 (IZR n)).
  - replace (up (IZR n + / 2)) with (n + 1)%Z; [lia|]. apply tech_up; rewrite plus_IZR; lra.
  - rewrite <- opp_IZR. replace (up (IZR (- n) + / 2)) with (- n + 1)%Z; [lia|]. apply tech_up; rewrite plus_IZR; lra.
Qed.

Lemma basis_pos (c : calendar R) : proper c -> 0 < standard_basis c.
Proof.
  induction c as [| | |name c IH w]; cbn [standard_basis proper]; intros P; rnum; try lra.
  destruct P as (P & W). specialize (IH P). nra.
Qed.

Lemma year_fraction_spec (c : calendar R) a b t : proper c -> year_fraction c a b = Ok t -> t = weighted_years c a b.
Proof.
  intros P E. unfold year_fraction in E. inv_bind E. rnum. injection E as <-.
  apply (count_sound c P) in E0. unfold weighted_years. now rewrite E0.
Qed.

Lemma years_additive (c : calendar R) a b d t u v : proper c -> upto a b -> upto b d ->
  year_fraction c a b = Ok t -> year_fraction c b d = Ok u -> year_fraction c a d = Ok v -> v = t + u.
Proof.
  intros P U1 U2 E1 E2 E3. unfold year_fraction in E1, E2, E3. inv_bind E1. inv_bind E2. inv_bind E3. rnum.
  injection E1 as <-. injection E2 as <-. injection E3 as <-.
  assert (L1 : (ddf_date a <= ddf_date b)%Z) by (destruct U1 as [[?|[? ?]]| ->]; lia).
  assert (L2 : (ddf_date b <= ddf_date d)%Z) by (destruct U2 as [[?|[? ?]]| ->]; lia).
  rewrite (count_additive c _ _ _ _ _ _ _ _ _ P (conj L1 L2) E E0 E4). lra.
Qed.

Lemma years_nonneg (c : calendar R) a b t : proper c -> of_day a -> of_day b -> upto a b -> year_fraction c a b = Ok t -> 0 <= t.
Proof.
  intros P A B U E. unfold year_fraction in E. inv_bind E. rnum. injection E as <-.
  unfold of_day in *. pose proof (basis_pos c P).
  assert (0 <= a0).
  { refine (count_nonneg c _ _ _ _ _ P _ _ _ E0); [lra|lra|].
    intros Q. destruct U as [[?|[? ?]]| ->]; [lia|lra|lra]. }
  apply Rmult_le_pos; [assumption|]. apply Rlt_le, Rinv_0_lt_compat. assumption.
Qed.

Lemma years_mono (c : calendar R) a b d t u : proper c -> of_day b -> of_day d -> upto a b -> upto b d ->
  year_fraction c a b = Ok t -> year_fraction c a d = Ok u -> t <= u.
Proof.
  intros P B D U1 U2 E1 E2. unfold year_fraction in E1, E2. inv_bind E1. inv_bind E2. rnum.
  injection E1 as <-. injection E2 as <-. unfold of_day in *. pose proof (basis_pos c P).
  apply Rmult_le_compat_r; [apply Rlt_le, Rinv_0_lt_compat; assumption|].
  refine (count_mono_end c _ _ _ _ _ _ _ _ P _ _ _ _ E E0); [|lra|lra|].
  - split; [destruct U1 as [[?|[? ?]]| ->]; lia|destruct U2 as [[?|[? ?]]| ->]; lia].
  - intros Q. destruct U2 as [[?|[? ?]]| ->]; [lia|lra|lra].
Qed.

Lemma ddf_leb_upto a b : ddf_leb a b = true <-> upto a b.
Proof.
  unfold ddf_leb, ddf_cmp, upto, before. rnum. destruct a as (da, fa), b as (db, fb). cbn [ddf_date ddf_frac].
  destruct (Z.compare_spec da db).
  - destruct (Rltb_spec fa fb); [split; auto|]. destruct (Rltb_spec fb fa).
    + split; [discriminate|]. intros [[?|[? ?]]|[= -> ->]]; [lia|lra|lra].
    + split; [intros _; right; f_equal; [lia|lra]|reflexivity].
  - split; auto.
  - split; [discriminate|]. intros [[?|[? ?]]|[= -> ->]]; lia.
Qed.

Lemma ddf_leb_before a b : ddf_leb a b = false <-> before b a.
Proof.
  unfold ddf_leb, ddf_cmp, before. rnum. destruct a as (da, fa), b as (db, fb). cbn [ddf_date ddf_frac].
  destruct (Z.compare_spec da db).
  - destruct (Rltb_spec fa fb); [split; [discriminate|intros [?|[? ?]]; [lia|lra]]|]. destruct (Rltb_spec fb fa).
    + split; [right; split; [lia|lra]|reflexivity].
    + split; [discriminate|]. intros [?|[? ?]]; [lia|lra].
  - split; [discriminate|]. intros [?|[? ?]]; lia.
  - split; [left; lia|reflexivity].
Qed.

Section Surfaces.
  Variable nan : R.
  Implicit Type s : vol_surface R.

  Lemma variance_real s d k vol t : volatility_is nan s d k vol t -> variance nan s d k = Ok (t * vol ^ 2).
  Proof. intros V. rewrite (variance_one nan s d k vol t V). f_equal. rnum. ring. Qed.

  Lemma variance_real_inv s d k x : variance nan s d k = Ok x -> exists vol t, volatility_is nan s d k vol t /\ x = t * vol ^ 2.
  Proof. intros E. apply variance_inv in E. destruct E as (v & t & V & ->). exists v, t. split; [exact V|]. rnum. ring. Qed.

  Lemma time_floor s : time_evolved s -> forall d t, vol_time nan s d = Ok t -> 0 <= t.
  Proof.
    induction s as [vol cal base|v|s IH off base|s IH off base|s IH b|s IH b fl|s IH f]; cbn [time_evolved]; intros W d t E;
      try contradiction; unfold vol_time in E; cbn [volatilities] in E; inv_bind E; destruct a as (l, t0); injection E as <-.
    - inv_bind E0. destruct a as (l', t'). injection E0 as <- <-. rewrite nmax_Rmax. apply Rmax_r.
    - inv_bind E0. inv_bind E0. inv_bind E0. destruct a1 as (l', t'). injection E0 as <- <-. rewrite nmax_Rmax. apply Rmax_r.
    - inv_bind E0. destruct a as (l', t'). injection E0 as <- <-. apply (IH W d). unfold vol_time. now rewrite E.
    - inv_bind E0. destruct a as (l', t'). injection E0 as <- <-. apply (IH W d). unfold vol_time. now rewrite E.
    - apply (IH W d). unfold vol_time. destruct (vs_forward s); now rewrite E0.
  Qed.

  Lemma variance_nonneg s d k x t : vol_time nan s d = Ok t -> 0 <= t -> variance nan s d k = Ok x -> 0 <= x.
  Proof.
    intros Et L E. apply variance_real_inv in E. destruct E as (v & t' & V & ->).
    pose proof (volatilities_time nan _ _ _ _ _ V). assert (t' = t) by congruence. subst t'. apply Rmult_le_pos; [exact L|]. nra.
  Qed.

  Lemma evolved_nonneg s d k x : time_evolved s -> variance nan s d k = Ok x -> 0 <= x.
  Proof.
    intros W E. pose proof E as E'. apply variance_real_inv in E'. destruct E' as (v & t & V & _).
    pose proof (volatilities_time nan _ _ _ _ _ V) as Et. exact (variance_nonneg s d k x t Et (time_floor s W d t Et) E).
  Qed.

  Lemma parallel s d k v t b : volatility_is nan s d k v t -> volatility_is nan (ParallelBumpVol s b) d k (Rmax (v + b) 0) t.
  Proof. unfold volatility_is. cbn [volatilities]. intros ->. cbn [bind map]. now rewrite nmax_Rmax. Qed.

  Lemma parallel_inv s d k v t b : volatility_is nan (ParallelBumpVol s b) d k v t ->
    exists v0, volatility_is nan s d k v0 t /\ v = Rmax (v0 + b) 0.
  Proof.
    unfold volatility_is. cbn [volatilities]. intros E. inv_bind E. destruct a as (l, t0). injection E as E ->.
    pose proof E0 as F. apply volatilities_pointwise in F. destruct F as (_ & F). inversion F as [|? w ? r Ew Fr]; subst.
    inversion Fr; subst. cbn [map] in E. injection E as <-. exists w. split; [exact E0|apply nmax_Rmax].
  Qed.

  Lemma parallel_twice s d k v t b c : volatility_is nan s d k v t -> 0 <= v + b ->
    volatility_is nan (ParallelBumpVol (ParallelBumpVol s b) c) d k (Rmax (v + (b + c)) 0) t /\
    volatility_is nan (ParallelBumpVol s (b + c)) d k (Rmax (v + (b + c)) 0) t.
  Proof.
    intros V L. split; [|now apply parallel].
    replace (v + (b + c)) with (Rmax (v + b) 0 + c) by (rewrite Rmax_left by lra; ring). apply parallel, parallel. exact V.
  Qed.

  Lemma time_scaled s d k v t b fl : volatility_is nan s d k v t -> 0 < fl -> 0 <= v + b / sqrt (Rmax t fl) ->
    exists v', volatility_is nan (TimeScaledBumpVol s b fl) d k v' t /\ (v' - v) * sqrt (Rmax t fl) = b.
  Proof.
    unfold volatility_is. cbn [volatilities]. intros -> F L. cbn [bind map].
    exists (v + b / sqrt (Rmax t fl)). rewrite !nmax_Rmax. rnum. rewrite Rmax_left by lra. split; [reflexivity|].
    assert (0 < sqrt (Rmax t fl)). { apply sqrt_lt_R0. pose proof (Rmax_r t fl). lra. }
    field. lra.
  Qed.

  Lemma time_scaled_floored s d k v t b fl : volatility_is nan s d k v t -> v + b / sqrt (Rmax t fl) <= 0 ->
    volatility_is nan (TimeScaledBumpVol s b fl) d k 0 t.
  Proof.
    unfold volatility_is. cbn [volatilities]. intros -> L. cbn [bind map]. rewrite !nmax_Rmax. rnum. now rewrite Rmax_right by lra.
  Qed.

  Lemma sticky_delta s d k f f0 a a0 v t : vs_forward s = Some f0 ->
    forward_at nan f0 (ddf_date d) = Ok a0 -> forward_at nan f (ddf_date d) = Ok a -> a <> 0 ->
    (volatility_is nan (StickyDeltaBumpVol s f) d (k * a) v t <-> volatility_is nan s d (k * a0) v t).
  Proof.
    intros F E0 E1 N. unfold volatility_is. cbn [volatilities]. rewrite F, E0, E1. cbn [bind map]. rnum.
    replace (k * a * (a0 / a)) with (k * a0) by (field; exact N). reflexivity.
  Qed.

  Lemma flat_vols vol cal base d ks t : year_fraction cal base d = Ok t ->
    volatilities nan (FlatVolSurface vol cal base) d ks = Ok (map (fun _ => vol) ks, t).
  Proof. cbn [volatilities]. intros ->. reflexivity. Qed.

  Lemma flat_is vol cal base d k t : year_fraction cal base d = Ok t -> volatility_is nan (FlatVolSurface vol cal base) d k vol t.
  Proof. intros E. exact (flat_vols vol cal base d [k] t E). Qed.

  Lemma flat_variance vol cal base d k x : variance nan (FlatVolSurface vol cal base) d k = Ok x ->
    exists t, year_fraction cal base d = Ok t /\ x = t * vol ^ 2.
  Proof.
    intros E. apply variance_real_inv in E. destruct E as (v & t & V & ->). unfold volatility_is in V. cbn [volatilities] in V.
    inv_bind V. injection V as <- <-. exists a. split; [exact E|reflexivity].
  Qed.

  Lemma forward_variance_none s from to k x : vs_forward s = None -> before (vs_base s) from ->
    forward_variance nan s from to k = Ok x -> accumulated nan s from to k x /\ 0 <= x.
  Proof.
    intros F B E. unfold forward_variance, forward_variances in E. apply ddf_leb_before in B. rewrite B, F in E.
    inv_bind E. inv_bind E0. inv_bind E0. apply variances_each in E1. apply variances_each in E2.
    inversion E1 as [|? w ? r Ew Fr]; subst. inversion Fr; subst. inversion E2 as [|? w' ? r' Ew' Fr']; subst. inversion Fr'; subst.
    cbn in E0. rnum. destruct (Rltb_spec (w' - w) 0); [discriminate E0|]. injection E0 as <-. cbn in E. injection E as <-.
    split; [|lra]. exists w, w'. auto.
  Qed.

  Lemma forward_variance_none_ok s from to k a b : vs_forward s = None -> before (vs_base s) from ->
    variance nan s from k = Ok a -> variance nan s to k = Ok b -> a <= b -> forward_variance nan s from to k = Ok (b - a).
  Proof.
    intros F B Ea Eb L. unfold forward_variance, forward_variances. apply ddf_leb_before in B. rewrite B, F.
    apply variance_inv in Ea. destruct Ea as (v & t & V & ->). apply variance_inv in Eb. destruct Eb as (v' & t' & V' & ->).
    unfold variances. rewrite V, V'. cbn. rnum. destruct (Rltb_spec (t' * v' * v' - t * v * v) 0); [lra|reflexivity].
  Qed.

  Lemma flat_forward_variance vol cal base from to k x : proper cal -> of_day base -> of_day from -> of_day to ->
    before base from -> upto from to ->
    forward_variance nan (FlatVolSurface vol cal base) from to k = Ok x ->
    (exists u, year_fraction cal from to = Ok u) ->
    x = vol ^ 2 * weighted_years cal from to.
  Proof.
    intros P Db Df Dt B U E (u & Eu). apply forward_variance_none in E; [|reflexivity|exact B]. destruct E as ((a & b & Ea & Eb & ->) & _).
    apply flat_variance in Ea. destruct Ea as (t & Et & ->). apply flat_variance in Eb. destruct Eb as (t' & Et' & ->).
    pose proof (years_additive cal base from to t u t' P (or_introl B) U Et Eu Et') as A.
    rewrite <- (year_fraction_spec cal from to u P Eu). rewrite A. ring.
  Qed.

  Lemma flat_forward_total vol cal base from to k t t' : proper cal -> of_day from -> of_day to ->
    before base from -> upto from to -> year_fraction cal base from = Ok t -> year_fraction cal base to = Ok t' ->
    forward_variance nan (FlatVolSurface vol cal base) from to k = Ok (t' * vol ^ 2 - t * vol ^ 2).
  Proof.
    intros P Df Dt B U Et Et'. apply forward_variance_none_ok; [reflexivity|exact B| | |].
    - apply variance_real, flat_is, Et.
    - apply variance_real, flat_is, Et'.
    - pose proof (years_mono cal base from to t t' P Df Dt (or_introl B) U Et Et'). nra.
  Qed.

  (** From [base] on, the variance to the later date. *)
  Lemma forward_variance_started s from to k : upto from (vs_base s) -> forward_variance nan s from to k = variance nan s to k.
  Proof. intros U. unfold forward_variance, forward_variances, variance. apply ddf_leb_upto in U. now rewrite U. Qed.

  Lemma forward_variance_some s f from to k x : vs_forward s = Some f -> before (vs_base s) from ->
    forward_variance nan s from to k = Ok x ->
    exists f1 f2 sd fs a b c e,
      forward_at nan f (ddf_date from) = Ok f1 /\ forward_at nan f (ddf_date to) = Ok f2 /\
      variance nan s from f1 = Ok a /\ variance nan s from f2 = Ok b /\
      find_smile_date s from to = Ok sd /\ forward_at nan f (ddf_date sd) = Ok fs /\
      variance nan s sd fs = Ok c /\ variance nan s sd k = Ok e /\ x = (a - b) + (e - c).
  Proof.
    intros F B E. unfold forward_variance, forward_variances in E. apply ddf_leb_before in B. rewrite B, F in E.
    inv_bind E. inv_bind E0. inv_bind E0. inv_bind E0. inv_bind E0. rnum.
    destruct (Rltb_spec (a3 - a2) 0); [discriminate E0|]. inv_bind E0. inv_bind E0. inv_bind E0. inv_bind E0.
    pose proof E8 as E10. apply variances_each in E10. inversion E10 as [|? w ? r' Ew Fr]; subst. inversion Fr; subst.
    cbn in E0. rnum. destruct (Rltb_spec (w - a6 + (a3 - a2)) 0); [discriminate E0|]. injection E0 as <-. cbn in E. injection E as <-.
    exists a0, a1, a4, a5, a3, a2, a6, w. repeat (split; [assumption|]). ring.
  Qed.

  Lemma forward_variance_no_smile s f from to k x : vs_forward s = Some f -> before (vs_base s) from -> no_smile nan s ->
    forward_variance nan s from to k = Ok x -> x = 0.
  Proof.
    intros F B N E. apply (forward_variance_some s f) in E; [|exact F|exact B].
    destruct E as (f1 & f2 & sd & fs & a & b & c & e & _ & _ & Ea & Eb & _ & _ & Ec & Ee & ->).
    apply variance_real_inv in Ea, Eb, Ec, Ee.
    destruct Ea as (v1 & t1 & V1 & ->), Eb as (v2 & t2 & V2 & ->), Ec as (v3 & t3 & V3 & ->), Ee as (v4 & t4 & V4 & ->).
    pose proof (volatilities_time nan _ _ _ _ _ V1). pose proof (volatilities_time nan _ _ _ _ _ V2).
    pose proof (volatilities_time nan _ _ _ _ _ V3). pose proof (volatilities_time nan _ _ _ _ _ V4).
    assert (t2 = t1) by congruence. assert (t4 = t3) by congruence. subst t2 t4.
    rewrite (N _ _ _ _ _ _ _ V2 V1), (N _ _ _ _ _ _ _ V4 V3). ring.
  Qed.

  Lemma forward_variance_driftless s f from to k x a : vs_forward s = Some f -> before (vs_base s) from ->
    (forall d, forward_at nan f d = Ok a) ->
    forward_variance nan s from to k = Ok x ->
    exists sd e c, find_smile_date s from to = Ok sd /\ variance nan s sd k = Ok e /\ variance nan s sd a = Ok c /\ x = e - c.
  Proof.
    intros F B N E. apply (forward_variance_some s f) in E; [|exact F|exact B].
    destruct E as (f1 & f2 & sd & fs & va & vb & c & e & F1 & F2 & Ea & Eb & S & Fs & Ec & Ee & ->).
    rewrite N in F1, F2, Fs. injection F1 as <-. injection F2 as <-. injection Fs as <-.
    exists sd, e, c. repeat (split; [assumption|]). assert (va = vb) by congruence. lra.
  Qed.

  (** ** Time evolution *)
  Lemma evolve_same s dyn d : ddf_date (vs_base s) = d -> time_modify dyn s d = Ok s.
  Proof. intros <-. unfold time_modify. now rewrite Z.eqb_refl. Qed.

  Lemma evolve_inv s dyn d s' : time_modify dyn s d = Ok s' ->
    s' = s \/ exists yf, year_fraction (vs_calendar s) (vs_base s) (mkDDF d 0) = Ok yf /\ 1 / 1000000000000 <= Rabs yf /\
      s' = match dyn with ConstantExpiryDynamics => ConstantExpiry s yf (mkDDF d 0)
                        | RollingExpiryDynamics => RollingExpiry s yf (mkDDF d 0) end.
  Proof.
    unfold time_modify. destruct (Z.eqb_spec d (ddf_date (vs_base s))); [intros [= <-]; auto|].
    unfold ddf_new. intros E. inv_bind E. inv_bind E0. injection E0 as <-. clear E1. inv_bind E.
    unfold approx_eq in E. rnum. rewrite Rminus_0_r in E. destruct (Rltb_spec (Rabs a) (1 / 1000000000000)); [injection E as <-; auto|].
    right. exists a. split; [exact E0|]. split; [assumption|]. destruct dyn; injection E as <-; reflexivity.
  Qed.

  Lemma constant_expiry s d off b k v t : volatility_is nan s d k v t ->
    volatility_is nan (ConstantExpiry s off b) d k v (Rmax (t - off) 0).
  Proof. unfold volatility_is. cbn [volatilities]. intros ->. cbn [bind]. rewrite nmax_Rmax. reflexivity. Qed.

  (** After the evolution to [spot], a flat surface gives the variance from [spot] on. *)
  Lemma constant_expiry_flat vol cal base spot s' d k : proper cal -> of_day d ->
    (ddf_date base < spot)%Z -> upto (mkDDF spot 0) d ->
    time_modify ConstantExpiryDynamics (FlatVolSurface vol cal base) spot = Ok s' -> s' <> FlatVolSurface vol cal base ->
    forall t, year_fraction cal base d = Ok t ->
    variance nan s' d k = forward_variance nan (FlatVolSurface vol cal base) (mkDDF spot 0) d k.
  Proof.
    intros P D L U M N t Et. apply evolve_inv in M. destruct M as [M|(yf & Ey & _ & ->)]; [contradiction|].
    cbn [vs_calendar vs_base] in Ey.
    assert (B : before base (mkDDF spot 0)) by (left; exact L).
    assert (D0 : of_day (mkDDF spot 0)) by (unfold of_day; cbn; lra).
    rewrite (flat_forward_total vol cal base (mkDDF spot 0) d k yf t P D0 D B U Ey Et).
    pose proof (constant_expiry _ _ yf (mkDDF spot 0) _ _ _ (flat_is vol cal base d k t Et)) as V.
    rewrite (variance_real _ _ _ _ _ V). f_equal.
    pose proof (years_mono cal base (mkDDF spot 0) d yf t P D0 D (or_introl B) U Ey Et). rewrite Rmax_left by lra. ring.
  Qed.

  (** Rolling by n business days: the expiries move with the base date. *)
  Lemma rolling s n spot s' d0 d f ks fwd fwd' :
    plain (vs_calendar s) -> proper (vs_calendar s) -> ddf_frac (vs_base s) = 0 ->
    business_of (vs_calendar s) (ddf_date (vs_base s)) = true -> (0 < n)%Z ->
    step (vs_calendar s) (ddf_date (vs_base s)) n fwd = Ok spot ->
    business_of (vs_calendar s) d0 = true -> step (vs_calendar s) d0 n fwd' = Ok d -> 0 <= f < 1 ->
    time_modify RollingExpiryDynamics s spot = Ok s' ->
    volatilities nan s' (mkDDF d f) ks = let* (vols, t) := volatilities nan s (mkDDF d0 f) ks in Ok (vols, Rmax t 0).
  Proof.
    intros PL P F0 B N S B0 S0 F M. set (c := vs_calendar s) in *.
    pose proof (basis_pos c P) as BP.
    assert (C : year_fraction c (vs_base s) (mkDDF spot 0) = Ok (IZR n / standard_basis c)).
    { unfold year_fraction. cbn [ddf_date ddf_frac]. rewrite F0, (count_step c _ n fwd 0 spot PL P B (Z.lt_le_incl _ _ N) S). reflexivity. }
    apply IZR_lt in N as N'.
    assert (Bas : standard_basis c <= 365) by (destruct c; cbn [standard_basis]; rnum; try lra; destruct PL).
    assert (T : 1 / 1000000000000 <= IZR n / standard_basis c).
    { apply (Rle_trans _ (1 / 365)); [lra|]. unfold Rdiv. apply Rmult_le_compat; try lra.
      - apply IZR_le. lia.
      - apply Rinv_le_contravar; assumption. }
    assert (NE : (spot =? ddf_date (vs_base s))%Z = false).
    { apply Z.eqb_neq. intros Q. pose proof (count_step c _ n fwd 0 spot PL P B (Z.lt_le_incl _ _ N) S) as X.
      apply (count_sound c P) in X. rewrite Q in X. unfold weighted_time in X. rewrite Z.ltb_irrefl in X.
      replace (Z.to_nat (ddf_date (vs_base s) - ddf_date (vs_base s) + 1)) with 1%nat in X by lia. cbn [sum_days] in X. lra. }
    unfold time_modify in M. rewrite NE in M. unfold ddf_new in M. inv_bind M. inv_bind E. injection E as <-. clear E0.
    fold c in M. rewrite C in M. cbn [bind] in M. unfold approx_eq in M. rnum. rewrite Rminus_0_r in M.
    rewrite Rabs_right in M by lra. destruct (Rltb_spec (IZR n / standard_basis c) (1 / 1000000000000)); [lra|].
    injection M as <-. cbn [volatilities ddf_date ddf_frac]. fold c. rnum.
    replace (- (IZR n / standard_basis c) * standard_basis c) with (IZR (- n)) by (rewrite opp_IZR; field; lra).
    assert (SP : forall b, step_partial c d (IZR (- n)) b = Ok d0).
    { intros b. replace (step_partial c d (IZR (- n)) b) with (step c d (- n) b).
      - exact (step_inverse c d0 n fwd' b d PL (proper_orderly c P) B0 S0).
      - unfold step_partial. rnum. rewrite Rround_IZR. destruct c; reflexivity || destruct PL. }
    rewrite SP. cbn [bind]. unfold ddf_new. rnum. rewrite (proj2 (Rleb_iff 0 f)), (proj2 (Rltb_iff f 1)) by lra. cbn [bind andb assert_].
    destruct (volatilities nan s (mkDDF d0 f) ks) as [(l, t)|e|e]; cbn [bind]; [|reflexivity..]. f_equal. f_equal.
    exact (nmax_Rmax t 0).
  Qed.

  Lemma smile_date s from to n f b : plain (vs_calendar s) -> proper (vs_calendar s) ->
    ddf_frac from = ddf_frac to -> 0 <= ddf_frac to < 1 ->
    business_of (vs_calendar s) (ddf_date from) = true -> (0 <= n)%Z -> step (vs_calendar s) (ddf_date from) n f = Ok (ddf_date to) ->
    step (vs_calendar s) (ddf_date (vs_base s)) n true = Ok b ->
    find_smile_date s from to = Ok (mkDDF b (ddf_frac to)).
  Proof.
    intros PL P F D B N S S0. unfold find_smile_date. set (c := vs_calendar s) in *.
    rewrite F, (count_step c _ n f (ddf_frac to) (ddf_date to) PL P B N S). cbn [bind].
    replace (step_partial c (ddf_date (vs_base s)) (IZR n) true) with (step c (ddf_date (vs_base s)) n true).
    - rewrite S0. cbn [bind]. unfold ddf_new. rnum. rewrite (proj2 (Rleb_iff 0 (ddf_frac to))), (proj2 (Rltb_iff (ddf_frac to) 1)) by lra.
      reflexivity.
    - unfold step_partial. rnum. rewrite Rround_IZR. destruct c; reflexivity || destruct PL.
  Qed.
End Surfaces.
