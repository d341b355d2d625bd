(** When surfaces are moved with the forward and with time. *)
From Coq Require Import ZArith List String Bool Lia Reals Lra.
From Verif Require Import Prelude Num L_Num M_Dates M_Calendar M_Interp M_Forward M_Vol S_Vol L_VolCases.
Import ListNotations.
Open Scope list_scope.
Open Scope R_scope.

Lemma sticky_strike {T} {N : Num T} {TR : Trans T} (nan : T) (s : vol_surface T) f : forward_modify nan StickyStrike s f = Ok s.
Proof. reflexivity. Qed.

Lemma no_forward {T} {N : Num T} {TR : Trans T} (nan : T) dyn (s : vol_surface T) f : vs_forward s = None -> forward_modify nan dyn s f = Ok s.
Proof. intros E. destruct dyn; [reflexivity|]. cbn [forward_modify]. now rewrite E. Qed.

Lemma follows (nan : R) (s : vol_surface R) f0 f a a0 s' : vs_forward s = Some f0 ->
  forward_at nan f0 (ddf_date (vs_base s)) = Ok a0 -> forward_at nan f (ddf_date (vs_base s)) = Ok a ->
  forward_modify nan StickyDelta s (Ok f) = Ok s' <->
  (s' = s /\ Rabs (a0 - a) < a0 / 1000000000000) \/ (s' = StickyDeltaBumpVol s f /\ a0 / 1000000000000 <= Rabs (a0 - a)).
Proof.
  intros F E0 E. unfold forward_modify. rewrite F. cbn [bind]. rewrite E. cbn [bind]. rewrite E0. cbn [bind]. unfold approx_eq, nlit. rnum.
  replace (a0 * (1 / 1000000000000)) with (a0 / 1000000000000) by field.
  destruct (Rltb_spec (Rabs (a0 - a)) (a0 / 1000000000000)).
  - split; [intros [= <-]; auto|]. intros [[-> _]|[_ L]]; [reflexivity|lra].
  - split; [intros [= <-]; auto|]. intros [[_ L]|[-> _]]; [lra|reflexivity].
Qed.

Lemma follows_fails {T} {N : Num T} {TR : Trans T} (nan : T) (s : vol_surface T) f0 m : vs_forward s = Some f0 ->
  forward_modify nan StickyDelta s (Err m) = Err m.
Proof. intros F. unfold forward_modify. now rewrite F. Qed.

Lemma evolves (s : vol_surface R) dyn d s' : d <> ddf_date (vs_base s) ->
  time_modify dyn s d = Ok s' <-> exists yf, year_fraction (vs_calendar s) (vs_base s) (mkDDF d 0) = Ok yf /\
    ((s' = s /\ Rabs yf < 1 / 1000000000000) \/
     (s' = (match dyn with ConstantExpiryDynamics => ConstantExpiry | RollingExpiryDynamics => RollingExpiry end) s yf (mkDDF d 0) /\ 1 / 1000000000000 <= Rabs yf)).
Proof.
  intros D. unfold time_modify. destruct (Z.eqb_spec d (ddf_date (vs_base s))); [contradiction|].
  assert (Q : ddf_new d n0 = Ok (mkDDF d 0)). { unfold ddf_new. rnum. unfold Rleb. destruct (Rle_dec 0 0); [|lra]. rcase; [reflexivity|lra]. }
  rewrite Q. cbn [bind]. destruct (year_fraction _ _ _) as [yf| |] eqn:Y; cbn [bind].
  2, 3: split; [discriminate|]; intros (yf & [=] & _).
  unfold approx_eq, nlit. rnum. rewrite Rminus_0_r. destruct (Rltb_spec (Rabs yf) (1 / 1000000000000)).
  - split; [intros [= <-]; eauto 6|]. intros (z & [= <-] & [[-> _]|[_ L]]); [reflexivity|lra].
  - split; [intros [= <-]; exists yf; split; [reflexivity|]; right; destruct dyn; auto|].
    intros (z & [= <-] & [[_ L]|[-> _]]); [lra|destruct dyn; reflexivity].
Qed.

Lemma follow_case nan v : vbp_new nan (term (/ 5) (3 / 10)) EveryDay (year_end 0) level level NoCashDivs = Ok v ->
  vs_forward (VolByProbability v) = Some (InterpolatedForward level) /\ forward_at nan (InterpolatedForward level) (ddf_date (vs_base (VolByProbability v))) = Ok 100 /\
  forward_at nan (InterpolatedForward (mkLinear Flat Flat [(0%Z, 110)])) (ddf_date (vs_base (VolByProbability v))) = Ok 110.
Proof.
  unfold vbp_new, term. intros E. inv_bind E. destruct a as (p & ((fs & ss) & ts)). injection E as <-. cbn [vs_forward vbp_forward vs_base vbp_base].
  split; [reflexivity|]. split; [apply level_at|]. cbn. reflexivity.
Qed.
