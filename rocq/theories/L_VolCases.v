(** Worked surfaces: concrete cases and counterexamples. *)
From Coq Require Import ZArith List String Bool Lia Reals Lra Psatz.
From Verif Require Import Prelude Num L_Num M_Dates M_Search M_Calendar S_Calendar M_Interp M_Forward M_Vol S_Vol
  L_Vol L_VolTime L_VolPillars.
Import ListNotations.
Open Scope list_scope.
Open Scope R_scope.

(** ** Surfaces with flat smiles have no smile *)

Definition all_flat {T} (v : vol_by_probability T) : Prop := forall p, In p (vbp_smiles v) -> exists vol, snd p = FlatSmile vol.

Lemma smile_same nan (s : smile R) k k' v v' : (exists vol, s = FlatSmile vol) -> smile_at nan s k = Ok v -> smile_at nan s k' = Ok v' -> v = v'.
Proof. intros (vol & ->). cbn. congruence. Qed.

Lemma flat_smiles nan v : all_flat v -> no_smile nan (VolByProbability v).
Proof.
  intros A d k k' w t w' t' V V'. unfold volatility_is in V, V'. cbn [volatilities] in V, V'. unfold vbp_volatilities in V, V'.
  assert (F : forall i p, at_ (vbp_smiles v) i = Ok p -> exists vol, snd p = FlatSmile vol).
  { intros i p E. apply at_ok in E. apply A. eapply nth_error_In. exact E. }
  assert (X : forall i, vbp_extrapolate nan v i d [k] = Ok ([w], t) -> vbp_extrapolate nan v i d [k'] = Ok ([w'], t') -> w = w').
  { intros i U U'. unfold vbp_extrapolate in U, U'. cbn [map] in U, U'.
    destruct (year_fraction _ _ _); try discriminate. cbn [bind] in *. destruct (linear_at _ _ _); try discriminate. cbn [bind] in *.
    destruct (at_ (vbp_times v) i); try discriminate. cbn [bind] in *. destruct (at_ (vbp_forwards v) i); try discriminate. cbn [bind] in *.
    destruct (at_ (vbp_smiles v) i) as [p| |] eqn:P; try discriminate. cbn [bind] in *. apply F in P. destruct P as (vol & P). rewrite P in *.
    cbn in U, U'. congruence. }
  destruct (binary_search_by _ _) as [i|i].
  - destruct (at_ (vbp_smiles v) i) as [p| |] eqn:P; try discriminate. cbn [bind] in *. apply F in P. destruct P as (vol & P). rewrite P in *.
    cbn [smile_volatilities mapM smile_at bind] in V, V'. destruct (at_ (vbp_times v) i); try discriminate. cbn [bind] in *. congruence.
  - destruct (Nat.eqb i 0); [exact (X _ V V')|]. destruct (Nat.leb _ i); [exact (X _ V V')|].
    unfold vbp_interpolate in V, V'. cbn [map] in V, V'.
    destruct (year_fraction _ _ _); try discriminate. cbn [bind] in *.
    destruct (at_ (vbp_times v) (i - 1)); try discriminate. cbn [bind] in *. destruct (at_ (vbp_times v) i); try discriminate. cbn [bind] in *.
    destruct (linear_at _ _ _); try discriminate. cbn [bind] in *.
    destruct (at_ (vbp_sqrt_vars v) (i - 1)); try discriminate. cbn [bind] in *. destruct (at_ (vbp_sqrt_vars v) i); try discriminate. cbn [bind] in *.
    destruct (at_ (vbp_forwards v) (i - 1)); try discriminate. cbn [bind] in *.
    unfold pillar_variances in V, V'.
    destruct (at_ (vbp_smiles v) (i - 1)) as [p| |] eqn:P; try discriminate. cbn [bind] in *. apply F in P. destruct P as (vol & P). rewrite P in *.
    cbn [smile_volatilities mapM smile_at bind map] in V, V'.
    destruct (at_ (vbp_forwards v) i); try discriminate. cbn [bind] in *.
    destruct (at_ (vbp_smiles v) i) as [q| |] eqn:Q; try discriminate. cbn [bind] in *. apply F in Q. destruct Q as (vol' & Q). rewrite Q in *.
    cbn [smile_volatilities mapM smile_at bind map] in V, V'. rewrite V in V'. congruence.
Qed.

(** ** A level forward and two yearly pillars *)

Definition level : linear R date := mkLinear Flat Flat [(0%Z, 100)].

Lemma level_at nan d : linear_at nan level d = Ok 100.
Proof.
  unfold linear_at, linear_interpolate_extrapolate, binary_search_by. cbn -[Z.compare]. destruct (0 ?= d)%Z; reflexivity.
Qed.

Definition year_end (n : Z) : ddf R := mkDDF (365 * n)%Z 0.
Definition term (v1 v2 : R) : list (ddf R * smile R) := [(year_end 1, FlatSmile v1); (year_end 2, FlatSmile v2)].

Lemma every_years (a b : ddf R) : (ddf_date a <= ddf_date b)%Z ->
  year_fraction EveryDay a b = Ok ((IZR (ddf_date b - ddf_date a) + ddf_frac b - ddf_frac a) / 365).
Proof.
  intros L. unfold year_fraction. cbn [count_business_days]. unfold every_count.
  destruct (Z.ltb_spec (ddf_date b) (ddf_date a)); [lia|]. cbn [bind standard_basis]. rnum. reflexivity.
Qed.

Lemma term_pillars nan v1 v2 :
  pillar nan EveryDay (year_end 0) level (year_end 1, FlatSmile v1) 100 v1 1 /\
  pillar nan EveryDay (year_end 0) level (year_end 2, FlatSmile v2) 100 v2 2.
Proof.
  split; split; cbn [fst snd]; try apply level_at; try reflexivity; rewrite every_years by (cbn; lia); f_equal; cbn; lra.
Qed.

Lemma term_new nan v1 v2 : v1 ^ 2 <= 2 * v2 ^ 2 ->
  exists v, vbp_new nan (term v1 v2) EveryDay (year_end 0) level level NoCashDivs = Ok v.
Proof.
  intros L. apply new_iff. split; [discriminate|]. exists [1 * v1 ^ 2; 2 * v2 ^ 2]. destruct (term_pillars nan v1 v2) as (P & Q). split.
  - constructor; [exists 100, v1, 1; auto|]. constructor; [exists 100, v2, 2; auto|constructor].
  - cbn [rising]. pose proof (pow2_ge_0 v1). split; [lra|]. split; [lra|exact I].
Qed.

Lemma term_not_new nan v1 v2 : 2 * v2 ^ 2 < v1 ^ 2 ->
  ~ exists v, vbp_new nan (term v1 v2) EveryDay (year_end 0) level level NoCashDivs = Ok v.
Proof.
  intros L E. apply new_iff in E. destruct E as (_ & vars & A & G). destruct (term_pillars nan v1 v2) as (P & Q).
  inversion A as [|? x ? r (f & vol & t & D & ->) F]; subst. inversion F as [|? y ? r' (f' & vol' & t' & D' & ->) F']; subst.
  pose proof (data_fun _ _ _ _ _ _ _ (is_data_of _ _ _ _ _ _ _ _ D) (is_data_of _ _ _ _ _ _ _ _ P)) as E1.
  pose proof (data_fun _ _ _ _ _ _ _ (is_data_of _ _ _ _ _ _ _ _ D') (is_data_of _ _ _ _ _ _ _ _ Q)) as E2.
  injection E1 as -> -> ->. injection E2 as -> -> ->. cbn [rising] in G. lra.
Qed.

Lemma year_before m n : (m < n)%Z -> before (year_end m) (year_end n).
Proof. intros L. left. unfold year_end. cbn [ddf_date]. lia. Qed.

Lemma term_ordered v1 v2 : ordered_pillars (term v1 v2).
Proof.
  cbn [term ordered_pillars]. split; [|split; [intros q []|exact I]]. intros q [<-|[]]. apply year_before. lia.
Qed.

Lemma term_spread nan v1 v2 : 0 < v1 -> 0 < v2 -> spread nan EveryDay (year_end 0) level (term v1 v2).
Proof.
  intros P1 P2. destruct (term_pillars nan v1 v2) as (P & Q). split.
  - apply term_ordered.
  - intros p [<-|[<-|[]]]; (split; [unfold of_day; cbn; lra|apply year_before; lia]).
  - intros p f vol t [<-|[<-|[]]] D.
    + pose proof (data_fun _ _ _ _ _ _ _ (is_data_of _ _ _ _ _ _ _ _ D) (is_data_of _ _ _ _ _ _ _ _ P)) as E. injection E as -> -> ->. lra.
    + pose proof (data_fun _ _ _ _ _ _ _ (is_data_of _ _ _ _ _ _ _ _ D) (is_data_of _ _ _ _ _ _ _ _ Q)) as E. injection E as -> -> ->. lra.
  - intros p q t u (i & Hi & Hj) T U. destruct i as [|[|i]]; cbn in Hi, Hj; try discriminate; try (destruct i; discriminate).
    injection Hi as <-. injection Hj as <-. cbn [fst] in *. rewrite every_years in T, U by (cbn; lia). injection T as <-. injection U as <-.
    cbn. lra.
  - intros d f E. rewrite level_at in E. injection E as <-. lra.
Qed.

(** Halfway between the pillars. *)
Lemma term_middle nan v : vbp_new nan (term (/ 5) (3 / 10)) EveryDay (year_end 0) level level NoCashDivs = Ok v ->
  atm_variance nan v (mkDDF 547%Z (/ 2)) (11 / 100).
Proof.
  intros E. destruct (term_pillars nan (/ 5) (3 / 10)) as (P & Q).
  pose proof (between_atm nan EveryDay (year_end 0) level _ level NoCashDivs v E (term_ordered _ _) _ _ (mkDDF 547%Z (/ 2))
    100 (/ 5) 1 100 (3 / 10) 2 100 (3 / 2) (ex_intro _ 0%nat (conj eq_refl eq_refl))) as K. cbn [fst] in K.
  replace (11 / 100) with (between (1 * (/ 5) ^ 2) (2 * (3 / 10) ^ 2) ((3 / 2 - 1) / (2 - 1))) by (unfold between; field).
  apply K; try assumption; try lra.
  - left. cbn. lia.
  - left. cbn. lia.
  - apply level_at.
  - rewrite every_years by (cbn; lia). f_equal. cbn. lra.
  - unfold between. lra.
Qed.

(** Twenty percent volatility: the second year has no forward variance. *)
Lemma second_year nan : exists (s : vol_surface R) from to k,
  before (vs_base s) from /\ before from to /\
  accumulated nan s from to k (1 / 25) /\ forward_variance nan s from to k = Ok 0.
Proof.
  destruct (term_new nan (/ 5) (/ 5)) as (v & E); [lra|]. exists (VolByProbability v), (year_end 1), (year_end 2), 100.
  pose proof E as E'. apply new_inv in E'. destruct E' as (_ & xs & _ & _ & V).
  destruct (term_pillars nan (/ 5) (/ 5)) as (P & Q).
  assert (V1 : forall k, volatility_is nan (VolByProbability v) (year_end 1) k (/ 5) 1).
  { intros k. exact (at_pillar nan EveryDay (year_end 0) level _ level NoCashDivs v E (term_ordered _ _) _ _ _ _ k (/ 5) (or_introl eq_refl) P eq_refl). }
  assert (V2 : forall k, volatility_is nan (VolByProbability v) (year_end 2) k (/ 5) 2).
  { intros k. exact (at_pillar nan EveryDay (year_end 0) level _ level NoCashDivs v E (term_ordered _ _) _ _ _ _ k (/ 5) (or_intror (or_introl eq_refl)) Q eq_refl). }
  assert (B : before (vs_base (VolByProbability v)) (year_end 1)) by (rewrite V; cbn [vs_base vbp_base]; apply year_before; lia).
  split; [exact B|]. split; [apply year_before; lia|]. split.
  - exists (1 * (/ 5) ^ 2), (2 * (/ 5) ^ 2). split; [apply variance_real, V1|]. split; [apply variance_real, V2|lra].
  - unfold forward_variance, forward_variances. apply ddf_leb_before in B. rewrite B.
    assert (F : vs_forward (VolByProbability v) = Some (InterpolatedForward level)) by now rewrite V.
    rewrite F. unfold forward_at. rewrite !level_at. cbn [bind]. rewrite !(variance_real _ _ _ _ _ _ (V1 _)). cbn [bind]. rnum.
    destruct (Rltb_spec (1 * (/ 5) ^ 2 - 1 * (/ 5) ^ 2) 0); [lra|].
    assert (D : find_smile_date (VolByProbability v) (year_end 1) (year_end 2) = Ok (year_end 1)).
    { unfold find_smile_date. rewrite V. cbn [vs_calendar vs_base vbp_calendar vbp_base count_business_days]. unfold every_count, year_end.
      cbn [ddf_date ddf_frac]. change (365 * 2 <? 365 * 1)%Z with false. unfold step_partial. cbn [step bind]. rnum.
      replace (IZR (365 * 2 - 365 * 1) + 0 - 0) with (IZR 365) by (cbn; lra). rewrite Rround_IZR. cbn [bind]. unfold ddf_new. rnum.
      rewrite (proj2 (Rleb_iff 0 0)), (proj2 (Rltb_iff 0 1)) by lra. reflexivity. }
    rewrite D. cbn [bind]. rewrite level_at. cbn [bind]. rewrite (variance_real _ _ _ _ _ _ (V1 _)). cbn [bind].
    unfold variances. rewrite (V1 100). cbn [bind map checked_vars]. rnum.
    destruct (Rltb_spec (1 * / 5 * / 5 - 1 * (/ 5) ^ 2 + (1 * (/ 5) ^ 2 - 1 * (/ 5) ^ 2)) 0); [lra|].
    cbn. f_equal. lra.
Qed.

(** ** Opposite bumps *)

Lemma opposite_vol nan s d k v t b : volatility_is nan s d k v t -> 0 <= v + b -> 1 + b <> 0 ->
  volatility_is nan (apply_vol (vol_opposite nan (FlatAdditive b)) (apply_vol (FlatAdditive b) s)) d k
    (Rmax (v + b - 2 * b / (1 + b)) 0) t.
Proof.
  intros V L N. cbn [vol_opposite vol_bumpsize apply_vol]. rnum.
  replace (v + b - 2 * b / (1 + b)) with (Rmax (v + b) 0 + ((1 - b) / (1 + b) - 1)).
  - apply parallel, parallel, V.
  - rewrite Rmax_left by lra. field. exact N.
Qed.

Lemma opposite_vol_wrong nan s d k v t b : volatility_is nan s d k v t -> 0 < b -> 0 < v - b ->
  forall w, volatility_is nan (apply_vol (vol_opposite nan (FlatAdditive b)) (apply_vol (FlatAdditive b) s)) d k w t -> v - b < w.
Proof.
  intros V B L w W. pose proof (opposite_vol nan s d k v t b V ltac:(lra) ltac:(lra)) as O. unfold volatility_is in *.
  rewrite W in O. injection O as ->.
  assert (H : 2 * b / (1 + b) < 2 * b).
  { apply (Rmult_lt_reg_r (1 + b)); [lra|]. unfold Rdiv. rewrite Rmult_assoc, Rinv_l by lra. nra. }
  pose proof (Rmax_l (v + b - 2 * b / (1 + b)) 0). lra.
Qed.

Lemma replaced nan s vol d k v t : volatility_is nan (apply_vol (ReplaceVol vol) s) d k v t -> v = vol.
Proof. unfold volatility_is. cbn [apply_vol volatilities]. intros E. inv_bind E. cbn [map] in E. congruence. Qed.

Lemma replaced_total nan s vol d k t : year_fraction (vs_calendar s) (vs_base s) d = Ok t ->
  volatility_is nan (apply_vol (ReplaceVol vol) s) d k vol t.
Proof. apply flat_is. Qed.
