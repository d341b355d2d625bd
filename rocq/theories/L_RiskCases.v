(** Worked market data: concrete cases and counterexamples. *)
From Coq Require Import ZArith List String Bool Lia Reals Lra.
From Verif Require Import Prelude Num M_Dates M_Search M_Calendar M_Curves M_Fixings M_Forward M_Vol M_Instruments M_Deps M_Risk M_Reports
  S_Deps S_Risk L_Num L_Fixings L_Deps L_Risk L_Prefetch L_PrefetchTop L_InstrumentCases L_DepsPricing.
Import ListNotations.
Open Scope list_scope.
Open Scope R_scope.

(** A flat market seen from day 0: one stock, no dividends. *)
Definition zero : curve R := ZeroRateCurve 0%Z.
Definition rate : curve R := RateCurveAct365 0%Z five.
Definition flat_market (spot : R) : market_data R :=
  mkMarket 0%Z [("BP"%string, spot)] [("BP-CR"%string, rate); ("OPT-CR"%string, zero)] [("BP"%string, zero)]
    [("BP"%string, stream_new [] zero)] [("BP"%string, flat_vol)].

Definition call_100 : instrument R := ISpotEuropean (option_on stock 15%Z Call CashSettled) 100.
Definition put_100 : instrument R := ISpotEuropean (option_on stock 15%Z Put CashSettled) 100.

(** What each portfolio depends on. *)
Definition option_asked : list (ask R) := option_asks (option_on stock 15%Z Call CashSettled) [Discount "BP-CR" 0%Z].
Lemma one_asked : all_come_to 0%Z [WantSpot call_100] (option_asked ++ []).
Proof. apply (act_cons 0%Z (WantSpot call_100) [] option_asked []); [|constructor]. rewrite <- (app_nil_r option_asked). apply (ct_spot 0%Z call_100). repeat constructor. Qed.

Definition twice_asked : list (ask R) := option_asked ++ option_asked ++ [].
Lemma two_asked : all_come_to 0%Z [WantSpot call_100; WantSpot put_100] twice_asked.
Proof.
  apply (act_cons 0%Z (WantSpot call_100) [WantSpot put_100] option_asked (option_asked ++ [])).
  - rewrite <- (app_nil_r option_asked). apply (ct_spot 0%Z call_100). repeat constructor.
  - apply (act_cons 0%Z (WantSpot put_100) [] option_asked []); [|constructor].
    rewrite <- (app_nil_r option_asked). apply (ct_spot 0%Z put_100).
    apply (dec_spot 0%Z (option_on stock 15%Z Put CashSettled) 100 [Discount "BP-CR" 0%Z]). repeat constructor.
Qed.

Lemma only_stock l : (forall a, In a l -> In a option_asked) -> one_per_id l.
Proof.
  intros S. assert (K : forall u, named u l -> u = stock).
  { intros u [I|[(d & I)|(d & I)]]; apply S in I; cbn in I; intuition congruence. }
  intros u u' A B _. rewrite (K u A), (K u' B). reflexivity.
Qed.

Lemma one_stock : one_per_id (option_asked ++ []).
Proof. apply only_stock. intros a. now rewrite app_nil_r. Qed.
Lemma one_stock_twice : one_per_id twice_asked.
Proof. apply only_stock. intros a. unfold twice_asked. rewrite app_nil_r, in_app_iff. tauto. Qed.

Definition deps_of (rs : list (request R)) : collector R := match collect_all 0%Z rs with Ok s => s | _ => collector_new 0%Z end.
Lemma one_collected : collect_all 0%Z [WantSpot call_100] = Ok (deps_of [WantSpot call_100]).
Proof. reflexivity. Qed.
Lemma two_collected : collect_all 0%Z [WantSpot call_100; WantSpot put_100] = Ok (deps_of [WantSpot call_100; WantSpot put_100]).
Proof. reflexivity. Qed.


(** The forward of the stock for given rates, without dividends. *)
Definition carried (spot : R) (r : curve R) (hwm : date) : forward R :=
  EquityForward NullRule r zero zero (mkBoot 0%Z hwm []) (spot * exp (0 - 0 - (0 - 0))) (0 - 0).

Lemma rate_r_and_t nan d : r_and_t nan rate d = Ok (if (d =? 0)%Z then 0 else 5, if (d =? 0)%Z then 0 else IZR d / 365).
Proof. unfold rate. cbn [r_and_t]. rewrite Z.sub_0_r. destruct (d =? 0)%Z; [reflexivity|]. rewrite five_at. reflexivity. Qed.
Lemma rate_rt nan d : rt nan rate d = Ok (5 * (IZR d / 365)).
Proof.
  unfold rt. rewrite rate_r_and_t. cbn [bind]. rnum. destruct (Z.eqb_spec d 0) as [->|]; [|reflexivity]. f_equal. unfold Rdiv. ring.
Qed.
Lemma bumped_rate_rt nan x d : rt nan (ContinuouslyCompoundedFlatBump rate x) d = Ok ((5 + x) * (IZR d / 365)).
Proof.
  unfold rt. cbn [r_and_t]. rewrite rate_r_and_t. cbn [bind]. rnum. destruct (Z.eqb_spec d 0) as [->|]; [|reflexivity]. f_equal. unfold Rdiv. ring.
Qed.

Lemma carried_new nan spot r hwm : rt nan r 0%Z = Ok 0 -> equity_forward_new nan 0%Z spot NullRule r zero (stream_new [] zero) hwm = Ok (carried spot r hwm).
Proof.
  intros E. unfold equity_forward_new, log_discount_with_borrow, discount_with_borrow. cbn [apply_rule bind].
  unfold log_discount_with_borrow. rewrite E. unfold zero. rewrite zero_rt. cbn [bind]. reflexivity.
Qed.

Lemma stream_carried nan spot r st hwm : dividends st = [] -> rt nan r 0%Z = Ok 0 ->
  equity_forward_new nan 0%Z spot NullRule r zero st hwm =
  Ok (EquityForward NullRule r zero (div_yield st) (mkBoot 0%Z hwm []) (spot * exp (0 - 0 - (0 - 0))) (0 - 0)).
Proof.
  intros D E. unfold equity_forward_new, log_discount_with_borrow, discount_with_borrow. cbn [apply_rule bind].
  unfold log_discount_with_borrow, bootstrap_new. rewrite E, D. unfold zero. rewrite zero_rt. cbn [bind]. reflexivity.
Qed.

Lemma carried_at nan spot r hwm d x : (d <= hwm)%Z -> rt nan r d = Ok x -> forward_at nan (carried spot r hwm) d = Ok (spot * exp x).
Proof.
  intros L E. unfold carried, forward_at, discounted_sum_from_base, sum_at. cbn [boot_hwm boot_acc].
  destruct (Z.ltb_spec hwm d); [lia|]. change (binary_search_by (@nil (accumulation R)) (fun p => (acc_ex_date p ?= d)%Z)) with (Missing 0). cbn [Nat.eqb bind apply_rule].
  unfold log_discount_with_borrow. rewrite E. unfold zero. rewrite zero_rt. cbn [bind]. rnum. f_equal.
  replace (0 - 0 + 0 - (0 - x)) with x by ring. replace (0 - 0 - (0 - 0)) with 0 by ring. rewrite exp_0. ring.
Qed.

Definition cache (nan s : R) (rs : list (request R)) (r : curve R) : prefetch R :=
  mkPrefetch (mkMarket 0%Z [("BP"%string, s)] [("BP-CR"%string, r); ("OPT-CR"%string, zero)] [("BP"%string, zero)]
    [("BP"%string, stream_new [] zero)] [("BP"%string, flat_vol)]) (deps_of rs) [("BP"%string, carried s r 15%Z)] [("BP"%string, flat_vol)].


Lemma stock_curve nan s r h : rt nan r 0%Z = Ok 0 ->
  md_forward_curve nan (mkMarket 0%Z [("BP"%string, s)] [("BP-CR"%string, r); ("OPT-CR"%string, zero)] [("BP"%string, zero)]
    [("BP"%string, stream_new [] zero)] [("BP"%string, flat_vol)]) stock h = Ok (carried s r h).
Proof. intros E. exact (carried_new nan s r h E). Qed.

Lemma start_zero nan : rt nan rate 0%Z = Ok 0.
Proof. rewrite rate_rt. f_equal. unfold Rdiv. ring. Qed.
Lemma bumped_start_zero nan x : rt nan (ContinuouslyCompoundedFlatBump rate x) 0%Z = Ok 0.
Proof. rewrite bumped_rate_rt. f_equal. unfold Rdiv. ring. Qed.

Lemma cached nan s r rs : rt nan r 0%Z = Ok 0 -> col_forward_curves (deps_of rs) = [("BP"%string, (stock, 15%Z))] ->
  vol_surface_hwm stock (deps_of rs) = Some 15%Z ->
  prefetch_new nan (pf_data (cache nan s rs r)) (deps_of rs) = Ok (cache nan s rs r).
Proof.
  intros E F V. unfold prefetch_new, walk_dependencies. rewrite F. cbn [walk_loop]. cbn [pf_data cache]. rewrite (stock_curve nan s r 15%Z E). rewrite V.
  change (md_vol_surface nan _ stock 15%Z _) with (@Ok (vol_surface R) flat_vol). reflexivity.
Qed.

Definition call_only : list (request R) := [WantSpot call_100].
Definition call_and_put : list (request R) := [WantSpot call_100; WantSpot put_100].

Lemma one_cached nan s : prefetch_new nan (flat_market s) (deps_of call_only) = Ok (cache nan s call_only rate).
Proof. apply (cached nan s rate call_only (start_zero nan)); reflexivity. Qed.
Lemma two_cached nan s : prefetch_new nan (flat_market s) (deps_of call_and_put) = Ok (cache nan s call_and_put rate).
Proof. apply (cached nan s rate call_and_put (start_zero nan)); reflexivity. Qed.

Lemma exp_differ s a b : s <> 0 -> a <> b -> s * exp a <> s * exp b.
Proof. intros S D E. apply Rmult_eq_reg_l in E; [|exact S]. apply exp_inv in E. contradiction. Qed.

(** Refetching the forward of the stock. *)
Lemma refetch_stock nan d rs f0 (sf : option (smap (forward R))) (sv : option (smap (vol_surface R))) f' V :
  col_forward_curves (deps_of rs) = [("BP"%string, (stock, 15%Z))] -> instrument_by_id "BP" (deps_of rs) = Some stock ->
  md_forward_curve nan d stock 15%Z = Ok f' ->
  refetch nan "BP" true false sf sv (mkPrefetch d (deps_of rs) [("BP"%string, f0)] V) =
  (Ok true, mkPrefetch d (deps_of rs) [("BP"%string, f')] V, option_map (put "BP" f0) sf, sv).
Proof.
  intros F I E. unfold refetch. cbn [negb andb pf_forwards pf_deps pf_vols pf_data get String.eqb Ascii.eqb Bool.eqb put]. rewrite I.
  assert (H : forward_curve_hwm stock (deps_of rs) = Some 15%Z) by (unfold forward_curve_hwm; rewrite F; reflexivity).
  rewrite H, E. reflexivity.
Qed.

(** A spot bump through the cache. *)
Lemma spot_bumped nan s rs f sf sv sd : col_forward_curves (deps_of rs) = [("BP"%string, (stock, 15%Z))] ->
  instrument_by_id "BP" (deps_of rs) = Some stock ->
  prefetch_bump nan (BSpot "BP" f) (cache nan s rs rate) (Some (SavePrefetch sd sf sv)) =
    (Ok true, cache nan (apply_spot f s) rs rate,
     Some (SavePrefetch (mkSaved (put "BP" s (sd_spots sd)) (sd_yields sd) (sd_borrows sd) (sd_divs sd) (sd_vols sd))
             (put "BP" (carried s rate 15%Z) sf) sv)).
Proof.
  intros F I. unfold prefetch_bump, prefetch_bump_saved. cbn [md_bump_saved cache pf_data md_spots]. 
  rewrite (apply_bump_known "BP" (apply_spot f) [("BP"%string, s)] s) by reflexivity. cbn [option_map with_saved].
  unfold refetch. cbn [negb andb cache pf_forwards pf_deps pf_vols pf_data md_spot_date md_yields md_borrows md_divs md_vols get String.eqb Ascii.eqb Bool.eqb put]. rewrite I.
  assert (H : forward_curve_hwm stock (deps_of rs) = Some 15%Z) by (unfold forward_curve_hwm; rewrite F; reflexivity).
  rewrite H. rewrite (stock_curve nan (apply_spot f s) rate 15%Z (start_zero nan)). reflexivity.
Qed.

(** Use an equation about the first refetch in the goal. *)
Ltac use_refetch Q :=
  match type of Q with ?L = _ =>
    match goal with |- context [refetch ?a ?b ?c ?d ?e ?f ?g] => change (refetch a b c d e f g) with L; rewrite Q; cbv iota beta end end.

(** A yield bump when two instruments share an underlying. *)
Lemma shared_not_restored nan s x : s <> 0 -> x <> 0 -> exists p p' s' p'' f f' v v',
  prefetch_new nan (flat_market s) (deps_of call_and_put) = Ok p /\
  prefetch_bump nan (BYield "BP-CR" (FlatContinuouslyCompounded x)) p (Some saved_prefetch_new) = (Ok true, p', Some s') /\
  prefetch_restore s' p' = (Ok tt, p'') /\ pf_data p'' = pf_data p /\
  ctx_forward_curve (prefetch_context nan p) stock 15%Z = Ok f /\ forward_at nan f 15%Z = Ok v /\
  ctx_forward_curve (prefetch_context nan p'') stock 15%Z = Ok f' /\ forward_at nan f' 15%Z = Ok v' /\ v <> v'.
Proof.
  intros S X. pose proof (two_cached nan s) as P. set (r' := ContinuouslyCompoundedFlatBump rate x).
  assert (B : prefetch_bump nan (BYield "BP-CR" (FlatContinuouslyCompounded x)) (cache nan s call_and_put rate) (Some saved_prefetch_new) =
    (Ok true, cache nan s call_and_put r', Some (SavePrefetch (mkSaved [] [("BP-CR"%string, rate)] [] [] []) [("BP"%string, carried s r' 15%Z)] []))).
  { pose proof (fun f0 sf => refetch_stock nan (pf_data (cache nan s call_and_put r')) call_and_put f0 (Some sf) (Some []) _ [("BP"%string, flat_vol)]
      eq_refl eq_refl (stock_curve nan s r' 15%Z (bumped_start_zero nan x))) as Q.
    unfold prefetch_bump, saved_prefetch_new. rewrite (bump_dispatch nan (BYield "BP-CR" (FlatContinuouslyCompounded x)) _ _ _ _ (YieldFor "BP-CR") eq_refl).
    change (mkPrefetch (bumped_md _ _) _ _ _) with
      (mkPrefetch (pf_data (cache nan s call_and_put r')) (deps_of call_and_put) [("BP"%string, carried s rate 15%Z)] [("BP"%string, flat_vol)]).
    unfold refetch_for, known. cbn [pf_deps].
    change (forward_ids_of "BP-CR" (deps_of call_and_put)) with ["BP"%string; "BP"%string].
    change (look (pf_data (cache nan s call_and_put rate)) (YieldFor "BP-CR")) with (Some (ACurve rate)). cbv iota.
    cbn [refetch_each]. use_refetch (Q (carried s rate 15%Z) []).
    use_refetch (Q (carried s r' 15%Z) (put "BP" (carried s rate 15%Z) [])). reflexivity. }
  do 8 eexists. split; [exact P|]. split; [exact B|]. split; [reflexivity|]. split; [reflexivity|].
  split; [reflexivity|]. split; [apply carried_at; [lia|apply rate_rt]|]. split; [reflexivity|].
  split; [apply carried_at; [lia|apply bumped_rate_rt]|]. apply exp_differ; [exact S|]. lra.
Qed.

(** Two saved bumps that feed the same forward. *)
Lemma two_feeds_not_restored nan s x y : s <> 0 -> x <> 0 -> exists p p' s' p2 s2 p3 f f' v v',
  prefetch_new nan (flat_market s) (deps_of call_only) = Ok p /\
  prefetch_bump nan (BSpot "BP" (RelativeSpot x)) p (Some saved_prefetch_new) = (Ok true, p', Some s') /\
  prefetch_bump nan (BDivs "BP" (BumpAllRelative y)) p' (Some s') = (Ok true, p2, Some s2) /\
  prefetch_restore s2 p2 = (Ok tt, p3) /\ pf_data p3 = pf_data p /\
  ctx_forward_curve (prefetch_context nan p) stock 15%Z = Ok f /\ forward_at nan f 15%Z = Ok v /\
  ctx_forward_curve (prefetch_context nan p3) stock 15%Z = Ok f' /\ forward_at nan f' 15%Z = Ok v' /\ v <> v'.
Proof.
  intros S X. pose proof (one_cached nan s) as P. unfold saved_prefetch_new.
  pose proof (spot_bumped nan s call_only (RelativeSpot x) [] [] saved_data_new eq_refl eq_refl) as B1.
  set (s1 := apply_spot (RelativeSpot x) s) in *.
  assert (B2 : exists d f'', prefetch_bump nan (BDivs "BP" (BumpAllRelative y)) (cache nan s1 call_only rate)
      (Some (SavePrefetch (mkSaved [("BP"%string, s)] [] [] [] []) [("BP"%string, carried s rate 15%Z)] [])) =
    (Ok true, mkPrefetch d (deps_of call_only) [("BP"%string, f'')] [("BP"%string, flat_vol)],
     Some (SavePrefetch (mkSaved [("BP"%string, s)] [] [] [("BP"%string, stream_new [] zero)] []) [("BP"%string, carried s1 rate 15%Z)] [])) /\
     md_restore_saved (mkSaved [("BP"%string, s)] [] [] [("BP"%string, stream_new [] zero)] []) d = flat_market s).
  { do 2 eexists. split.
    - unfold prefetch_bump. rewrite (bump_dispatch nan (BDivs "BP" (BumpAllRelative y)) _ _ _ _ (DivsFor "BP") eq_refl).
      unfold refetch_for, known. change (look (pf_data (cache nan s1 call_only rate)) (DivsFor "BP")) with (Some (AStream (stream_new [] zero))). cbv iota.
      match goal with |- context [mkPrefetch ?d _ _ _] =>
        use_refetch (refetch_stock nan d call_only (carried s1 rate 15%Z) (Some [("BP"%string, carried s rate 15%Z)]) (Some []) _ [("BP"%string, flat_vol)]
          eq_refl eq_refl (stream_carried nan s1 rate (stream_bump_all (stream_new [] zero) y) 15%Z eq_refl (start_zero nan))) end.
      reflexivity.
    - reflexivity. }
  destruct B2 as (d & f'' & B2 & R2).
  eexists _, _, _, _, _, _, _, _, _, _. split; [exact P|]. split; [exact B1|]. split; [exact B2|]. split; [reflexivity|].
  split; [cbn [pf_data]; exact R2|]. split; [reflexivity|]. split; [apply carried_at; [lia|apply rate_rt]|]. split; [reflexivity|].
  split; [apply carried_at; [lia|apply rate_rt]|]. unfold s1. cbn [apply_spot]. rnum. pose proof (exp_pos (5 * (15 / 365))).
  intros Q. assert (Q' : (s * x) * exp (5 * (15 / 365)) = 0) by lra.
  apply Rmult_integral in Q'. destruct Q' as [Q'|Q']; [|lra]. apply Rmult_integral in Q'. tauto.
Qed.

(** Two saved bumps of one spot. *)
Lemma twice_not_restored s x : s <> 0 -> x <> 0 -> exists md' s' md2 s2 md3,
  md_bump (BSpot "BP" (RelativeSpot x)) (flat_market s) (Some (SaveData saved_data_new)) = (Ok true, md', Some s') /\
  md_bump (BSpot "BP" (RelativeSpot x)) md' (Some s') = (Ok true, md2, Some s2) /\
  md_restore s2 md2 = (Ok tt, md3) /\ look (flat_market s) (SpotFor "BP") = Some (ASpot s) /\
  look md3 (SpotFor "BP") = Some (ASpot (s * (1 + x))) /\ s * (1 + x) <> s.
Proof.
  intros S X. do 5 eexists. split; [reflexivity|]. split; [reflexivity|]. split; [reflexivity|]. split; [reflexivity|].
  split; [reflexivity|]. intros Q. assert (Q' : s * x = 0) by lra. apply Rmult_integral in Q'. tauto.
Qed.

Lemma spot_bumped_unsaved nan s rs f : col_forward_curves (deps_of rs) = [("BP"%string, (stock, 15%Z))] ->
  instrument_by_id "BP" (deps_of rs) = Some stock ->
  prefetch_bump nan (BSpot "BP" f) (cache nan s rs rate) None = (Ok true, cache nan (apply_spot f s) rs rate, None).
Proof.
  intros F I. unfold prefetch_bump, prefetch_bump_saved. cbn [md_bump_saved cache pf_data md_spots].
  rewrite (apply_bump_known "BP" (apply_spot f) [("BP"%string, s)] s) by reflexivity. cbn [option_map with_saved].
  unfold refetch. cbn [negb andb cache pf_forwards pf_deps pf_vols pf_data md_spot_date md_yields md_borrows md_divs md_vols get String.eqb Ascii.eqb Bool.eqb put]. rewrite I.
  assert (H : forward_curve_hwm stock (deps_of rs) = Some 15%Z) by (unfold forward_curve_hwm; rewrite F; reflexivity).
  rewrite H. rewrite (stock_curve nan (apply_spot f s) rate 15%Z (start_zero nan)). reflexivity.
Qed.

(** A spot bumped up and down, and a surface. *)
Definition some_bumps : history R :=
  [(BSpot "BP" (RelativeSpot 1), true); (BSpot "BP" (RelativeSpot (-1/2)), false); (BVol "BP" (FlatAdditive 1), true)].

Lemma some_disciplined rs : disciplined (deps_of rs) [] some_bumps.
Proof.
  apply (dis_first _ _ _ (SpotFor "BP")); [reflexivity|intros []|repeat constructor; intros []|intros ? ? []|].
  apply (dis_again _ _ _ (SpotFor "BP")); [reflexivity|now left|].
  apply (dis_first _ _ _ (VolFor "BP")); [reflexivity|intros [E|[]]; discriminate|repeat constructor; intros []| |constructor].
  intros d' y [<-|[]] I1 I2. cbn in I1, I2. destruct I1 as [<-|[]], I2 as [E|[]]. discriminate.
Qed.

Lemma refetch_flat nan d rs f0 (sf : option (smap (forward R))) (sv : option (smap (vol_surface R))) v v' :
  md_vol_surface nan d stock 15%Z (Ok f0) = Ok v' ->
  vol_surface_hwm stock (deps_of rs) = Some 15%Z -> instrument_by_id "BP" (deps_of rs) = Some stock ->
  refetch nan "BP" false true sf sv (mkPrefetch d (deps_of rs) [("BP"%string, f0)] [("BP"%string, v)]) =
  (Ok true, mkPrefetch d (deps_of rs) [("BP"%string, f0)] [("BP"%string, v')], sf, option_map (put "BP" v) sv).
Proof.
  intros M F I. unfold refetch, refetch_vol. cbn [negb andb pf_forwards pf_deps pf_vols pf_data get String.eqb Ascii.eqb Bool.eqb put]. rewrite I, F, M. reflexivity.
Qed.

Lemma vol_bumped nan s rs x sf sv sd : instrument_by_id "BP" (deps_of rs) = Some stock -> vol_surface_hwm stock (deps_of rs) = Some 15%Z ->
  exists p' s', prefetch_bump nan (BVol "BP" (FlatAdditive x)) (cache nan s rs rate) (Some (SavePrefetch sd sf sv)) = (Ok true, p', s') /\
  look (pf_data p') (VolFor "BP") = Some (ASurface (ParallelBumpVol flat_vol x)).
Proof.
  intros I V. do 2 eexists. unfold prefetch_bump. rewrite (bump_dispatch nan (BVol "BP" (FlatAdditive x)) _ _ _ _ (VolFor "BP") eq_refl).
  unfold refetch_for, known. change (look (pf_data (cache nan s rs rate)) (VolFor "BP")) with (Some (ASurface flat_vol)). cbv iota.
  match goal with |- context [mkPrefetch ?d _ _ _] =>
    use_refetch (refetch_flat nan d rs (carried s rate 15%Z) (Some sf) (Some sv) flat_vol (ParallelBumpVol flat_vol x) eq_refl V I) end.
  split; [reflexivity|]. cbn [pf_data]. exact (bumped_target (BVol "BP" (FlatAdditive x)) (pf_data (cache nan s rs rate)) (VolFor "BP") (ASurface flat_vol) eq_refl eq_refl).
Qed.

Lemma some_bumped nan s : exists p p' s',
  prefetch_new nan (flat_market s) (deps_of call_only) = Ok p /\
  bumps_with nan some_bumps p saved_prefetch_new p' s' /\
  look (pf_data p') (VolFor "BP") = Some (ASurface (ParallelBumpVol flat_vol 1)).
Proof.
  pose proof (one_cached nan s) as P. unfold saved_prefetch_new.
  set (s2 := apply_spot (RelativeSpot (-1/2)) (apply_spot (RelativeSpot 1) s)).
  destruct (vol_bumped nan s2 call_only 1 (put "BP" (carried s rate 15%Z) []) [] (mkSaved (put "BP" s []) [] [] [] []) eq_refl eq_refl) as (p' & s' & B & L).
  exists (cache nan s call_only rate), p'. eexists. split; [exact P|]. split; [|exact L].
  eapply bw_step; [exact (spot_bumped nan s call_only (RelativeSpot 1) [] [] saved_data_new eq_refl eq_refl)|].
  eapply bw_step; [exact (spot_bumped_unsaved nan _ call_only _ eq_refl eq_refl)|]. eapply bw_last. exact B.
Qed.

(** Two instruments with the same id. *)
Definition stock2 : instrument R := IEquity "BP" "OPT-CR" usd NullRule.
Definition call_other : instrument R := ISpotEuropean (option_on stock2 15%Z Call CashSettled) 100.
Definition same_ids : list (request R) := [WantSpot call_100; WantSpot call_other].

Lemma other_curve nan s r h : 
  md_forward_curve nan (mkMarket 0%Z [("BP"%string, s)] [("BP-CR"%string, r); ("OPT-CR"%string, zero)] [("BP"%string, zero)]
    [("BP"%string, stream_new [] zero)] [("BP"%string, flat_vol)]) stock2 h = Ok (carried s zero h).
Proof. exact (carried_new nan s zero h (zero_rt nan 0%Z)). Qed.

Lemma refetch_second nan s f0 (sf : option (smap (forward R))) (sv : option (smap (vol_surface R))) V :
  refetch nan "BP" true false sf sv (mkPrefetch (pf_data (cache nan s same_ids rate)) (deps_of same_ids) [("BP"%string, f0)] V) =
  (Ok true, mkPrefetch (pf_data (cache nan s same_ids rate)) (deps_of same_ids) [("BP"%string, carried s zero 15%Z)] V, option_map (put "BP" f0) sf, sv).
Proof.
  unfold refetch. cbn [negb andb pf_forwards pf_deps pf_vols pf_data get String.eqb Ascii.eqb Bool.eqb put].
  assert (I : instrument_by_id "BP" (deps_of same_ids) = Some stock2) by reflexivity. rewrite I.
  assert (H : forward_curve_hwm stock2 (deps_of same_ids) = Some 15%Z) by reflexivity. rewrite H.
  cbn [cache pf_data]. rewrite (other_curve nan s rate 15%Z). reflexivity.
Qed.

Lemma same_id_stale nan s x : s <> 0 -> 1 + x <> 0 -> exists p p' f g v w,
  prefetch_new nan (flat_market s) (deps_of same_ids) = Ok p /\
  prefetch_bump nan (BSpot "BP" (RelativeSpot x)) p None = (Ok true, p', None) /\
  ctx_forward_curve (prefetch_context nan p') stock 15%Z = Ok f /\ forward_at nan f 15%Z = Ok v /\
  md_forward_curve nan (pf_data p') stock 15%Z = Ok g /\ forward_at nan g 15%Z = Ok w /\ v <> w.
Proof.
  intros S X. pose proof (cached nan s rate same_ids (start_zero nan) eq_refl eq_refl) as P.
  set (s1 := apply_spot (RelativeSpot x) s).
  assert (B : prefetch_bump nan (BSpot "BP" (RelativeSpot x)) (cache nan s same_ids rate) None =
    (Ok true, mkPrefetch (pf_data (cache nan s1 same_ids rate)) (deps_of same_ids) [("BP"%string, carried s1 zero 15%Z)] [("BP"%string, flat_vol)], None)).
  { unfold prefetch_bump. rewrite (bump_dispatch nan (BSpot "BP" (RelativeSpot x)) _ _ _ _ (SpotFor "BP") eq_refl).
    unfold refetch_for, known. change (look (pf_data (cache nan s same_ids rate)) (SpotFor "BP")) with (Some (ASpot s)). cbv iota.
    use_refetch (refetch_second nan s1 (carried s rate 15%Z) None None [("BP"%string, flat_vol)]). reflexivity. }
  do 6 eexists. split; [exact P|]. split; [exact B|]. split; [reflexivity|].
  split; [apply carried_at; [lia|apply zero_rt]|]. split; [cbn [pf_data cache]; apply stock_curve, start_zero|].
  split; [apply carried_at; [lia|apply rate_rt]|]. apply exp_differ; [|lra].
  unfold s1. cbn [apply_spot]. rnum. intros Q. apply Rmult_integral in Q. tauto.
Qed.

(** Nothing is saved by a bump of the spot date. *)
Lemma spot_date_unsaved {T} {N : Num T} {TR : Trans T} (nan : T) b (p : prefetch T) s p' save' p'' s'' :
  prefetch_bump nan (BSpotDate b) p (Some s) = (Ok true, p', save') ->
  save' = Some s /\ md_spot_date (pf_data p) <> bsd_date b /\
  (prefetch_restore s'' p' = (Ok tt, p'') -> md_spot_date (pf_data p'') = bsd_date b).
Proof.
  unfold prefetch_bump. destruct s; try discriminate. unfold prefetch_bump_saved.
  destruct (Z.eqb_spec (bsd_date b) (md_spot_date (pf_data p))) as [|D]; [discriminate|].
  unfold md_bump_spot_date. destruct (match bsd_dynamics b with StickyForward => _ | _ => _ end); cbn [bind]; try discriminate.
  unfold refetch_all. cbn [pf_data pf_deps]. destruct (walk_dependencies _ _ _) as [[r f] v]. destruct r; try discriminate. cbn [rmap].
  intros E. inversion E; subst. split; [reflexivity|]. split; [congruence|]. destruct s''; try discriminate. cbn [prefetch_restore pf_data].
  intros Q. inversion Q. reflexivity.
Qed.

(** A portfolio holding an equity. *)
Lemma equity_not_cached nan s : exists sp, self_pricer_new nan [(1, stock)] (flat_market s) = Ok sp /\
  look (pf_data (sp_context sp)) (SpotFor "BP") = Some (ASpot s) /\ get "BP" (pf_forwards (sp_context sp)) = None.
Proof. eexists. repeat split. Qed.
