(** Reports on a portfolio are the sums of the reports on its parts. *)
From Coq Require Import ZArith List String Bool Lia Reals Lra.
From Verif Require Import Prelude Num M_Dates M_Search M_Calendar M_Interp M_Curves M_Fixings M_Forward M_Vol M_Instruments M_Deps M_Risk M_Reports
  S_Data S_Deps S_Risk S_Instruments S_Reports S_Portfolio L_Num L_Fixings L_Forward L_Deps L_Risk L_Prefetch L_PrefetchTop L_Instruments L_Pricing L_Reports
  L_SelfPricer L_SelfReports L_Portfolio L_PortfolioPrices L_PortfolioRisk.
Import ListNotations.
Open Scope list_scope.

Section Split.
  Context {T : Type} {N : Num T}.
  Lemma asks_split (md : market_data T) l1 l2 a : asks_of md (l1 ++ l2) a -> exists a1 a2, a = a1 ++ a2 /\ asks_of md l1 a1 /\ asks_of md l2 a2.
  Proof.
    unfold asks_of. revert a. induction l1 as [|h l1 IH]; intros a A; cbn [app map] in *.
    - exists [], a. split; [reflexivity|]. split; [constructor|exact A].
    - inversion A as [|r rs m m' R RS]; subst. destruct (IH m' RS) as (a1 & a2 & -> & X & Y). exists (m ++ a1), a2.
      split; [apply app_assoc|]. split; [now constructor|exact Y].
  Qed.
  Lemma clear_part (md : market_data T) a1 a : incl a1 a -> dividends_clear md a -> dividends_clear md a1.
  Proof. intros I C u d s X. apply C. now apply I. Qed.
  Lemma part_left (l1 l2 : holdings T) : part_of l1 (l1 ++ l2).
  Proof. intros [w i] I. exists w. apply in_or_app. now left. Qed.
  Lemma part_right (l1 l2 : holdings T) : part_of l2 (l1 ++ l2).
  Proof. intros [w i] I. exists w. apply in_or_app. now right. Qed.
End Split.

Open Scope R_scope.
Section Sums.
  Variables (nan : R) (cdf : R -> R).
  Variables (l1 l2 : holdings R) (md : market_data R) (a : list (ask R)) (sp1 sp2 sp : self_pricer R).
  Hypothesis N1 : self_pricer_new nan l1 md = Ok sp1.
  Hypothesis N2 : self_pricer_new nan l2 md = Ok sp2.
  Hypothesis NW : self_pricer_new nan (l1 ++ l2) md = Ok sp.
  Hypothesis A : asks_of md (l1 ++ l2) a.
  Hypothesis One : one_per_id a.
  Hypothesis Clear : dividends_clear md a.
  Let ops := self_ops nan cdf.

  Lemma sums_at bs bs1 bs2 x1 x2 p' : Forall (fun b => target b <> None) bs -> concerns sp1 bs bs1 -> concerns sp2 bs bs2 ->
    price_after ops bs1 sp1 = Ok x1 -> price_after ops bs2 sp2 = Ok x2 -> bumps_to nan (sp_context sp) p' -> pf_data p' = bumped bs md ->
    self_price nan cdf (mkSelfPricer (l1 ++ l2) p') = Ok (x1 + x2).
  Proof.
    intros TB C1 C2 P1 P2 B D. destruct (asks_split md l1 l2 a A) as (a1 & a2 & E & A1 & A2).
    assert (I1 : incl a1 a) by (rewrite E; apply incl_appl, incl_refl). assert (I2 : incl a2 a) by (rewrite E; apply incl_appr, incl_refl).
    apply self_price_app.
    - exact (part_after nan cdf l1 (l1 ++ l2) md a1 a sp1 sp N1 NW (part_left l1 l2) A1 A One (clear_part md a1 a I1 Clear) bs bs1 x1 p' TB C1 P1 B D).
    - exact (part_after nan cdf l2 (l1 ++ l2) md a2 a sp2 sp N2 NW (part_right l1 l2) A2 A One (clear_part md a2 a I2 Clear) bs bs2 x2 p' TB C2 P2 B D).
  Qed.

  Lemma whole_data : pf_data (sp_context sp) = md /\ sp = mkSelfPricer (l1 ++ l2) (sp_context sp).
  Proof.
    destruct (made nan md (l1 ++ l2) sp NW) as (deps & S & PD & C & P). split; [|exact S].
    destruct (proj1 (new_spec nan md deps _ (deps_tidy _ _ a deps C A One)) P) as (X & _). exact X.
  Qed.

  (** C78: prices add up. *)
  Lemma prices_add x1 x2 : self_price nan cdf sp1 = Ok x1 -> self_price nan cdf sp2 = Ok x2 -> self_price nan cdf sp = Ok (x1 + x2).
  Proof.
    intros P1 P2. destruct whole_data as (D & S). rewrite S. apply (sums_at [] [] []); try assumption; try (now left); constructor.
  Qed.

  Lemma after_adds bs bs1 bs2 x1 x2 x : Forall (fun b => target b <> None) bs -> concerns sp1 bs bs1 -> concerns sp2 bs bs2 ->
    price_after ops bs1 sp1 = Ok x1 -> price_after ops bs2 sp2 = Ok x2 -> price_after ops bs sp = Ok x -> x = x1 + x2.
  Proof.
    intros TB C1 C2 P1 P2 P. destruct whole_data as (D & S). rewrite S in P.
    destruct (price_moved nan cdf bs TB (l1 ++ l2) (sp_context sp) x P) as (p' & B & D' & Q). rewrite D in D'.
    rewrite (sums_at bs bs1 bs2 x1 x2 p' TB C1 C2 P1 P2 B D') in Q. now injection Q as <-.
  Qed.

  (** C78: and so do they after any bumps but of the date. *)
  Lemma bumped_add bs x1 x2 x : Forall (fun b => target b <> None) bs ->
    price_after ops bs sp1 = Ok x1 -> price_after ops bs sp2 = Ok x2 -> price_after ops bs sp = Ok x -> x = x1 + x2.
  Proof. intros TB. apply after_adds; auto; now left. Qed.

  Lemma parts_data l' sp' : self_pricer_new nan l' md = Ok sp' -> (exists a', asks_of md l' a' /\ incl a' a) -> pf_data (sp_context sp') = md /\
    (forall id, In id (keys (col_instruments (pf_deps (sp_context sp')))) -> In id (keys (col_instruments (pf_deps (sp_context sp))))).
  Proof.
    intros NP (a' & A' & I). destruct (made nan md l' sp' NP) as (deps' & S' & PD' & C' & P'). destruct (made nan md (l1 ++ l2) sp NW) as (deps & S & PD & C & P).
    assert (O' : one_per_id a').
    { assert (K : forall u, named u a' -> named u a) by (intros u [X|[(d & X)|(d & X)]]; apply I in X; unfold named; eauto). intros u u' X Y. apply One; auto. }
    split.
    - destruct (proj1 (new_spec nan md deps' _ (deps_tidy _ _ a' deps' C' A' O')) P') as (X & _). exact X.
    - rewrite PD', PD. intros id K. destruct (get id (col_instruments deps')) as [u|] eqn:G; [|now apply get_none_in in G].
      destruct (proj1 (collected_instruments _ _ deps' a' C' A') id u G) as (ID & H).
      assert (H' : In (SpotOf u) a \/ exists d, In (VolOf u d) a) by (destruct H as [H|(d & H)]; [left|right; exists d]; now apply I).
      apply (proj2 (collected_instruments _ _ deps a C A)) in H'. rewrite ID in H'. unfold instrument_by_id in H'.
      destruct (in_dec string_dec id (keys (col_instruments deps))) as [|no]; [assumption|]. apply get_none_in in no. congruence.
  Qed.

  Lemma fas_add x1 x2 y1 y2 u1 u2 s : first_and_second (x1 + x2) (y1 + y2) (u1 + u2) s =
    (fst (first_and_second x1 y1 u1 s) + fst (first_and_second x2 y2 u2 s), snd (first_and_second x1 y1 u1 s) + snd (first_and_second x2 y2 u2 s)).
  Proof. unfold first_and_second. rnum. cbn [fst snd]. unfold Rdiv. f_equal; ring. Qed.
  Lemma fas_flat u s : first_and_second u u u s = (0, 0).
  Proof. unfold first_and_second. rnum. unfold Rdiv. f_equal; ring. Qed.

  (** Reports whose entries come from two lists of bumps of the same share. *)
  Definition entries_from (q : self_pricer R) (u : R) (f g : string -> list (bump R)) (size : string -> R) (m : smap (R * R)) : Prop :=
    (forall id, In id (keys (col_instruments (pf_deps (sp_context q)))) <-> get id m <> None) /\
    forall id e, get id m = Some e -> exists x y, price_after ops (f id) q = Ok x /\ price_after ops (g id) q = Ok y /\ e = first_and_second x y u (size id).

  Lemma entries_add f g size u1 u2 u m1 m2 m :
    (forall id, Forall (fun b => target b = Some (SpotFor id) \/ target b = Some (VolFor id)) (f id ++ g id)) ->
    self_price nan cdf sp1 = Ok u1 -> self_price nan cdf sp2 = Ok u2 -> self_price nan cdf sp = Ok u ->
    entries_from sp1 u1 f g size m1 -> entries_from sp2 u2 f g size m2 -> entries_from sp u f g size m ->
    forall id, entry id m = (fst (entry id m1) + fst (entry id m2), snd (entry id m1) + snd (entry id m2)).
  Proof.
    intros FO U1 U2 U (K1 & E1) (K2 & E2) (K & E) id.
    destruct (asks_split md l1 l2 a A) as (a1 & a2 & EA & A1 & A2).
    assert (I1 : incl a1 a) by (rewrite EA; apply incl_appl, incl_refl). assert (I2 : incl a2 a) by (rewrite EA; apply incl_appr, incl_refl).
    pose proof (proj2 (parts_data l1 sp1 N1 (ex_intro _ a1 (conj A1 I1))) id) as S1. pose proof (proj2 (parts_data l2 sp2 N2 (ex_intro _ a2 (conj A2 I2))) id) as S2.
    specialize (K1 id). specialize (K2 id). specialize (K id). specialize (FO id). apply Forall_app in FO as (FF & FG).
    assert (UU : u = u1 + u2) by (rewrite (prices_add u1 u2 U1 U2) in U; now injection U as <-).
    assert (TF : forall bs, Forall (fun b => target b = Some (SpotFor id) \/ target b = Some (VolFor id)) bs -> Forall (fun b : bump R => target b <> None) bs).
    { intros bs. apply Forall_impl. intros b [->| ->]; discriminate. }
    assert (PART : forall q v k, op_price ops q = Ok v -> (In id (keys (col_instruments (pf_deps (sp_context q)))) <-> get id k <> None) ->
      (forall e, get id k = Some e -> exists x y, price_after ops (f id) q = Ok x /\ price_after ops (g id) q = Ok y /\ e = first_and_second x y v (size id)) ->
      exists x y bx bg, concerns q (f id) bx /\ concerns q (g id) bg /\ price_after ops bx q = Ok x /\ price_after ops bg q = Ok y /\ entry id k = first_and_second x y v (size id)).
    { intros q v k PV KK EE. unfold entry. destruct (get id k) as [e|] eqn:G.
      - destruct (EE e eq_refl) as (x & y & X & Y & ->). exists x, y, (f id), (g id). split; [now left|]. split; [now left|]. auto.
      - exists v, v, [], []. assert (NI : ~ In id (keys (col_instruments (pf_deps (sp_context q))))) by (intros H; now apply KK in H).
        split; [right; split; [reflexivity|]; exists id; auto|]. split; [right; split; [reflexivity|]; exists id; auto|].
        split; [exact PV|]. split; [exact PV|]. now rewrite fas_flat. }
    destruct (get id m) as [e|] eqn:G.
    - destruct (PART sp1 u1 m1 U1 K1 (E1 id)) as (x1 & y1 & bx1 & by1 & CX1 & CY1 & X1 & Y1 & ->).
      destruct (PART sp2 u2 m2 U2 K2 (E2 id)) as (x2 & y2 & bx2 & by2 & CX2 & CY2 & X2 & Y2 & ->).
      rewrite <- fas_add, <- UU. unfold entry. rewrite G. destruct (E id e G) as (x & y & X & Y & ->).
      rewrite (after_adds _ _ _ _ _ _ (TF _ FF) CX1 CX2 X1 X2 X), (after_adds _ _ _ _ _ _ (TF _ FG) CY1 CY2 Y1 Y2 Y). reflexivity.
    - assert (NI : ~ In id (keys (col_instruments (pf_deps (sp_context sp))))) by (intros H; now apply K in H).
      assert (G1 : get id m1 = None) by (destruct (get id m1) eqn:Q; [exfalso; apply NI, S1, K1; congruence|reflexivity]).
      assert (G2 : get id m2 = None) by (destruct (get id m2) eqn:Q; [exfalso; apply NI, S2, K2; congruence|reflexivity]).
      unfold entry. rewrite G, G1, G2. change (@n0 R _) with 0. cbn [fst snd]. f_equal; ring.
  Qed.

  Lemma part_spots l' sp' : self_pricer_new nan l' md = Ok sp' -> (exists a', asks_of md l' a' /\ incl a' a) ->
    forall id s, ctx_spot (op_context ops sp') id = Ok s -> get id (md_spots md) = Some s.
  Proof. intros NP AP id s H. unfold ops in H. cbn in H. rewrite (proj1 (parts_data l' sp' NP AP)) in H. now apply find_ok in H. Qed.

  Let spot_of id := match get id (md_spots md) with Some s => s | None => 0 end.

  Lemma delta_from h l' sp' u r q sv : self_pricer_new nan l' md = Ok sp' -> (exists a', asks_of md l' a' /\ incl a' a) -> self_price nan cdf sp' = Ok u ->
    generate nan ops (DeltaGammaGenerator h) sp' saved_prefetch_new u = (Ok r, q, sv) ->
    exists m, r = DeltaGammaReport h m /\ entries_from sp' u (fun id => [BSpot id (RelativeSpot h)])
      (fun id => [BSpot id (RelativeSpot h); BSpot id (RelativeSpot (nsub (ndiv (nsub n1 h) (nadd n1 h)) n1))]) (fun id => h * spot_of id) m.
  Proof.
    intros NP AP PU E. destruct (delta_entries nan ops _ (self_well_behaved nan cdf) h sp' u r q sv PU E) as (ids & m & RI & -> & ALL & EN).
    exists m. split; [reflexivity|]. unfold reported_ids, ops in RI. cbn in RI. injection RI as <-. split; [exact ALL|]. intros id e G.
    destruct (EN id e G) as (s & x & y & SP & X & Y & ->). exists x, y. split; [exact X|]. split; [exact Y|].
    unfold spot_of. now rewrite (part_spots l' sp' NP AP id s SP).
  Qed.

  Lemma vega_from f l' sp' u r q sv : self_pricer_new nan l' md = Ok sp' -> (exists a', asks_of md l' a' /\ incl a' a) -> self_price nan cdf sp' = Ok u ->
    generate nan ops (VegaVolgaGenerator f) sp' saved_prefetch_new u = (Ok r, q, sv) ->
    exists m, r = VegaVolgaReport (vol_bumpsize nan f) m /\ entries_from sp' u (fun id => [BVol id f])
      (fun id => [BVol id f; BVol id (vol_opposite nan f)]) (fun _ => vol_bumpsize nan f) m.
  Proof.
    intros NP AP PU E. destruct (vega_entries nan ops _ (self_well_behaved nan cdf) f sp' u r q sv PU E) as (ids & m & RI & -> & ALL & EN).
    exists m. split; [reflexivity|]. unfold reported_ids, ops in RI. cbn in RI. injection RI as <-. split; [exact ALL|]. exact EN.
  Qed.

  Lemma both_asked : (exists a', asks_of md l1 a' /\ incl a' a) /\ (exists a', asks_of md l2 a' /\ incl a' a) /\ (exists a', asks_of md (l1 ++ l2) a' /\ incl a' a).
  Proof.
    destruct (asks_split md l1 l2 a A) as (a1 & a2 & E & A1 & A2).
    split; [exists a1; split; [exact A1|rewrite E; apply incl_appl, incl_refl]|]. split; [exists a2; split; [exact A2|rewrite E; apply incl_appr, incl_refl]|].
    exists a. split; [exact A|apply incl_refl].
  Qed.

  (** C78: deltas, gammas, vegas and volgas add up. *)
  Lemma reports_add g u1 u2 u r1 r2 r q1 q2 q v1 v2 v : (exists h, g = DeltaGammaGenerator h) \/ (exists f, g = VegaVolgaGenerator f) ->
    self_price nan cdf sp1 = Ok u1 -> self_price nan cdf sp2 = Ok u2 -> self_price nan cdf sp = Ok u ->
    generate nan ops g sp1 saved_prefetch_new u1 = (Ok r1, q1, v1) -> generate nan ops g sp2 saved_prefetch_new u2 = (Ok r2, q2, v2) ->
    generate nan ops g sp saved_prefetch_new u = (Ok r, q, v) ->
    exists size m1 m2 m, (r1 = DeltaGammaReport size m1 /\ r2 = DeltaGammaReport size m2 /\ r = DeltaGammaReport size m \/
      r1 = VegaVolgaReport size m1 /\ r2 = VegaVolgaReport size m2 /\ r = VegaVolgaReport size m) /\
      forall id, entry id m = (fst (entry id m1) + fst (entry id m2), snd (entry id m1) + snd (entry id m2)).
  Proof.
    intros G U1 U2 U G1 G2 GW. destruct both_asked as (B1 & B2 & B). destruct G as [(h & ->)|(f & ->)].
    - destruct (delta_from h l1 sp1 u1 r1 q1 v1 N1 B1 U1 G1) as (m1 & R1 & E1). destruct (delta_from h l2 sp2 u2 r2 q2 v2 N2 B2 U2 G2) as (m2 & R2 & E2).
      destruct (delta_from h (l1 ++ l2) sp u r q v NW B U GW) as (m & R & E). exists h, m1, m2, m. split; [left; auto|].
      refine (entries_add _ _ _ u1 u2 u m1 m2 m _ U1 U2 U E1 E2 E). intros id. repeat constructor.
    - destruct (vega_from f l1 sp1 u1 r1 q1 v1 N1 B1 U1 G1) as (m1 & R1 & E1). destruct (vega_from f l2 sp2 u2 r2 q2 v2 N2 B2 U2 G2) as (m2 & R2 & E2).
      destruct (vega_from f (l1 ++ l2) sp u r q v NW B U GW) as (m & R & E). exists (vol_bumpsize nan f), m1, m2, m. split; [right; auto|].
      refine (entries_add _ _ _ u1 u2 u m1 m2 m _ U1 U2 U E1 E2 E). intros id. cbn [app]. repeat (constructor; [right; reflexivity|]). constructor.
  Qed.
End Sums.
