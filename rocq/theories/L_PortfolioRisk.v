(** Prices and risks of portfolios add up. *)
From Coq Require Import ZArith List String Bool Lia Reals Lra.
From Verif Require Import Prelude Num M_Dates M_Search M_Calendar M_Interp M_Curves M_Fixings M_Forward M_Vol M_Instruments M_Deps M_Risk M_Reports
  S_Data S_Deps S_Risk S_Instruments S_Reports S_Portfolio L_Num L_Fixings L_Forward L_Deps L_Risk L_Prefetch L_PrefetchTop L_Instruments L_Pricing L_Reports
  L_SelfPricer L_SelfReports L_Portfolio L_PortfolioPrices.
Import ListNotations.
Open Scope list_scope.

Section Parts.
  Context {T : Type} {N : Num T} {TR : Trans T}.
  Variables (nan : T) (cdf : T -> T).
  Implicit Types md : market_data T.
  Implicit Types l : holdings T.
  Implicit Types a : list (ask T).

  Lemma holding_in md l a h x : In h l -> asks_of md l a -> comes_to (md_spot_date md) (WantSpot (snd h)) x -> incl x a.
  Proof.
    unfold asks_of. intros I A C. revert a A. induction l as [|k l IH]; intros a A; [destruct I|]. cbn [map] in A. inversion A as [|r rs m m' R RS]; subst.
    destruct I as [->|I].
    - rewrite (comes_to_one _ _ _ _ C R). apply incl_appl, incl_refl.
    - apply incl_appr. now apply IH.
  Qed.

  Lemma part_incl md l1 l a1 a : part_of l1 l -> asks_of md l1 a1 -> asks_of md l a -> incl a1 a.
  Proof.
    intros P A1 A. unfold asks_of in A1. revert a1 A1. induction l1 as [|h l1 IH]; intros a1 A1; inversion A1 as [|r rs m m' R RS]; subst.
    - intros x [].
    - apply incl_app.
      + destruct (P h ltac:(now left)) as (w & I). exact (holding_in md l a (w, snd h) m I A R).
      + apply IH; [|exact RS]. intros k K. apply P. now right.
  Qed.

  (** Bumps of the dividends keep their dates. *)
  Lemma clear_bumped base s h b : base_clear base s h -> base_clear base (apply_divs (T := T) b s) h.
  Proof.
    destruct b as [z]. cbn [apply_divs]. unfold base_clear, none_on, one_within, reach, stream_bump_all. cbn [dividends last_cash_ex_date].
    generalize (nadd z n1). intros k. intros (O & C). split.
    - clear C. induction (dividends s) as [|d l IH]; cbn in *; [exact I|]. destruct O as (O1 & O2). split; [|auto].
      intros e E. apply in_map_iff in E as (e' & <- & E). cbn. auto.
    - destruct C as [C|(d & I & C)]; [left|right].
      + intros d I. apply in_map_iff in I as (d' & <- & I). cbn. auto.
      + exists (bump_dividend k d). split; [now apply in_map|]. cbn [bump_dividend ex_date]. destruct (dividends s); [destruct I|exact C].
  Qed.

  Lemma clear_after b md a : dividends_clear md a -> dividends_clear (bumped_md b md) a.
  Proof.
    intros C u d s I G. rewrite bumped_date. destruct b as [i f|i f|i f|i f|i f|f]; unfold bumped_md in G; cbn [md_bump_saved] in G;
      try (match type of G with context [apply_bump ?x ?y ?z ?w] => destruct (apply_bump x y z w) as [[? ?] ?] eqn:AB end; cbn [fst snd md_divs] in G); try exact (C u d s I G).
    unfold apply_bump in AB. destruct (get i (md_divs md)) as [sg|] eqn:GI; injection AB as <- <- <-; [|exact (C u d s I G)].
    destruct (String.eqb_spec i (instrument_id u)) as [->|ne].
    - rewrite get_put_same in G. injection G as <-. apply clear_bumped. exact (C u d sg I GI).
    - rewrite get_put_other in G by congruence. exact (C u d s I G).
  Qed.

  Definition bumped (bs : list (bump T)) md : market_data T := fold_left (fun m b => bumped_md b m) bs md.

  Lemma bumped_clear bs : forall md a, dividends_clear md a -> dividends_clear (bumped bs md) a.
  Proof. induction bs as [|b bs IH]; intros md a C; [exact C|]. apply IH. now apply clear_after. Qed.
  Lemma bumped_same_date bs : forall md, md_spot_date (bumped bs md) = md_spot_date md.
  Proof. induction bs as [|b bs IH]; intros md; [reflexivity|]. cbn [bumped fold_left]. change (md_spot_date (bumped bs (bumped_md b md)) = md_spot_date md). rewrite IH. apply bumped_date. Qed.
  Lemma bumped_elsewhere d bs : Forall (fun b => exists t, target b = Some t /\ t <> d) bs -> forall md, look (bumped bs md) d = look md d.
  Proof.
    intros F. induction F as [|b bs (t & TB & ne) F IH]; intros md; [reflexivity|].
    change (look (bumped bs (bumped_md b md)) d = look md d). rewrite IH. apply (bumped_other b md t); auto.
  Qed.
  Lemma bumped_yields bs : Forall (fun b => exists t, target b = Some t /\ forall cr, t <> YieldFor cr) bs -> forall md, md_yields (bumped bs md) = md_yields md.
  Proof.
    intros F. induction F as [|b bs (t & TB & ne) F IH]; intros md; [reflexivity|].
    change (md_yields (bumped bs (bumped_md b md)) = md_yields md). rewrite IH. destruct b as [i f|i f|i f|i f|i f|f]; unfold bumped_md; cbn [md_bump_saved];
      try (match goal with |- context [apply_bump ?x ?y ?z ?w] => destruct (apply_bump x y z w) as [[? ?] ?] end; reflexivity); try reflexivity.
    cbn in TB. injection TB as <-. now contradiction (ne i).
  Qed.

  (** Bumped pricers. *)
  Lemma price_moved bs : Forall (fun b => target b <> None) bs -> forall ins p x, price_after (self_ops nan cdf) bs (mkSelfPricer ins p) = Ok x ->
    exists p', bumps_to nan p p' /\ pf_data p' = bumped bs (pf_data p) /\ self_price nan cdf (mkSelfPricer ins p') = Ok x.
  Proof.
    intros F. induction F as [|b bs TB F IH]; intros ins p x E; cbn [price_after] in E.
    - exists p. split; [constructor|]. split; [reflexivity|exact E].
    - cbn [self_ops op_bump] in E. unfold self_bump in E. cbn [sp_context sp_instruments] in E.
      destruct (prefetch_bump nan b p None) as [[r p1] s1] eqn:B. destruct r as [r| |]; try discriminate.
      destruct (IH ins p1 x E) as (p' & B' & D & P). exists p'. split; [econstructor; eassumption|]. split; [|exact P].
      rewrite D. destruct (target b) as [t|] eqn:TT; [|congruence]. now rewrite (proj2 (bump_outcome nan b p None r p1 s1 t TT B)).
  Qed.

  (** What forwards are asked of has a surface, and so an entry in the reports. *)
  Lemma forward_vol today i x : declares today i x -> forall u d, In (ForwardOf u d) x -> exists d', In (VolOf u d') x.
  Proof.
    assert (OA : forall (v : vanilla T) own, (forall u d, In (ForwardOf u d) own -> exists d', In (VolOf u d') own) ->
      forall u d, In (ForwardOf u d) (option_asks v own) -> exists d', In (VolOf u d') (option_asks v own)).
    { intros v own K u d I. unfold option_asks, its_forward in *. set (U := van_underlying v) in *. rewrite !in_app_iff in I. cbn [In] in I.
      destruct I as [[I|[I|[]]]|[[[I|[I|[]]]|[I|I]]|[I|[]]]]; try discriminate.
      - injection I as <- <-. exists (dt_date (van_expiry v)). rewrite !in_app_iff. cbn [In]. auto 10.
      - destruct (K u d I) as (d' & K'). exists d'. rewrite !in_app_iff. auto 10.
      - unfold its_spot in I. destruct (has_a_spot U); [destruct I as [I|[]]; discriminate|destruct I]. }
    intros D. induction D using declares_mut with (P0 := fun ms x _ => forall u d, In (ForwardOf u d) x -> exists d', In (VolOf u d') x);
      intros u' d' I; try (cbn in I; destruct I as [I|[]]; discriminate); try contradiction.
    - eauto.
    - eapply OA; eauto.
    - destruct I as [I|I]; [discriminate|]. destruct (OA v l IHD u' d' I) as (d2 & K). exists d2. now right.
    - rewrite in_app_iff in I. destruct I as [I|I].
      + assert (J : In (ForwardOf u' d') l).
        { destruct (has_a_spot u); [|exact I]. rewrite !in_app_iff in I. destruct I as [I|[I|I]]; auto. cbn in I. destruct I as [I|[]]. discriminate. }
        destruct (IHD u' d' J) as (d2 & K). exists d2. rewrite in_app_iff. left. destruct (has_a_spot u); [rewrite in_app_iff|]; auto.
      + destruct (IHD0 u' d' I) as (d2 & K). exists d2. rewrite in_app_iff. auto.
  Qed.

  Lemma share_asked today i x id : declares today i x -> share_in id i -> exists u, instrument_id u = id /\ In (SpotOf u) (x ++ its_spot i).
  Proof.
    assert (OA : forall (v : vanilla T) own, (exists u, instrument_id u = id /\ In (SpotOf u) (own ++ its_spot (van_underlying v))) ->
      exists u, instrument_id u = id /\ In (SpotOf u) (option_asks v own)).
    { intros v own (u & ID & I). exists u. split; [exact ID|]. unfold option_asks, its_forward. rewrite in_app_iff in I. rewrite !in_app_iff. tauto. }
    intros D. induction D using declares_mut with (P0 := fun ms x _ => forall w u, In (w, u) ms -> share_in id u -> exists u', instrument_id u' = id /\ In (SpotOf u') x);
      try (intros S; inversion S; subst; fail).
    - intros S. inversion S; subst. eexists. split; [|apply in_or_app; right; now left]. reflexivity.
    - intros S. inversion S; subst. edestruct IHD as (u' & ID & I'); [eassumption|eassumption|]. exists u'. split; [exact ID|]. apply in_or_app. now left.
    - intros S. inversion S; subst. destruct (OA v l) as (u' & ID & I'); [auto|]. exists u'. split; [exact ID|]. apply in_or_app. now left.
    - intros S. inversion S; subst. destruct (OA v l) as (u' & ID & I'); [auto|]. exists u'. split; [exact ID|]. apply in_or_app. left. now right.
    - intros w u [].
    - intros w' u' [E|I] S.
      + injection E as <- <-. destruct (IHD S) as (u2 & ID & I2). exists u2. split; [exact ID|]. apply in_or_app. left.
        unfold its_spot in I2. destruct (has_a_spot u); [rewrite !in_app_iff in *; tauto|now rewrite app_nil_r in I2].
      + destruct (IHD0 w' u' I S) as (u2 & ID & I2). exists u2. split; [exact ID|]. apply in_or_app. now right.
  Qed.

  Lemma asks_declare md l a h : asks_of md l a -> In h l -> exists x, declares (md_spot_date md) (snd h) x /\ incl (x ++ its_spot (snd h)) a.
  Proof.
    intros A I. pose proof A as A0. unfold asks_of in A. revert a A A0. induction l as [|k l IH]; intros a A A0; [destruct I|]. cbn [map] in A.
    inversion A as [|r rs m m' R RS]; subst. destruct I as [->|I].
    - inversion R; subst. exists l0. split; [assumption|]. apply incl_appl, incl_refl.
    - destruct (IH I m' RS RS) as (x & D & K). exists x. split; [exact D|]. now apply incl_appr.
  Qed.

  Lemma asks_vol md l a u d : asks_of md l a -> In (ForwardOf u d) a -> exists d', In (VolOf u d') a.
  Proof.
    unfold asks_of. revert a. induction l as [|h l IH]; intros a A I; inversion A as [|r rs m m' R RS]; subst; [destruct I|].
    rewrite in_app_iff in I. destruct I as [I|I].
    - inversion R; subst. rewrite in_app_iff in I. destruct I as [I|I].
      + destruct (forward_vol _ _ _ ltac:(eassumption) u d I) as (d' & K). exists d'. rewrite !in_app_iff. auto.
      + unfold its_spot in I. destruct (has_a_spot (snd h)); [destruct I as [I|[]]; discriminate|destruct I].
    - destruct (IH m' RS I) as (d' & K). exists d'. rewrite in_app_iff. auto.
  Qed.

  (** The bumps that concern a part: all of them, or none if they are of a share it has nothing to do with. *)
  Definition concerns (sp : self_pricer T) (bs bs1 : list (bump T)) : Prop :=
    bs1 = bs \/ bs1 = [] /\ exists id, ~ In id (keys (col_instruments (pf_deps (sp_context sp)))) /\
      Forall (fun b => target b = Some (SpotFor id) \/ target b = Some (VolFor id)) bs.

  Section Part.
    Variables (l1 l : holdings T) (md : market_data T) (a1 a : list (ask T)) (sp1 sp : self_pricer T).
    Hypothesis N1 : self_pricer_new nan l1 md = Ok sp1.
    Hypothesis NW : self_pricer_new nan l md = Ok sp.
    Hypothesis Part : part_of l1 l.
    Hypothesis A1 : asks_of md l1 a1.
    Hypothesis A : asks_of md l a.
    Hypothesis One : one_per_id a.
    Hypothesis Clear : dividends_clear md a1.

    Lemma made l' sp' : self_pricer_new nan l' md = Ok sp' -> exists deps, sp' = mkSelfPricer l' (sp_context sp') /\ pf_deps (sp_context sp') = deps /\
      collect_all (md_spot_date md) (map (fun h => WantSpot (snd h)) l') = Ok deps /\ prefetch_new nan md deps = Ok (sp_context sp').
    Proof.
      unfold self_pricer_new. intros E. apply bind_ok in E as (deps & DE & E). apply bind_ok in E as (p & PE & E). injection E as <-.
      rewrite portfolio_collects in DE. exists deps. cbn [sp_context]. split; [reflexivity|]. split; [|auto].
      unfold prefetch_new in PE. destruct (walk_dependencies nan md deps) as [[r F] V]. apply bind_ok in PE as (? & _ & PE). now injection PE as <-.
    Qed.

    Lemma part_after bs bs1 x1 p' : Forall (fun b => target b <> None) bs -> concerns sp1 bs bs1 ->
      price_after (self_ops nan cdf) bs1 sp1 = Ok x1 -> bumps_to nan (sp_context sp) p' -> pf_data p' = bumped bs md ->
      self_price nan cdf (mkSelfPricer l1 p') = Ok x1.
    Proof.
      intros TB CC E B DP. destruct (made l1 sp1 N1) as (deps1 & S1 & PD1 & C1 & P1). destruct (made l sp NW) as (deps & S & PD & C & P).
      assert (I1 : incl a1 a) by exact (part_incl md l1 l a1 a Part A1 A).
      assert (O1 : one_per_id a1).
      { assert (K : forall u, named u a1 -> named u a) by (intros u [X|[(d & X)|(d & X)]]; apply I1 in X; unfold named; eauto). intros u u' X Y. apply One; auto. }
      assert (TB1 : Forall (fun b => target b <> None) bs1) by (destruct CC as [->|(-> & _)]; [exact TB|constructor]).
      rewrite S1 in E. destruct (price_moved bs1 TB1 l1 (sp_context sp1) x1 E) as (p1 & B1 & DP1 & SP1).
      assert (D0 : pf_data (sp_context sp1) = md) by (destruct (proj1 (new_spec nan md deps1 _ (deps_tidy _ _ a1 deps1 C1 A1 O1)) P1) as (X & _); exact X).
      rewrite D0 in DP1.
      assert (F1 : prefetch_new nan (bumped bs1 md) deps1 = Ok p1).
      { rewrite <- DP1. exact (cache_fresh nan _ _ a1 deps1 C1 A1 O1 md (sp_context sp1) p1 P1 B1). }
      assert (F : prefetch_new nan (bumped bs md) deps = Ok p').
      { rewrite <- DP. exact (cache_fresh nan _ _ a deps C A One md (sp_context sp) p' P B). }
      (* what the part looks at is the same *)
      assert (SM : md_yields (bumped bs1 md) = md_yields (bumped bs md) /\
        forall id, (bs1 = bs \/ In id (keys (col_instruments deps1))) -> look (bumped bs md) (SpotFor id) = look (bumped bs1 md) (SpotFor id) /\
          look (bumped bs md) (DivsFor id) = look (bumped bs1 md) (DivsFor id) /\ look (bumped bs md) (BorrowFor id) = look (bumped bs1 md) (BorrowFor id) /\
          look (bumped bs md) (VolFor id) = look (bumped bs1 md) (VolFor id)).
      { destruct CC as [->|(-> & id0 & NI & FO)]; [split; [reflexivity|intros; repeat split; reflexivity]|]. cbn [bumped fold_left]. rewrite PD1 in NI.
        rewrite bumped_yields by (eapply Forall_impl; [|exact FO]; cbn; intros b [->| ->]; eexists; (split; [reflexivity|discriminate])).
        split; [reflexivity|]. intros id [Q|K].
        - subst bs. repeat split; reflexivity.
        - assert (ne : id0 <> id) by congruence.
          repeat split; apply bumped_elsewhere; (eapply Forall_impl; [|exact FO]); cbn; intros b [->| ->]; eexists; (split; [reflexivity|congruence]). }
      destruct SM as (SY & SM).
      assert (IN : forall u, named u a1 -> In (instrument_id u) (keys (col_instruments deps1))).
      { intros u NU. assert (X : In (SpotOf u) a1 \/ exists d, In (VolOf u d) a1).
        { destruct NU as [X|[(d & X)|X]]; [now left|right; exact (asks_vol md l1 a1 u d A1 X)|now right]. }
        apply (proj2 (collected_instruments _ _ deps1 a1 C1 A1)) in X. unfold instrument_by_id in X.
        destruct (in_dec string_dec (instrument_id u) (keys (col_instruments deps1))) as [|no]; [assumption|]. apply get_none_in in no. congruence. }
      assert (CA : carries nan (prefetch_context nan p1) (prefetch_context nan p')).
      { apply (caches_carry nan cdf (md_spot_date md) _ _ a1 a deps1 deps (bumped bs1 md) (bumped bs md) p1 p' C1 A1 C A I1 One).
        - now rewrite !bumped_same_date.
        - exact SY.
        - intros u d I. destruct (SM (instrument_id u) (or_intror (IN u (or_intror (or_introl (ex_intro _ d I)))))) as (X1 & X2 & X3 & X4).
          split; [|exact X4]. unfold inputs. rewrite X1, X2, X3. f_equal. cbn [look]. now rewrite SY.
        - now apply bumped_clear.
        - exact F1.
        - exact F. }
      unfold self_price in SP1 |- *. cbn [sp_context sp_instruments] in SP1 |- *. set (c1 := prefetch_context nan p1) in *. set (c := prefetch_context nan p') in *.
      assert (PK : forall h dt y, In h l1 -> price nan cdf c1 (snd h) dt = Ok y -> price nan cdf c (snd h) dt = Ok y).
      { intros h dt y I Y. unfold price, first_price in *. inv_bind Y. erewrite prices_kept; [| exact CA | |exact E0]; [exact Y|].
        intros id s SH G. destruct (asks_declare md l1 a1 h A1 I) as (x & DX & IX). destruct (share_asked _ _ _ id DX SH) as (u & ID & IU).
        assert (K : In id (keys (col_instruments deps1))) by (rewrite <- ID; apply IN; left; now apply IX).
        destruct (SM id (or_intror K)) as (X1 & _). unfold c1, c in *. cbn [prefetch_context ctx_spot md_context] in *. rewrite DP1 in G. rewrite DP.
        cbn [look] in X1. unfold find_data in *. destruct (get id (md_spots (bumped bs1 md))); [|discriminate].
        destruct (get id (md_spots (bumped bs md))); [|discriminate X1]. injection X1 as ->. exact G. }
      rewrite <- (ca_date nan c1 c CA). revert SP1. generalize (@n0 T _). clear - PK. revert PK.
      induction l1 as [|h l1' IH]; intros PK z E; [exact E|]. cbn [foldM] in *. inv_bind E. inv_bind E0.
      rewrite (PK h _ _ ltac:(now left) E1). cbn [bind]. injection E0 as <-. cbn [bind]. apply IH; [|exact E]. intros k dt y I. apply PK. now right.
    Qed.

    (** C78: every price the part's pricer gives, the whole's gives. *)
    Lemma part_prices i dates ps : prices nan cdf (prefetch_context nan (sp_context sp1)) i dates = Ok ps ->
      prices nan cdf (prefetch_context nan (sp_context sp)) i dates = Ok ps.
    Proof.
      destruct (made l1 sp1 N1) as (deps1 & S1 & PD1 & C1 & P1). destruct (made l sp NW) as (deps & S & PD & C & P).
      assert (I1 : incl a1 a) by exact (part_incl md l1 l a1 a Part A1 A).
      assert (O1 : one_per_id a1).
      { assert (K : forall u, named u a1 -> named u a) by (intros u [X|[(d & X)|(d & X)]]; apply I1 in X; unfold named; eauto). intros u u' X Y. apply One; auto. }
      assert (D1 : pf_data (sp_context sp1) = md) by (destruct (proj1 (new_spec nan md deps1 _ (deps_tidy _ _ a1 deps1 C1 A1 O1)) P1) as (X & _); exact X).
      assert (D : pf_data (sp_context sp) = md) by (destruct (proj1 (new_spec nan md deps _ (deps_tidy _ _ a deps C A One)) P) as (X & _); exact X).
      apply prices_kept.
      - apply (caches_carry nan cdf (md_spot_date md) _ _ a1 a deps1 deps md md _ _ C1 A1 C A I1 One); try reflexivity; auto.
      - intros id s _. cbn [prefetch_context ctx_spot md_context]. now rewrite D1, D.
    Qed.
  End Part.
End Parts.
