(** Reports of the self-pricer: samples, quadratics, time bumps, sums. *)
From Coq Require Import ZArith List String Bool Lia Reals Lra.
From Verif Require Import Prelude Num M_Dates M_Calendar M_Curves M_Fixings M_Forward M_Vol M_Instruments M_Deps M_Risk M_Reports
  S_Data S_Instruments S_Risk S_Reports L_Num L_Fixings L_Vol L_Risk L_Prefetch L_Reports L_SelfPricer.
Import ListNotations.
Open Scope list_scope.
Open Scope R_scope.

Section AnyArithmetic.
  Context {T : Type} {N : Num T} {TR : Trans T}.
  Variable nan : T.

  Section Spots.
  Variable cdf : T -> T.
  Notation ops := (self_ops nan cdf).
  Notation price_with_spot := (S_Reports.price_with_spot ops).

  Lemma same_spot id f g (md : market_data T) s : get id (md_spots md) = Some s -> apply_spot f s = apply_spot g s ->
    bumped_md (BSpot id f) md = bumped_md (BSpot id g) md.
  Proof. intros G E. unfold bumped_md. cbn [md_bump_saved]. rewrite !(apply_bump_known _ _ _ _ _ G). now rewrite E. Qed.

  Lemma spot_twice id f g (md : market_data T) s : get id (md_spots md) = Some s ->
    bumped_md (BSpot id g) (bumped_md (BSpot id f) md) = bumped_md (BSpot id (ReplaceSpot (apply_spot g (apply_spot f s)))) md.
  Proof.
    intros G. unfold bumped_md. cbn [md_bump_saved]. rewrite !(apply_bump_known _ _ _ _ _ G). cbn [fst snd md_spots md_spot_date md_yields md_borrows md_divs md_vols].
    rewrite (apply_bump_known _ _ (put id (apply_spot f s) (md_spots md)) (apply_spot f s)) by apply get_put_same.
    cbn [fst snd md_spots md_spot_date md_yields md_borrows md_divs md_vols apply_spot]. rewrite put_put. reflexivity.
  Qed.

  Lemma spot_known id (p : prefetch T) s : get id (md_spots (pf_data p)) = Some s -> known (pf_data p) (SpotFor id) = true.
  Proof. intros G. unfold known. cbn [look]. now rewrite G. Qed.

  (** One bump does what replacing the spot does. *)
  Lemma relative_replaces id f sp s : get id (md_spots (pf_data (sp_context sp))) = Some s ->
    price_after ops [BSpot id f] sp = price_with_spot id (apply_spot f s) sp.
  Proof.
    intros G. unfold S_Reports.price_with_spot. cbn [price_after op_bump self_ops self_bump]. unfold self_bump, prefetch_bump.
    rewrite !(bump_dispatch nan (BSpot id _) _ _ _ _ (SpotFor id) eq_refl).
    rewrite (same_spot id f (ReplaceSpot (apply_spot f s)) _ s G) by reflexivity. reflexivity.
  Qed.

  Lemma refetch_ok id (p : prefetch T) r p' sf sv : refetch nan id true false None None p = (Ok r, p', sf, sv) ->
    exists F u h F1, get id (pf_forwards p) = Some F /\ instrument_by_id id (pf_deps p) = Some u /\ forward_curve_hwm u (pf_deps p) = Some h /\
      md_forward_curve nan (pf_data p) u h = Ok F1 /\ p' = mkPrefetch (pf_data p) (pf_deps p) (put id F1 (pf_forwards p)) (pf_vols p).
  Proof.
    unfold refetch. cbn [negb andb]. destruct (get id (pf_forwards p)) as [F|] eqn:Q1; [|discriminate].
    destruct (instrument_by_id id (pf_deps p)) as [u|] eqn:Q2; [|discriminate].
    destruct (forward_curve_hwm u (pf_deps p)) as [h|] eqn:Q3; [|discriminate].
    destruct (md_forward_curve nan (pf_data p) u h) as [F1|m|m] eqn:FC; [|discriminate|discriminate].
    unfold refetch_vol. intros E. inversion E; subst. exists F, u, h, F1. repeat split; auto.
  Qed.

  (** So do two. *)
  Lemma two_replace id f g sp s x : get id (md_spots (pf_data (sp_context sp))) = Some s ->
    price_after ops [BSpot id f] sp = Ok x ->
    price_after ops [BSpot id f; BSpot id g] sp = price_with_spot id (apply_spot g (apply_spot f s)) sp.
  Proof.
    intros G. unfold S_Reports.price_with_spot. cbn [price_after op_bump self_ops]. unfold self_bump, prefetch_bump.
    set (p := sp_context sp) in *. rewrite !(bump_dispatch nan (BSpot id _) p _ _ _ (SpotFor id) eq_refl). rewrite (spot_known _ _ _ G).
    cbn [refetch_for]. destruct (refetch nan id true false None None (mkPrefetch (bumped_md (BSpot id f) (pf_data p)) _ _ _)) as [[[r1 p1] f1] v1] eqn:R1.
    destruct r1 as [r1|m|m]; [|discriminate|discriminate]. apply refetch_ok in R1 as (F & u & h & F1 & GF & IU & HW & FC & ->).
    cbn [pf_data pf_deps pf_forwards pf_vols] in *. intros _. cbn [sp_context sp_instruments].
    rewrite !(bump_dispatch nan (BSpot id _) (mkPrefetch _ _ _ _) _ _ _ (SpotFor id) eq_refl). cbn [pf_data pf_deps pf_forwards pf_vols].
    assert (K : known (bumped_md (BSpot id f) (pf_data p)) (SpotFor id) = true).
    { unfold known. rewrite (bumped_target (BSpot id f) _ (SpotFor id) (ASpot s) eq_refl); [reflexivity|]. cbn [look]. now rewrite G. }
    rewrite K. rewrite (spot_twice id f g _ s G). cbn [refetch_for]. unfold refetch, refetch_vol. cbn [negb andb pf_forwards pf_deps pf_vols pf_data].
    rewrite get_put_same, IU, HW, GF. destruct (md_forward_curve nan (bumped_md (BSpot id (ReplaceSpot _)) (pf_data p)) u h) as [F2|m|m]; try reflexivity.
    cbn [sp_context sp_instruments]. rewrite put_put. reflexivity.
  Qed.

  Lemma find_ok {A} id (m : smap A) item x : find_data id m item = Ok x <-> get id m = Some x.
  Proof. unfold find_data. destruct (get id m); split; intros E; try discriminate; now injection E as ->. Qed.

  (** C45: the entries of a delta and gamma report, with the roundings of the arithmetic. *)
  Lemma delta_exact h sp u r sp' sv' : self_price nan cdf sp = Ok u ->
    generate nan ops (DeltaGammaGenerator h) sp saved_prefetch_new u = (Ok r, sp', sv') ->
    exists m, r = DeltaGammaReport h m /\
    (forall id, In id (keys (col_instruments (pf_deps (sp_context sp)))) <-> get id m <> None) /\
    forall id e, get id m = Some e -> exists s x y, let up := nmul s (nadd n1 h) in
      look (pf_data (sp_context sp)) (SpotFor id) = Some (ASpot s) /\
      price_with_spot id up sp = Ok x /\
      price_with_spot id (nmul up (nadd n1 (nsub (ndiv (nsub n1 h) (nadd n1 h)) n1))) sp = Ok y /\
      e = (ndiv (nsub x y) (nmul (nofZ 2) (nmul h s)), ndiv (nsub (nadd x y) (nmul (nofZ 2) u)) (nmul (nmul h s) (nmul h s))).
  Proof.
    intros PU E. destruct (delta_entries nan ops _ (self_well_behaved nan cdf) h sp u r sp' sv' PU E) as (ids & m & RI & -> & ALL & EN).
    exists m. split; [reflexivity|]. unfold reported_ids in RI. cbn in RI. injection RI as <-. split; [exact ALL|]. intros id e G.
    destruct (EN id e G) as (s & x & y & SP & A & B & ->). exists s, x, y.
    cbn [op_context self_ops ctx_spot prefetch_context md_context] in SP. apply find_ok in SP.
    split; [cbn [look]; now rewrite SP|].
    assert (A' := A). rewrite (relative_replaces _ _ _ _ SP) in A'. cbn [apply_spot] in A'. split; [exact A'|].
    rewrite (two_replace _ _ _ _ _ _ SP A) in B. cbn [apply_spot] in B. split; [exact B|reflexivity].
  Qed.
  End Spots.

  (** C47: the fixings that have passed. *)
  Lemma window_spec bt (c : pricing_context T) f : ((ctx_spot_date c <=? dt_date f) && (dt_date f <? bsd_date (bt_spot_date_bump bt)))%Z = true <-> in_window bt c f.
  Proof. unfold in_window. rewrite andb_true_iff, Z.leb_le, Z.ltb_lt. reflexivity. Qed.

  Notation window bt c := (filter (fun f => ((ctx_spot_date c <=? dt_date f) && (dt_date f <? bsd_date (bt_spot_date_bump bt)))%Z)).

  Lemma passed_spec bt c deps id u fs : passed_fixings nan bt c deps id u = Ok fs ->
    map fst fs = window bt c (fixings_of id deps) /\ forall f v, In (f, v) fs <-> In f (fixings_of id deps) /\ in_window bt c f /\ fixes_at nan bt c id u f v.
  Proof.
    unfold passed_fixings. intros E. apply mapM_forall2 in E.
    assert (V : forall f fv, (let* value := match bsd_dynamics (bt_spot_date_bump bt) with
                          | StickyForward => let* curve := ctx_forward_curve c u (bsd_date (bt_spot_date_bump bt)) in forward_at nan curve (dt_date f)
                          | StickySpot => ctx_spot c id
                          end in Ok (f, value)) = Ok fv <-> fst fv = f /\ fixes_at nan bt c id u f (snd fv)).
    { intros f [f' v]. cbn [fst snd]. unfold fixes_at. destruct (bsd_dynamics (bt_spot_date_bump bt)).
      - destruct (ctx_spot c id); cbn [bind]; split; [intros Q; injection Q as <- <-; auto|intros [-> Q]; now injection Q as ->|discriminate|intros [_ Q]; discriminate|discriminate|intros [_ Q]; discriminate].
      - destruct (ctx_forward_curve c u _) as [fwd|m|m]; cbn [bind].
        + destruct (forward_at nan fwd (dt_date f)) as [w|m|m] eqn:FA; cbn [bind]; split.
          * intros Q; injection Q as <- <-. eauto.
          * intros [-> (fw & Q1 & Q2)]. injection Q1 as <-. rewrite FA in Q2. now injection Q2 as ->.
          * discriminate.
          * intros [_ (fw & Q1 & Q2)]. injection Q1 as <-. congruence.
          * discriminate.
          * intros [_ (fw & Q1 & Q2)]. injection Q1 as <-. congruence.
        + split; [discriminate|]. intros [_ (fw & Q1 & _)]. discriminate.
        + split; [discriminate|]. intros [_ (fw & Q1 & _)]. discriminate. }
    assert (IN : forall f, In f (window bt c (fixings_of id deps)) <-> In f (fixings_of id deps) /\ in_window bt c f).
    { intros f. rewrite filter_In, window_spec. reflexivity. }
    split.
    - clear IN. induction E as [|f [f' v] l fs Q _ IH]; cbn [map fst]; [reflexivity|]. apply V in Q as [Q _]. cbn [fst] in Q. subst f'. now rewrite IH.
    - intros f v. rewrite <- and_assoc, <- IN. clear IN. induction E as [|f0 [f' v'] l fs Q _ IH]; cbn [In]; [tauto|].
      apply V in Q. cbn [fst snd] in Q. destruct Q as [-> Q]. rewrite IH. split.
      + intros [X|[X Y]]; [injection X as -> ->; auto|auto].
      + intros [[->|X] Y]; [|auto]. left. f_equal. unfold fixes_at in Q, Y. destruct (bsd_dynamics (bt_spot_date_bump bt)).
        * congruence.
        * destruct Q as (w1 & A1 & A2), Y as (w2 & B1 & B2). congruence.
  Qed.

  Lemma fixing_map_spec bt c deps ins : forall m, fixing_map nan bt c deps ins = Ok m ->
    (forall id f v, supplied m id f v <-> exists u, In (id, u) ins /\ In f (fixings_of id deps) /\ in_window bt c f /\ fixes_at nan bt c id u f v) /\
    (forall id u, In (id, u) ins -> window bt c (fixings_of id deps) <> [] -> exists fs, In (id, fs) m /\ map fst fs = window bt c (fixings_of id deps)) /\
    (forall id fs, In (id, fs) m -> fs <> []).
  Proof.
    induction ins as [|[id u] ins IH]; cbn [fixing_map]; intros m E.
    - injection E as <-. split; [|split; [intros ? ? []|intros ? ? []]]. intros id f v. split; [intros (fs & [] & _)|intros (u & [] & _)].
    - inv_bind E. rename E0 into EP. inv_bind E. destruct (passed_spec bt c deps id u a EP) as [MF PS]. destruct (IH _ E0) as (S & W & NE).
      injection E as <-. assert (SUP : forall id' f v, supplied ((match a with [] => a0 | _ :: _ => (id, a) :: a0 end)) id' f v <-> (id' = id /\ In (f, v) a) \/ supplied a0 id' f v).
      { intros id' f v. destruct a as [|x a]; [cbn [In]; tauto|]. unfold supplied. cbn [In]. split.
        - intros (fs & [Q|Q] & I); [injection Q as -> <-; auto|]. right. eauto.
        - intros [[-> I]|(fs & Q & I)]; eauto. }
      split; [|split].
      + intros id' f v. rewrite SUP, PS, S. split.
        * intros [[-> Q]|(u' & Q & R)]; [exists u; cbn; tauto|exists u'; cbn; tauto].
        * intros (u' & [Q|Q] & R); [injection Q as <- <-; tauto|right; eauto].
      + intros id' u' [Q|Q] NW.
        * injection Q as <- <-. exists a. split; [|exact MF]. destruct a; [|now left]. cbn in MF. congruence.
        * destruct (W id' u' Q NW) as (fs & I & MM). exists fs. split; [|exact MM]. destruct a; [exact I|now right].
      + intros id' fs I. destruct a as [|x a]; [now apply NE in I|]. destruct I as [Q|I]; [injection Q as _ <-; discriminate|now apply NE in I].
  Qed.

  Lemma update_spec bt ins c deps changed ins' : update_instruments nan bt ins c deps = Ok (changed, ins') ->
    (changed = false -> ins' = ins) /\
    ((changed = false /\ forall id u f, In (id, u) (col_instruments deps) -> In f (fixings_of id deps) -> ~ in_window bt c f) \/
     exists t, known_until t = bsd_date (bt_spot_date_bump bt) /\
       (forall id f v, get_optional t id f = Some v <->
          exists u, In (id, u) (col_instruments deps) /\ In f (fixings_of id deps) /\ in_window bt c f /\ fixes_at nan bt c id u f v) /\
       fix_all ins t = Ok (if changed then Some ins' else None)).
  Proof.
    unfold update_instruments. intros E. inv_bind E. destruct (fixing_map_spec _ _ _ _ _ E0) as (S & W & NE).
    destruct a as [|x a].
    - injection E as <- <-. split; [auto|]. left. split; [reflexivity|]. intros id u f I1 I2 IW.
      destruct (W id u I1) as (fs & [] & _). intros Q. assert (X : In f (window bt c (fixings_of id deps))) by (apply filter_In; split; [exact I2|now apply window_spec]). now rewrite Q in X.
    - inv_bind E. rename a0 into t. inv_bind E. injection E as E.
      assert (KU : known_until t = bsd_date (bt_spot_date_bump bt)).
      { clear -E1. unfold from_fixings in E1. revert E1. assert (G : forall l t0, foldM table_add t0 l = Ok t -> known_until t = known_until t0).
        { induction l as [|[k fs] l IH]; cbn [foldM]; intros t0 Q; [now injection Q as ->|]. inv_bind Q. apply IH in Q. rewrite Q.
          unfold table_add in E. inv_bind E. unfold table_insert in E. destruct (get _ _); [discriminate|]. now injection E as <-. }
        intros Q. now apply G in Q. }
      assert (OPT := from_fixings_ok _ _ _ E1).
      split; [destruct a0; injection E as <- <-; [discriminate|auto]|]. right. exists t. split; [exact KU|]. split.
      + intros id f v. rewrite OPT, S. reflexivity.
      + rewrite E2. destruct a0; injection E as <- <-; reflexivity.
  Qed.

  Lemma nothing_passed bt ins c deps : (forall id u f, In (id, u) (col_instruments deps) -> In f (fixings_of id deps) -> ~ in_window bt c f) ->
    update_instruments nan bt ins c deps = Ok (false, ins).
  Proof.
    intros NW. unfold update_instruments. assert (M : forall l, (forall x, In x l -> In x (col_instruments deps)) -> fixing_map nan bt c deps l = Ok []).
    { induction l as [|[id u] l IH]; cbn [fixing_map]; intros I; [reflexivity|].
      assert (FE : window bt c (fixings_of id deps) = []).
      { destruct (window bt c (fixings_of id deps)) as [|f w] eqn:Q; [reflexivity|]. exfalso.
        assert (X : In f (window bt c (fixings_of id deps))) by (rewrite Q; now left). apply filter_In in X as [X Y]. apply window_spec in Y. apply (NW id u f); auto. apply I. now left. }
      unfold passed_fixings. cbv zeta. rewrite FE. cbn [mapM bind]. rewrite IH by (intros y Y; apply I; now right). reflexivity. }
    rewrite M by auto. reflexivity.
  Qed.

  Lemma repeated_fails bt ins c deps id u l1 l2 l3 f : In (id, u) (col_instruments deps) -> in_window bt c f ->
    fixings_of id deps = l1 ++ f :: l2 ++ f :: l3 -> forall r, update_instruments nan bt ins c deps <> Ok r.
  Proof.
    intros I IW Q r E. unfold update_instruments in E. inv_bind E. destruct (fixing_map_spec _ _ _ _ _ E0) as (_ & W & _).
    assert (X : window bt c (fixings_of id deps) = window bt c l1 ++ f :: window bt c l2 ++ f :: window bt c l3).
    { rewrite Q. rewrite filter_app. cbn [filter]. apply window_spec in IW. rewrite IW, filter_app. cbn [filter]. now rewrite IW. }
    destruct (W id u I) as (fs & IN & MF). { rewrite X. destruct (window bt c l1); discriminate. }
    destruct a as [|y a]; [destruct IN|]. inv_bind E.
    assert (ND : no_duplicates (y :: a)) by (apply (from_fixings_iff (bsd_date (bt_spot_date_bump bt))); eauto). destruct ND as [_ ND]. specialize (ND _ _ IN). rewrite MF, X in ND.
    apply NoDup_remove_2 in ND. apply ND. apply in_or_app. right. apply in_or_app. right. now left.
  Qed.

  Lemma date_moved b p save r p' save' : prefetch_bump nan (BSpotDate b) p save = (Ok r, p', save') ->
    md_spot_date (pf_data p') = bsd_date b /\ md_yields (pf_data p') = md_yields (pf_data p) /\ md_borrows (pf_data p') = md_borrows (pf_data p) /\
    md_divs (pf_data p') = md_divs (pf_data p) /\ md_vols (pf_data p') = md_vols (pf_data p) /\ keys (md_spots (pf_data p')) = keys (md_spots (pf_data p)) /\
    (r = false -> p' = p) /\
    (bsd_dynamics b = StickySpot -> md_spots (pf_data p') = md_spots (pf_data p)) /\
    (bsd_dynamics b = StickyForward -> r = true -> forall id s', In (id, s') (md_spots (pf_data p')) ->
       match instrument_by_id id (pf_deps p) with
       | Some u => exists fwd, md_forward_curve nan (pf_data p) u (bsd_date b) = Ok fwd /\ forward_at nan fwd (bsd_date b) = Ok s'
       | None => In (id, s') (md_spots (pf_data p))
       end).
  Proof.
    assert (X : forall sd sf sv sd' sf' sv', prefetch_bump_saved nan (BSpotDate b) p sd sf sv = (Ok r, p', sd', sf', sv') ->
      (r = false /\ p' = p /\ bsd_date b = md_spot_date (pf_data p)) \/
      (r = true /\ md_bump_spot_date nan (pf_data p) b (pf_deps p) = Ok (pf_data p'))).
    { intros sd sf sv sd' sf' sv'. unfold prefetch_bump_saved. destruct (Z.eqb_spec (bsd_date b) (md_spot_date (pf_data p))).
      - intros E. inversion E; subst. auto.
      - destruct (md_bump_spot_date nan (pf_data p) b (pf_deps p)) as [md'|m|m]; try discriminate. unfold refetch_all. cbn [pf_data pf_deps].
        destruct (walk_dependencies _ _ _) as [[[]  fw] vo]; try discriminate. cbn [rmap]. intros E. inversion E; subst. auto. }
    intros E. assert (Y : (r = false /\ p' = p /\ bsd_date b = md_spot_date (pf_data p)) \/
      (r = true /\ md_bump_spot_date nan (pf_data p) b (pf_deps p) = Ok (pf_data p'))).
    { destruct save as [[x|x y z|x y]|]; try discriminate E; unfold prefetch_bump in E;
        (match type of E with context [prefetch_bump_saved ?a ?b ?c ?d ?e ?f] => destruct (prefetch_bump_saved a b c d e f) as [[[[r1 p1] sd1] sf1] sv1] eqn:Q end);
        injection E as -> -> _; eapply X; exact Q. }
    clear E X. destruct Y as [(-> & -> & D)|(-> & M)].
    - repeat split; auto; try discriminate.
    - unfold md_bump_spot_date in M. inv_bind M. injection M as M. rewrite <- M. cbn [md_spot_date md_yields md_borrows md_divs md_vols md_spots].
      destruct (bsd_dynamics b).
      + injection E as <-. repeat split; auto; try discriminate.
      + unfold sticky_forward_spots in E. apply mapM_forall2 in E. repeat split; try discriminate.
        * clear M. induction E as [|[k s] [k' s'] l l' Q _ IH]; [reflexivity|]. unfold keys. cbn [map fst]. f_equal; [|exact IH].
          cbn [fst] in Q. destruct (instrument_by_id k (pf_deps p)).
          { inv_bind Q. inv_bind Q. now injection Q as <- _. }
          now injection Q as <- _.
        * intros _ _ id s' I. clear M. induction E as [|[k s] [k' s0] l l' Q _ IH]; [destruct I|]. destruct I as [I|I].
          { injection I as -> ->. cbn [fst] in Q. destruct (instrument_by_id k (pf_deps p)) as [u|] eqn:IU.
            - inv_bind Q. inv_bind Q. injection Q as <- <-. rewrite IU. eauto.
            - injection Q as <- <-. rewrite IU. now left. }
          { specialize (IH I). destruct (instrument_by_id id (pf_deps p)); [exact IH|now right]. }
  Qed.

  Lemma time_bumped bt sp sp' : self_bump_time nan bt sp = (Ok tt, sp') ->
    exists changed ins' r pf' save', let c := prefetch_context nan (sp_context sp) in
      update_instruments nan bt (sp_instruments sp) c (pf_deps (sp_context sp)) = Ok (changed, ins') /\
      prefetch_bump nan (BSpotDate (bt_spot_date_bump bt)) (sp_context sp) None = (Ok r, pf', save') /\
      (if changed then self_pricer_new nan ins' (pf_data pf') = Ok sp' else sp' = mkSelfPricer (sp_instruments sp) pf').
  Proof.
    unfold self_bump_time, apply_time_bump. cbn [bind]. destruct (update_instruments _ _ _ _ _) as [[changed ins']|m|m] eqn:U; try discriminate.
    destruct (prefetch_bump nan _ (sp_context sp) None) as [[r pf'] save'] eqn:B. destruct r as [r|m|m]; cbn [rmap]; try discriminate.
    destruct (update_spec _ _ _ _ _ _ U) as [NC _].
    destruct changed.
    - destruct (self_pricer_new nan ins' (pf_data pf')) as [sp''|m|m] eqn:Q; try discriminate. intros E. injection E as <-.
      exists true, ins', r, pf', save'. auto.
    - intros E. injection E as <-. rewrite (NC eq_refl) in *. exists false, (sp_instruments sp), r, pf', save'. auto.
  Qed.
End AnyArithmetic.

Section Reports.
  Variable nan : R.
  Variable cdf : R -> R.
  Notation ops := (self_ops nan cdf).

  Notation price_with_spot := (S_Reports.price_with_spot ops).

  (** C45: the entries of a delta and gamma report. *)
  Lemma delta_samples h sp u r sp' sv' : h <> 0 -> 1 + h <> 0 -> self_price nan cdf sp = Ok u ->
    generate nan ops (DeltaGammaGenerator h) sp saved_prefetch_new u = (Ok r, sp', sv') ->
    exists m, r = DeltaGammaReport h m /\
    (forall id, In id (keys (col_instruments (pf_deps (sp_context sp)))) <-> get id m <> None) /\
    forall id e, get id m = Some e -> exists s x y,
      look (pf_data (sp_context sp)) (SpotFor id) = Some (ASpot s) /\
      price_with_spot id (s * (1 + h)) sp = Ok x /\ price_with_spot id (s * (1 - h)) sp = Ok y /\
      (s <> 0 -> e = ((x - y) / (2 * (h * s)), (x + y - 2 * u) / ((h * s) * (h * s)))).
  Proof.
    intros H0 H1 PU E. destruct (delta_exact nan cdf h sp u r sp' sv' PU E) as (m & -> & ALL & EN).
    exists m. split; [reflexivity|]. split; [exact ALL|]. intros id e G. destruct (EN id e G) as (s & x & y & L & A & B & ->). exists s, x, y.
    split; [exact L|]. split; [exact A|].
    match type of B with price_with_spot _ ?z _ = _ => replace z with (s * (1 - h)) in B end.
    2: { rnum. field. lra. }
    split; [exact B|]. intros _. reflexivity.
  Qed.

  (** C31: up and then the opposite is down. *)
  Lemma spot_opposite id h sp s x : 1 + h <> 0 -> look (pf_data (sp_context sp)) (SpotFor id) = Some (ASpot s) ->
    price_after ops [BSpot id (RelativeSpot h)] sp = Ok x ->
    price_after ops [BSpot id (RelativeSpot h); BSpot id (RelativeSpot ((1 - h) / (1 + h) - 1))] sp = price_with_spot id (s * (1 - h)) sp.
  Proof.
    intros H L A. cbn [look] in L. destruct (get id (md_spots (pf_data (sp_context sp)))) as [s'|] eqn:G; [|discriminate]. injection L as ->.
    rewrite (two_replace nan cdf id _ (RelativeSpot ((1 - h) / (1 + h) - 1)) sp s x G A). f_equal. cbn [apply_spot]. rnum. field. exact H.
  Qed.

  Lemma delta_quadratic h sp u r sp' sv' a b c id s : h <> 0 -> 1 + h <> 0 -> s <> 0 ->
    self_price nan cdf sp = Ok (a + b * s + c * (s * s)) -> u = a + b * s + c * (s * s) ->
    look (pf_data (sp_context sp)) (SpotFor id) = Some (ASpot s) ->
    (forall x, Rabs (x - s) <= Rabs (h * s) -> price_with_spot id x sp = Ok (a + b * x + c * (x * x))) ->
    generate nan ops (DeltaGammaGenerator h) sp saved_prefetch_new u = (Ok r, sp', sv') ->
    In id (keys (col_instruments (pf_deps (sp_context sp)))) ->
    exists m, r = DeltaGammaReport h m /\ get id m = Some (b + 2 * c * s, 2 * c).
  Proof.
    intros H0 H1 S0 PU -> L Q E I. destruct (delta_samples h sp _ r sp' sv' H0 H1 PU E) as (m & -> & ALL & EN).
    exists m. split; [reflexivity|]. apply ALL in I. destruct (get id m) as [e|] eqn:G; [|congruence].
    destruct (EN id e G) as (s' & x & y & L' & A & B & Z). rewrite L in L'. injection L' as <-. 
    rewrite Q in A by (replace (s * (1 + h) - s) with (h * s) by ring; lra).
    rewrite Q in B by (replace (s * (1 - h) - s) with (- (h * s)) by ring; rewrite Rabs_Ropp; lra). injection A as <-. injection B as <-.
    rewrite (Z S0). f_equal. f_equal; field; auto.
  Qed.

  (** C31: the vega of a price linear in volatility. *)
  Lemma vega_linear {P} (o : pricer_ops R P) new f b p a k r p' sv' id : well_behaved o new -> b <> 0 -> 1 + b <> 0 ->
    f = FlatAdditive b -> op_price o p = Ok a ->
    price_after o [BVol id f] p = Ok (a + k * b) ->
    (forall y, price_after o [BVol id f; BVol id (FlatAdditive y)] p = Ok (a + k * (b + y))) ->
    generate nan o (VegaVolgaGenerator f) p new a = (Ok r, p', sv') ->
    (exists ids, reported_ids o p = Ok ids /\ In id ids) ->
    exists m, r = VegaVolgaReport b m /\ get id m = Some (k / (1 + b), 2 * k / (1 + b)).
  Proof.
    intros WB B0 B1 -> PA UP DOWN E (ids & RI & I). destruct (vega_entries nan o new WB _ p a r p' sv' PA E) as (ids' & m & RI' & -> & ALL & EN).
    rewrite RI in RI'. injection RI' as <-. exists m. split; [reflexivity|]. apply ALL in I. destruct (get id m) as [e|] eqn:G; [|congruence].
    destruct (EN id e G) as (x & y & A & B & ->). rewrite UP in A. injection A as <-. cbn [vol_opposite vol_bumpsize] in *. rewrite DOWN in B. injection B as <-.
    unfold first_and_second. rnum. f_equal. f_equal; field; auto.
  Qed.

  (** C43: delta reports need a forward for every spot. *)
  Lemma delta_fails h sp u id s r sp' sv' : In id (keys (col_instruments (pf_deps (sp_context sp)))) ->
    look (pf_data (sp_context sp)) (SpotFor id) = Some (ASpot s) -> get id (pf_forwards (sp_context sp)) = None ->
    generate nan ops (DeltaGammaGenerator h) sp saved_prefetch_new u <> (Ok r, sp', sv').
  Proof.
    intros I L G E. cbn [generate op_dependencies self_ops] in E. destruct (delta_loop _ _ _ _ _ _ _) as [[[x|m|m] p1] s1] eqn:D; try discriminate.
    destruct (not_cached_bumped nan (BSpot id (RelativeSpot h)) (SpotFor id) id (sp_context sp) (Some saved_prefetch_new) _ Logic.I eq_refl L (or_introl eq_refl) G) as (m & q & s2 & B & _).
    apply (delta_needs_bumps ops _ (self_well_behaved nan cdf) h u _ id m _ _ _ _ _ D I). cbn [op_bump self_ops]. unfold self_bump. now rewrite B.
  Qed.

  (** C35: the price of a portfolio. *)
  Definition priced_at (sp : self_pricer R) (i : instrument R) (v : R) : Prop :=
    price nan cdf (prefetch_context nan (sp_context sp)) i (mkDT (md_spot_date (pf_data (sp_context sp))) Open_) = Ok v.

  Lemma sum_shift c d l : forall t x, foldM (fun total (h : R * instrument R) => let* v := price nan cdf c (snd h) d in Ok (total + fst h * v)) t l = Ok x <->
    adds_up (fun i v => price nan cdf c i d = Ok v) l (x - t).
  Proof.
    induction l as [|[w i] l IH]; intros t x; cbn [foldM].
    - split.
      + intros E. injection E as ->. replace (x - x) with 0 by ring. constructor.
      + intros A. inversion A. f_equal. lra.
    - cbn [fst snd]. destruct (price nan cdf c i d) as [v|m|m] eqn:PV; cbn [bind].
      + rewrite IH. split.
        * intros A. replace (x - t) with (w * v + (x - (t + w * v))) by ring. now constructor.
        * intros A. inversion A as [|w' i' l' x' y' V A' Q1 Q2]; subst. rewrite PV in V. injection V as <-.
          replace (x - (t + w * v)) with y' by lra. exact A'.
      + split; [discriminate|]. intros A. inversion A; subst. congruence.
      + split; [discriminate|]. intros A. inversion A; subst. congruence.
  Qed.

  Lemma self_price_sum sp x : self_price nan cdf sp = Ok x <-> adds_up (priced_at sp) (sp_instruments sp) x.
  Proof.
    unfold self_price. change (@n0 R _) with 0. rewrite (sum_shift _ _ _ 0 x). replace (x - 0) with x by ring. reflexivity.
  Qed.

  Lemma adds_up_app {I} (val : I -> R -> Prop) l l' x y : adds_up val l x -> adds_up val l' y -> adds_up val (l ++ l') (x + y).
  Proof.
    intros A B. induction A as [|w i l a z V A IH]; cbn [app].
    - now replace (0 + y) with y by ring.
    - replace (w * a + z + y) with (w * a + (z + y)) by ring. now constructor.
  Qed.

  Lemma self_price_app l l' pf x y : self_price nan cdf (mkSelfPricer l pf) = Ok x -> self_price nan cdf (mkSelfPricer l' pf) = Ok y ->
    self_price nan cdf (mkSelfPricer (l ++ l') pf) = Ok (x + y).
  Proof. rewrite !self_price_sum. apply adds_up_app. Qed.

End Reports.
