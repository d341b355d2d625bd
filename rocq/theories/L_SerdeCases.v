(** Proofs: controls, tags, leaks; worked cases. *)
From Coq Require Import ZArith List String Bool Lia Reals Lra.
From Verif Require Import Prelude Num M_Dates M_Calendar M_Interp M_Curves M_Fixings M_Forward M_Vol M_Black76 M_Instruments
  M_Risk M_Reports M_Schema M_Serde M_Objects S_Serde S_Objects L_Dates L_Fixings L_Instruments L_Serde L_Objects L_Market L_RoundTrip L_Once
  L_Num M_Search S_Calendar S_Vol L_Vol L_VolTime L_VolPillars L_VolCases L_Search L_Interp L_InterpCases.
Import ListNotations.
Open Scope string_scope.
Open Scope list_scope.

(** ** Tags *)

Lemma tags_distinct tr : NoDup (keys (registry tr)).
Proof. destruct tr; distinct. Qed.

Lemma tags_known tr tag t : tr <> TrVolSurface -> In (tag, t) (written tr) ->
  get tag (registry tr) = Some t /\ read_type_id tr tag = Some tag.
Proof.
  intros H I. unfold written in I. replace (match tr with TrVolSurface => _ | _ => _ end) with (@nil (string * ty)) in I
    by (destruct tr; congruence).
  rewrite app_nil_r in I. split; [apply get_in_nodup; [apply tags_distinct | exact I]|]. destruct tr; try reflexivity. contradiction.
Qed.

Lemma tags_unknown tr tag : In tag (keys (written tr)) -> get tag (registry tr) = None ->
  tr = TrVolSurface /\ (tag = "VolByProbabilityFlatSmile" \/ tag = "StickyDeltaBumpVol").
Proof.
  intros I G. apply get_none in G. unfold written, keys in *. rewrite map_app in I. apply in_app_or in I.
  destruct I as [I|I]; [contradiction|]. destruct tr; cbn [map In fst] in I; try contradiction.
  split; [reflexivity|]. intuition.
Qed.

Section Controls.
  Context {T : Type} {N : Num T} {TR : Trans T}.
  Variable finite : T -> bool.
  Variable nan : T.

  Lemma slice_known (l : list (val T)) id : contains id (dedup_map_from_slice l) = true <-> In id (map id_of l).
  Proof.
    split; [|apply slice_contains]. unfold contains. destruct (get id (dedup_map_from_slice l)) as [v|] eqn:G; [|discriminate].
    intros _. apply slice_get in G. destruct G as [I <-]. apply in_map, I.
  Qed.

  (** ** Each object once *)
  Lemma full_once_ext k (K K' : string -> Prop) ms : (forall id, K id <-> K' id) -> full_once k K ms -> full_once k K' ms.
  Proof. intros E H b m a Em Hk. rewrite <- E. apply (H b m a Em Hk). Qed.

  Lemma instruments_once i cd cs is s j s' : storable finite i ->
    instrument_to_json finite i cd cs WriteOnce is s = (Ok j, s') ->
    full_once ShInstrument (fun id => In id (map instrument_id is)) (mentions j (TShared ShInstrument)).
  Proof.
    intros H E. unfold instrument_to_json in E.
    apply with_dedup_inv in E. destruct E as (s1 & E & ->).
    apply with_dedup_inv in E. destruct E as (s2 & E & ->). rewrite nested_inside in E.
    destruct (suits_instrument finite i H) as [C L].
    apply (full_once_ext _ (fun id => contains id (dedup_map_from_slice (map val_of_instrument is)) = true)).
    - intros id. rewrite slice_known, map_map. rewrite (map_ext _ instrument_id) by apply id_of_instrument. tauto.
    - exact (written_once ShInstrument finite (TShared ShInstrument) (val_of_rc_instrument i)
               (mkTls (mkDedup cd (dedup_map_from_slice (map val_of_currency cs)))
                      (mkDedup WriteOnce (dedup_map_from_slice (map val_of_instrument is)))) j s2 (conj eq_refl C) eq_refl E).
  Qed.
  Lemma currencies_once i cs ic is s j s' : storable finite i ->
    instrument_to_json finite i WriteOnce cs ic is s = (Ok j, s') ->
    full_once ShCurrency (fun id => In id (map cur_id cs)) (mentions j (TShared ShInstrument)).
  Proof.
    intros H E. unfold instrument_to_json in E.
    apply with_dedup_inv in E. destruct E as (s1 & E & ->).
    apply with_dedup_inv in E. destruct E as (s2 & E & ->). rewrite nested_inside in E.
    destruct (suits_instrument finite i H) as [C L].
    apply (full_once_ext _ (fun id => contains id (dedup_map_from_slice (map val_of_currency cs)) = true)).
    - intros id. rewrite slice_known, map_map. rewrite (map_ext _ cur_id) by apply id_of_currency. tauto.
    - exact (written_once ShCurrency finite (TShared ShInstrument) (val_of_rc_instrument i)
               (mkTls (mkDedup WriteOnce (dedup_map_from_slice (map val_of_currency cs)))
                      (mkDedup ic (dedup_map_from_slice (map val_of_instrument is)))) j s2 (conj eq_refl C) eq_refl E).
  Qed.

  (** ** What is missing *)
  Lemma instrument_missing i cd cs is s : ~ In (instrument_id i) (map instrument_id is) ->
    instrument_to_json finite i cd cs ErrorIfMissing is s = (Err "Unknown id", s).
  Proof.
    intros H. unfold instrument_to_json, with_dedup. rewrite nested_inside.
    cbn [write val_of_rc_instrument]. unfold serialize_with_dedup. cbn [slot tls_instrument dd_control dd_map].
    rewrite id_of_instrument.
    destruct (contains (instrument_id i) (dedup_map_from_slice (map val_of_instrument is))) eqn:E.
    - exfalso. apply H. apply slice_known in E. rewrite map_map in E.
      rewrite (map_ext _ instrument_id) in E by apply id_of_instrument. exact E.
    - destruct s; reflexivity.
  Qed.
  Lemma instrument_by_id i cd cs is s : In (instrument_id i) (map instrument_id is) ->
    instrument_to_json finite i cd cs ErrorIfMissing is s = (Ok (JStr (instrument_id i)), s).
  Proof.
    intros H. unfold instrument_to_json, with_dedup. rewrite nested_inside.
    cbn [write val_of_rc_instrument]. unfold serialize_with_dedup. cbn [slot tls_instrument dd_control dd_map].
    rewrite id_of_instrument, slice_contains.
    - destruct s; reflexivity.
    - rewrite map_map. rewrite (map_ext _ instrument_id) by apply id_of_instrument. exact H.
  Qed.

  (** A reference is whatever the table has under that id. *)
  Lemma currency_reference id (s : tls T) c : get id (dd_map (slot ShCurrency s)) = Some (val_of_currency c) ->
    fst (currency_from_json (JStr id) s) = Ok c.
  Proof.
    intros G. unfold currency_from_json, bind_act. cbn [read]. unfold deserialize_with_dedup, bind_act, from_id.
    destruct (dd_control (slot ShCurrency s)); rewrite G; cbn [ret lift fst rc_currency_of_val]; rewrite back_currency; reflexivity.
  Qed.
  Lemma currency_no_reference id (s : tls T) : get id (dd_map (slot ShCurrency s)) = None ->
    exists e, currency_from_json (JStr id) s = (Err e, s).
  Proof.
    intros G. unfold currency_from_json, bind_act. cbn [read]. unfold deserialize_with_dedup, bind_act, from_id.
    destruct (dd_control (slot ShCurrency s)); rewrite G; eexists; reflexivity.
  Qed.

  (** ** Leaks *)

  Lemma with_restores {A} k d (f : act T A) s r s' : with_dedup k d f s = (r, s') -> (forall m, r <> Panic m) ->
    slot k s' = slot k s.
  Proof.
    unfold with_dedup. destruct (f (set_slot k d s)) as [[x|e|e] s1]; intros H NP; injection H as <- <-;
      [apply slot_set_same | apply slot_set_same | exfalso; exact (NP _ eq_refl)].
  Qed.

  Lemma nested_restores {A} ds (f : act T A) : forall s r s', nested ds f s = (r, s') -> (forall m, r <> Panic m) ->
    forall k, In k (map fst ds) -> slot k s' = slot k s.
  Proof.
    induction ds as [|[k0 d] ds IH]; intros s r s' E NP k I; [destruct I|]. cbn [nested] in E.
    destruct (shared_dec k k0) as [->|ne]; [exact (with_restores k0 d _ s r s' E NP)|].
    destruct I as [E'|I]; [cbn in E'; congruence|].
    unfold with_dedup in E. destruct (nested ds f (set_slot k0 d s)) as [x s1] eqn:F.
    assert (Er : x = r /\ s' = set_slot k0 (slot k0 s) s1).
    { destruct x; injection E as <- <-; auto. exfalso. exact (NP _ eq_refl). }
    destruct Er as [-> ->]. rewrite slot_set_other by exact ne.
    rewrite (IH _ _ _ F NP k I). apply slot_set_other, ne.
  Qed.

  Lemma with_panics {A} k d (f : act T A) s m s' : f (set_slot k d s) = (Panic m, s') -> with_dedup k d f s = (Panic m, s').
  Proof. unfold with_dedup. intros ->. reflexivity. Qed.

  Lemma instrument_state j cd cs ic is s r s' : instrument_from_json j cd cs ic is s = (r, s') ->
    (forall m, r <> Panic m) -> s' = s.
  Proof.
    unfold instrument_from_json. intros E NP.
    set (ccy := mkDedup cd (dedup_map_from_slice (map val_of_currency cs))) in *.
    set (opt := mkDedup ic (dedup_map_from_slice (map val_of_instrument is))) in *.
    unfold bind_act in E.
    destruct (with_dedup ShCurrency ccy (with_dedup ShInstrument opt (read j (TShared ShInstrument))) s) as [x s1] eqn:F.
    assert (s1 = s' /\ forall m, x <> Panic m) as [-> NP'].
    { destruct x; cbv [lift] in E; injection E as <- <-; split; try reflexivity; try discriminate.
      exfalso. exact (NP _ eq_refl). }
    pose proof (nested_restores [(ShCurrency, ccy); (ShInstrument, opt)] (read j (TShared ShInstrument)) s x s' F NP') as R.
    pose proof (R ShCurrency (or_introl eq_refl)) as Rc. pose proof (R ShInstrument (or_intror (or_introl eq_refl))) as Ri.
    destruct s, s'. cbn in Rc, Ri. congruence.
  Qed.

  (** ** Tags *)

  Lemma unknown_tag tr tag (j : json T) s : get tag (registry tr) = None ->
    read (JObj [(tag, j)]) (TTagged tr) s = (Err "Unknown tag", s).
  Proof. intros G. cbn [read]. rewrite G. reflexivity. Qed.

  Lemma write_tagged tr tag u s j s' : write finite (VTagged tr (Some tag) u) s = (Ok j, s') ->
    exists j', j = JObj [(tag, j')].
  Proof. cbn [write]. intros E. inv_act E. injection E as <- <-. eauto. Qed.

  Lemma plain_written (v : val T) s : sharing v = [] -> named v -> exists j, write finite v s = (Ok j, s).
  Proof.
    intros S Nm. destruct (writes_all finite v s Nm) as (j & s' & E & _); [rewrite S; intros ? ? []|].
    pose proof (write_plain finite v S s) as W. rewrite E in W. cbn [snd] in W. subst. eauto.
  Qed.

  Lemma sharing_vol (v : vol_surface T) : sharing (val_of_vol v) = [].
  Proof.
    assert (P : forall X (f : X -> val T) lx rx l, (forall x, sharing (f x) = []) -> sharing (val_of_points f lx rx l) = []).
    { intros X f lx rx l H. unfold val_of_points. cbn [sharing flat_map app]. rewrite flat_map_nil; [reflexivity|].
      intros v' I. apply in_map_iff in I. destruct I as ([x y] & <- & _). cbn [sharing flat_map]. rewrite H. reflexivity. }
    induction v as [vol cal base|p|b IH x base|b IH x base|b IH x|b IH x f|b IH fwd]; cbn [val_of_vol sharing flat_map];
      rewrite ?IH, ?sharing_calendar; try reflexivity.
    rewrite flat_map_nil.
    - unfold val_of_linear. rewrite !P by reflexivity. reflexivity.
    - intros v' I. apply in_map_iff in I. destruct I as ([d m] & <- & _).
      destruct m; cbn [val_of_smile]; cbn [sharing flat_map app]; [reflexivity|]. rewrite P by reflexivity. reflexivity.
  Qed.

  Lemma flat_unreadable (p : vol_by_probability T) s : (forall d m, In (d, m) (vbp_smiles p) -> exists v, m = FlatSmile v) ->
    exists j, write finite (val_of_vol (VolByProbability p)) s = (Ok j, s) /\
      forall s', exists e, read j (TTagged TrVolSurface) s' = (Err e, s').
  Proof.
    intros S. assert (F : forallb (fun m => is_flat_smile (snd m)) (vbp_smiles p) = true).
    { apply forallb_forall. intros [d m] I. destruct (S d m I) as (v & ->). reflexivity. }
    destruct (plain_written (val_of_vol (VolByProbability p)) s (sharing_vol _) (named_vol _)) as (j & E).
    exists j. split; [exact E|]. intros s'. cbn [val_of_vol] in E. rewrite F in E.
    apply write_tagged in E. destruct E as (j' & ->). eexists. apply unknown_tag. reflexivity.
  Qed.
  Lemma sticky_unreadable b f s : exists j, write finite (val_of_vol (StickyDeltaBumpVol b f)) s = (Ok j, s) /\
      forall s', exists e, read j (TTagged TrVolSurface) s' = (Err e, s').
  Proof.
    destruct (plain_written (val_of_vol (StickyDeltaBumpVol b f)) s (sharing_vol _) (named_vol _)) as (j & E).
    exists j. split; [exact E|]. intros s'. cbn [val_of_vol] in E.
    apply write_tagged in E. destruct E as (j' & ->). eexists. apply unknown_tag. reflexivity.
  Qed.

  Lemma spline_once p s : storable_vol finite nan (VolByProbability p) ->
    exists j v s', write finite (val_of_vol (VolByProbability p)) s = (Ok j, s) /\
      read j (TTagged TrVolSurface) s = (Ok v, s') /\ vol_of_val nan v = Ok (VolByProbability p) /\
      forall r, exists m, write finite v r = (Panic m, r).
  Proof.
    intros H. destruct (stored_vol finite nan _ H) as [C S].
    destruct (plain_round_trip finite (TTagged TrVolSurface) _ s C S (named_vol _)) as (j & r & W & R & _).
    exists j, (loaded (val_of_vol (VolByProbability p))), r. split; [exact W|]. split; [exact R|].
    split; [exact (back_vol finite nan _ H)|]. intros r'.
    destruct H as (Hs & _ & _ & _ & _ & E). cbn [val_of_vol]. rewrite (not_all_flat finite nan p Hs E).
    cbn [loaded write]. eexists. reflexivity.
  Qed.

  (** ** Numbers JSON does not have *)
  Lemma nonfinite_unreadable x s : finite x = false ->
    exists j, write finite (VVec [val_of_report (DeltaGammaReport x [])]) s = (Ok j, s) /\
      exists e, reports_from_json j s = (Err e, s).
  Proof.
    intros F. eexists. split.
    - cbn [write each val_of_report val_of_map map]. unfold bind_act, ret. rewrite F. reflexivity.
    - eexists. unfold reports_from_json, bind_act. cbn. reflexivity.
  Qed.
End Controls.

(** ** Worked cases *)

Section Cases.
  Context {T : Type} {N : Num T} {TR : Trans T}.
  Variable one : T.

  (** Day 43457 counted as in C01 is 2087-05-16. *)
  Definition sterling : currency T := mkCurrency "GBP" (BusinessDays (Holidays "London" [43457%Z]) 2 true).
  Definition bp : instrument T := IEquity "BP.L" "OPT" sterling (BusinessDays Weekday 2 false).
  Definition pair_of (i i' : instrument T) : instrument T :=
    IBasket "PAIR" "OPT" sterling NullRule [(one, i); (one, i')].

  Lemma pair_storable finite : fin finite one -> storable finite (pair_of bp bp).
  Proof.
    intros F. cbn [storable pair_of bp sterling storable_currency cur_settlement storable_rule storable_calendar].
    repeat split; try exact F; try lia; repeat constructor; cbn; lia.
  Qed.

  Lemma pair_identified : identified cur_id (currencies_in (pair_of bp bp)) [sterling] /\
                          identified instrument_id (parts (pair_of bp bp)) [bp].
  Proof.
    split; intros a b Ia Ib E; cbn [currencies_in parts pair_of bp flat_map app In] in Ia, Ib.
    - repeat (destruct Ia as [<-|Ia]; [repeat (destruct Ib as [<-|Ib]; [reflexivity|]); contradiction|]). contradiction.
    - repeat (destruct Ia as [<-|Ia];
        [repeat (destruct Ib as [<-|Ib]; [first [reflexivity | discriminate E]|]); contradiction|]). contradiction.
  Qed.

  Definition json_mentions (r : res (json T)) : list mention :=
    match r with Ok j => mentions j (TShared ShInstrument) | _ => [] end.

  Lemma pair_mentions : json_mentions (fst (instrument_to_json (fun _ => true) (pair_of bp bp) WriteOnce [] WriteOnce [] tls_initial)) =
    [mkMention ShInstrument "PAIR" true; mkMention ShCurrency "GBP" true; mkMention ShInstrument "BP.L" true;
     mkMention ShCurrency "GBP" false; mkMention ShInstrument "BP.L" false].
  Proof. reflexivity. Qed.

  (** Two different equities with the same id. *)
  Definition bp' : instrument T := IEquity "BP.L" "OTHER" sterling NullRule.
  Lemma pair_confused : match fst (instrument_to_json (fun _ => true) (pair_of bp bp') WriteOnce [] WriteOnce [] tls_initial) with
                        | Ok j => fst (instrument_from_json j WriteOnce [] WriteOnce [] tls_initial) = Ok (pair_of bp bp)
                        | _ => False
                        end.
  Proof. reflexivity. Qed.

  (** A payment date of "1970" in a bond, read with a currency supplied. *)
  Definition broken_bond : json T := JObj [("ZeroCoupon", JObj [("payment_date", JStr "1970")])].
  Lemma bond_panics : exists m, instrument_from_json broken_bond ErrorIfMissing [sterling] Inline [] tls_initial =
    (Panic m, mkTls (mkDedup ErrorIfMissing [("GBP", val_of_currency sterling)]) (mkDedup Inline [])).
  Proof. eexists. reflexivity. Qed.
  Lemma leak : fst (currency_from_json (JStr "GBP") tls_initial) = Err "invalid value: string" /\
    fst (currency_from_json (JStr "GBP") (snd (instrument_from_json broken_bond ErrorIfMissing [sterling] Inline [] tls_initial))) = Ok sterling.
  Proof. split; reflexivity. Qed.
End Cases.

(** A surface with a skew, as its constructor makes it. *)
Section Surface.
  Open Scope R_scope.
  Definition all (x : R) : bool := true.
  Definition forward_100 : linear R date := mkLinear Flat Flat [(365%Z, 100)].
  Definition skew_points : list (R * R) := [(100, / 5); (120, / 4)].

  Lemma skew : exists sp, spline_load skew_points Natural Natural = Ok sp /\ sp_points sp = skew_points /\
    sp_left sp = Natural /\ sp_right sp = Natural.
  Proof. eexists. unfold spline_load. cbn [is_natural]. repeat split. Qed.

  Lemma forward_100_at nan d : linear_at nan forward_100 d = Ok 100.
  Proof.
    unfold linear_at, linear_interpolate_extrapolate, binary_search_by. cbn -[Z.compare]. destruct (365 ?= d)%Z; reflexivity.
  Qed.

  Lemma skewed_surface (nan : R) : exists p, storable_vol all nan (VolByProbability p).
  Proof.
    destruct skew as (sp & L & P & Le & Ri).
    assert (A : smile_at nan (CubicSplineSmile sp) 100 = Ok (/ 5)).
    { cbn [smile_at]. unfold spline_at. rewrite P. unfold skew_points.
      rewrite (search_found _ lawful_R _ 100 0 (100, / 5)); [reflexivity | | reflexivity | reflexivity].
      intros x y (i & Px & Py). destruct i as [|i]; [|cbn in Py; destruct i; discriminate].
      cbn in Px, Py. inversion Px; inversion Py; subst. cbn. lra. }
    assert (E : exists p, vbp_new nan [(year_end 2, CubicSplineSmile sp)] EveryDay (year_end 1) forward_100 forward_100 NoCashDivs = Ok p).
    { apply new_iff. split; [discriminate|]. exists [1 * (/ 5) ^ 2]. split.
      - constructor; [|constructor]. exists 100, (/ 5), 1. split; [|reflexivity].
        split; cbn [fst snd]; [apply forward_100_at | exact A | rewrite every_years by (cbn; lia); f_equal; cbn; lra].
      - cbn [rising]. split; [lra|exact I]. }
    destruct E as (p & E). exists p. pose proof E as E0. unfold vbp_new in E0.
    destruct (foldM _ _ _) as [(acc, ((fs, ss), ts))|e|e]; try discriminate. cbn [bind] in E0. injection E0 as E0.
    cbn [storable_vol]. rewrite <- E0.
    cbn [vbp_smiles vbp_calendar vbp_base vbp_forward vbp_fixed_divs vbp_assumptions]. rewrite E0.
    repeat split; try (exact E); repeat constructor; cbn; try lia.
    - rewrite P. repeat constructor.
    - rewrite P, Le, Ri. exact L.
  Qed.
End Surface.

Lemma by_reference T finite (i : instrument T) cd cs is s :
  (In (instrument_id i) (map instrument_id is) ->
   instrument_to_json finite i cd cs ErrorIfMissing is s = (Ok (JStr (instrument_id i)), s)) /\
  (~ In (instrument_id i) (map instrument_id is) ->
   exists e, instrument_to_json finite i cd cs ErrorIfMissing is s = (Err e, s)).
Proof. split; [apply instrument_by_id|]. intros H. eexists. apply instrument_missing, H. Qed.

Lemma currency_by_reference T (N : Num T) id (s : tls T) :
  (forall c, get id (dd_map (slot ShCurrency s)) = Some (val_of_currency c) -> fst (currency_from_json (JStr id) s) = Ok c) /\
  (get id (dd_map (slot ShCurrency s)) = None -> exists e, currency_from_json (JStr id) s = (Err e, s)).
Proof. split; [intros c; apply currency_reference | apply currency_no_reference]. Qed.

Lemma unknown_tag_error T (N : Num T) tr tag (j : json T) s : get tag (registry tr) = None ->
  exists e, read (JObj [(tag, j)]) (TTagged tr) s = (Err e, s).
Proof. intros H. eexists. apply unknown_tag, H. Qed.

Lemma ids_confused : exists (i i' : instrument R) j s, i <> i' /\ storable (fun _ => true) i /\
  instrument_to_json (fun _ => true) i WriteOnce [] WriteOnce [] s = (Ok j, s) /\
  instrument_from_json j WriteOnce [] WriteOnce [] s = (Ok i', s).
Proof.
  exists (pair_of 0%R bp bp'), (pair_of 0%R bp bp). eexists. exists tls_initial. split; [discriminate|]. split; [|split; reflexivity].
  cbn [storable pair_of bp bp' sterling storable_currency cur_settlement storable_rule storable_calendar].
  repeat split; try lia; repeat constructor; cbn; lia.
Qed.

Lemma leaked : exists (bond : json R) m s' gbp, let s := tls_initial in
  instrument_from_json bond ErrorIfMissing [gbp] Inline [] s = (Panic m, s') /\
  (exists e, fst (currency_from_json (JStr "GBP") s) = Err e) /\ fst (currency_from_json (JStr "GBP") s') = Ok gbp.
Proof.
  exists broken_bond. do 2 eexists. exists sterling. split; [reflexivity|]. split; [eexists; reflexivity | reflexivity].
Qed.

Lemma stored_case (nan : R) : exists md, storable_market all nan md /\ md_vols md <> [] /\ md_divs md <> [].
Proof.
  destruct (skewed_surface nan) as (p & H).
  exists (mkMarket 43457%Z [("BP.L", 512%R)] [("OPT", RateCurveAct365 43457%Z forward_100)] []
           [("BP.L", stream_new [mkDiv 1%R 0%R 43460%Z 43470%Z] (ZeroRateCurve 43457%Z))]
           [("BP.L", ParallelBumpVol (VolByProbability p) (/ 100)%R)]).
  unfold stream_new. cbn [fold_left ex_date cash].
  replace (neqb 1%R n0) with false by (symmetry; rnum; rcase; lra). cbn [negb].
  split; [|split; discriminate].
  repeat split; cbn [keys map fst md_spots md_yields md_borrows md_divs md_vols];
    repeat (constructor; try (intros [])); try (cbn; lia); apply H.
Qed.

(** An equity that pays no cash: the date of its last cash dividend is the nil date. *)
Lemma no_cash_unreadable (nan : R) : let quiet := stream_new [mkDiv 0%R (/ 50)%R 43460%Z 43470%Z] (ZeroRateCurve 43457%Z) in
  let md := mkMarket 43457%Z [("BP.L", 512%R)] [] [] [("BP.L", quiet)] [] in
  exists j, write all (val_of_market md) tls_initial = (Ok j, tls_initial) /\
    exists e, market_data_from_json nan j tls_initial = (Err e, tls_initial).
Proof.
  cbv zeta. unfold stream_new. cbn [fold_left ex_date cash]. replace (neqb 0%R n0) with true by (symmetry; rnum; rcase; lra).
  eexists. split; [reflexivity|]. eexists. reflexivity.
Qed.
