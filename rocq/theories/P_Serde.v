(** Objects as JSON: writing and reading back (C52), the thread's deduplication state (C53), and type tags (C55). *)
From Coq Require Import ZArith List String Bool Reals Lia.
From Verif Require Import Prelude Num M_Dates M_Calendar M_Interp M_Curves M_Fixings M_Forward M_Vol M_Black76 M_Instruments M_Risk M_Reports
  M_Schema M_Serde M_Objects S_Serde S_Objects L_Serde L_RoundTrip L_Once L_SerdeCases.
Import ListNotations.
Open Scope string_scope.
Open Scope list_scope.

(** ** C52: writing and reading back *)

(** Under any pair of controls, writing an instrument works if whatever may only be referred to has been supplied, and leaves the
    thread's state as it was. *)
Theorem C52_written : forall T finite (i : instrument T) cd cs ic is s,
  (cd = ErrorIfMissing -> supplied cur_id (currencies_in i) cs) ->
  (ic = ErrorIfMissing -> supplied instrument_id (parts i) is) ->
  exists j, instrument_to_json finite i cd cs ic is s = (Ok j, s).
Proof. exact @instrument_written. Qed.
Print Assumptions C52_written.

(** What was written reads back, under the same controls, as the same instrument, if equal ids mean equal objects wherever ids
    stand for objects. *)
Theorem C52_round_trip : forall T (N : Num T) finite cd ic cs is (i : instrument T) s j s',
  storable finite i ->
  (cd <> Inline -> identified cur_id (currencies_in i) cs) ->
  (ic <> Inline -> identified instrument_id (parts i) is) ->
  instrument_to_json finite i cd cs ic is s = (Ok j, s') ->
  s' = s /\ instrument_from_json j cd cs ic is s = (Ok i, s).
Proof. exact @instrument_round_trip. Qed.
Print Assumptions C52_round_trip.

(** A basket of two holdings of one equity, everything in one currency, both supplied. *)
Example C52_round_trip_case : forall (one : R), storable (fun _ => true) (pair_of one bp bp) /\
  identified cur_id (currencies_in (pair_of one bp bp)) [sterling] /\ identified instrument_id (parts (pair_of one bp bp)) [bp].
Proof. intros one. split; [apply pair_storable; reflexivity | apply pair_identified]. Qed.

(** Without the condition on ids the basket comes back with other members than it had. *)
Theorem C52_round_trip_refuted : exists (i i' : instrument R) j s, i <> i' /\ storable (fun _ => true) i /\
  instrument_to_json (fun _ => true) i WriteOnce [] WriteOnce [] s = (Ok j, s) /\
  instrument_from_json j WriteOnce [] WriteOnce [] s = (Ok i', s).
Proof. exact ids_confused. Qed.
Print Assumptions C52_round_trip_refuted.

(** The same for any object of any of the types, nested however deeply: in a state where ids identify the shared objects, reading
    gives what was written and the states agree afterwards. *)
Theorem C52_graph : forall T (N : Num T) finite t (v : val T) s j s',
  conforms finite v t -> (forall k u, In (k, u) (sharing v) -> loaded u = u) -> ids_identify s v ->
  write finite v s = (Ok j, s') -> exists s'', read j t s = (Ok (loaded v), s'') /\ same_state s' s''.
Proof. exact @serde_round_trip. Qed.
Print Assumptions C52_graph.

(** Under WriteOnce an instrument is written in full exactly where its id is mentioned for the first time, and is not known already. *)
Theorem C52_instruments_once : forall T finite (i : instrument T) cd cs is s j s', storable finite i ->
  instrument_to_json finite i cd cs WriteOnce is s = (Ok j, s') ->
  full_once ShInstrument (fun id => In id (map instrument_id is)) (mentions j (TShared ShInstrument)).
Proof. exact @instruments_once. Qed.
Print Assumptions C52_instruments_once.

Theorem C52_currencies_once : forall T finite (i : instrument T) cs ic is s j s', storable finite i ->
  instrument_to_json finite i WriteOnce cs ic is s = (Ok j, s') ->
  full_once ShCurrency (fun id => In id (map cur_id cs)) (mentions j (TShared ShInstrument)).
Proof. exact @currencies_once. Qed.
Print Assumptions C52_currencies_once.

Example C52_once_case : forall one : R,
  json_mentions (fst (instrument_to_json (fun _ => true) (pair_of one bp bp) WriteOnce [] WriteOnce [] tls_initial)) =
    [mkMention ShInstrument "PAIR" true; mkMention ShCurrency "GBP" true; mkMention ShInstrument "BP.L" true;
     mkMention ShCurrency "GBP" false; mkMention ShInstrument "BP.L" false].
Proof. exact pair_mentions. Qed.

(** Under ErrorIfMissing an instrument is written as its id, and only if that was supplied. *)
Theorem C52_by_reference : forall T finite (i : instrument T) cd cs is s,
  (In (instrument_id i) (map instrument_id is) ->
   instrument_to_json finite i cd cs ErrorIfMissing is s = (Ok (JStr (instrument_id i)), s)) /\
  (~ In (instrument_id i) (map instrument_id is) ->
   exists e, instrument_to_json finite i cd cs ErrorIfMissing is s = (Err e, s)).
Proof. exact by_reference. Qed.
Print Assumptions C52_by_reference.

(** Market data, fixings, report generators and reports share nothing: they read back in any state. *)
Theorem C52_market_data : forall T (N : Num T) finite (nan : T) md s, storable_market finite nan md ->
  exists j s', write finite (val_of_market md) s = (Ok j, s) /\ market_data_from_json nan j s = (Ok md, s') /\ same_state s s'.
Proof. exact @market_round_trip. Qed.
Print Assumptions C52_market_data.

Example C52_market_data_case : forall nan : R, exists md, storable_market all nan md /\ md_vols md <> [] /\ md_divs md <> [].
Proof. exact stored_case. Qed.

(** But market data for an equity that pays no cash dividends can be written and not read: the date of the last cash dividend is
    then the nil date, which is not valid in JSON. *)
Theorem C52_no_cash_dividends_refuted : forall nan : R,
  let quiet := stream_new [mkDiv 0%R (/ 50)%R 43460%Z 43470%Z] (ZeroRateCurve 43457%Z) in
  let md := mkMarket 43457%Z [("BP.L", 512%R)] [] [] [("BP.L", quiet)] [] in
  exists j, write all (val_of_market md) tls_initial = (Ok j, tls_initial) /\
    exists e, market_data_from_json nan j tls_initial = (Err e, tls_initial).
Proof. exact no_cash_unreadable. Qed.
Print Assumptions C52_no_cash_dividends_refuted.

Theorem C52_fixings : forall T (N : Num T) finite (t : fixing_table T) s, storable_table finite t ->
  exists j s', write finite (val_of_fixing_table t) s = (Ok j, s) /\ fixing_table_from_json j s = (Ok t, s') /\ same_state s s'.
Proof. exact @fixings_round_trip. Qed.
Print Assumptions C52_fixings.

Example C52_fixings_case : storable_table all (mkTable 43457%Z [("BP.L", [(mkDT 43400%Z Close_, 512%R)])]).
Proof. repeat split; repeat constructor; cbn; try lia; intros []. Qed.

Theorem C52_generators : forall T (N : Num T) finite (g : generator T) s, storable_generator finite g ->
  exists j s', write finite (val_of_generator g) s = (Ok j, s) /\ report_generator_from_json j s = (Ok g, s') /\ same_state s s'.
Proof. exact @generator_round_trip. Qed.
Print Assumptions C52_generators.

Theorem C52_reports : forall T (N : Num T) finite (rs : list (report T)) s, Forall (storable_report finite) rs ->
  exists j s', write finite (VVec (map val_of_report rs)) s = (Ok j, s) /\ reports_from_json j s = (Ok rs, s') /\ same_state s s'.
Proof. exact @reports_round_trip. Qed.
Print Assumptions C52_reports.

Example C52_generators_case :
  storable_generator all (TimeBumpedGenerator (mkBumpTime (mkBumpSpotDate 43457%Z StickyForward) 43460%Z) [DeltaGammaGenerator (/ 100)%R]) /\
  Forall (storable_report all) [TimeBumpedReport 1%R 2%R [DeltaGammaReport 3%R [("BP.L", (4%R, 5%R))]]].
Proof. repeat split; repeat constructor; cbn; try lia; intros []. Qed.

(** A report with a number JSON does not have can be written, and the result cannot be read. *)
Theorem C52_nonfinite_refuted : forall T (N : Num T) finite (x : T) s, finite x = false ->
  exists j, write finite (VVec [val_of_report (DeltaGammaReport x [])]) s = (Ok j, s) /\
    exists e, reports_from_json j s = (Err e, s).
Proof. exact @nonfinite_unreadable. Qed.
Print Assumptions C52_nonfinite_refuted.

(** ** C53: the thread's state *)

(** However calls of [with] are nested, around whatever is done inside, every kind they set is as before once the outermost one
    returns, with a result or with an error. *)
Theorem C53_restored : forall T A ds (f : act T A) s r s', nested ds f s = (r, s') -> (forall m, r <> Panic m) ->
  forall k, In k (map fst ds) -> slot k s' = slot k s.
Proof. exact @nested_restores. Qed.
Print Assumptions C53_restored.

(** So reading an instrument, if it does not panic, leaves the thread's state as it was. *)
Theorem C53_instrument : forall T (N : Num T) (j : json T) cd cs ic is s r s',
  instrument_from_json j cd cs ic is s = (r, s') -> (forall m, r <> Panic m) -> s' = s.
Proof. exact @instrument_state. Qed.
Print Assumptions C53_instrument.

(** A failing call that set both kinds, the inner one under the outer. *)
Example C53_restored_case : exists e, nested [(ShCurrency, mkDedup WriteOnce []); (ShInstrument, mkDedup ErrorIfMissing [])]
  (read (JStr "BP.L") (TShared ShInstrument)) (@tls_initial R) = (Err e, tls_initial).
Proof. eexists. reflexivity. Qed.

(** A panic inside leaves behind whatever was inside. *)
Theorem C53_panic : forall T A k d (f : act T A) s m s', f (set_slot k d s) = (Panic m, s') -> with_dedup k d f s = (Panic m, s').
Proof. exact @with_panics. Qed.
Print Assumptions C53_panic.

(** So the full property, for calls that panic too, is false: a bond with a payment date of "1970", read with a currency
    supplied, makes that currency known to later calls on the thread which supply none. *)
Theorem C53_restored_refuted : exists (bond : json R) m s' gbp, let s := tls_initial in
  instrument_from_json bond ErrorIfMissing [gbp] Inline [] s = (Panic m, s') /\
  (exists e, fst (currency_from_json (JStr "GBP") s) = Err e) /\ fst (currency_from_json (JStr "GBP") s') = Ok gbp.
Proof. exact leaked. Qed.
Print Assumptions C53_restored_refuted.

(** What an id means is what the thread's table says. *)
Theorem C53_reference : forall T (N : Num T) id (s : tls T),
  (forall c, get id (dd_map (slot ShCurrency s)) = Some (val_of_currency c) -> fst (currency_from_json (JStr id) s) = Ok c) /\
  (get id (dd_map (slot ShCurrency s)) = None -> exists e, currency_from_json (JStr id) s = (Err e, s)).
Proof. exact currency_by_reference. Qed.
Print Assumptions C53_reference.

(** ** C55: tags *)

(** No trait has a tag twice. *)
Theorem C55_distinct : forall tr, NoDup (keys (registry tr)).
Proof. exact tags_distinct. Qed.
Print Assumptions C55_distinct.

(** Every tag that is written under a trait other than that of vol surfaces is read, with the same fields, as an object that is
    written under the same tag. *)
Theorem C55_closed : forall tr tag t, tr <> TrVolSurface -> In (tag, t) (written tr) ->
  get tag (registry tr) = Some t /\ read_type_id tr tag = Some tag.
Proof. exact tags_known. Qed.
Print Assumptions C55_closed.

Example C55_closed_case : keys (written TrInstrument) =
  ["Currency"; "CreditEntity"; "Equity"; "ZeroCoupon"; "Basket"; "SpotStartingEuropean"; "ForwardStartingEuropean"].
Proof. reflexivity. Qed.

(** Of vol surfaces, these two are written under tags nobody reads. *)
Theorem C55_unknown : forall tr tag, In tag (keys (written tr)) -> get tag (registry tr) = None ->
  tr = TrVolSurface /\ (tag = "VolByProbabilityFlatSmile" \/ tag = "StickyDeltaBumpVol").
Proof. exact tags_unknown. Qed.
Print Assumptions C55_unknown.

(** A tag nobody knows is an error, and nothing else happens. *)
Theorem C55_unknown_error : forall T (N : Num T) tr tag (j : json T) s, get tag (registry tr) = None ->
  exists e, read (JObj [(tag, j)]) (TTagged tr) s = (Err e, s).
Proof. exact unknown_tag_error. Qed.
Print Assumptions C55_unknown_error.

(** So the full property is false: a surface with flat smiles, and one under a sticky-delta bump, can be written but not read. *)
Theorem C55_flat_smiles_refuted : forall T (N : Num T) finite (p : vol_by_probability T) s,
  (forall d m, In (d, m) (vbp_smiles p) -> exists v, m = FlatSmile v) ->
  exists j, write finite (val_of_vol (VolByProbability p)) s = (Ok j, s) /\
    forall s', exists e, read j (TTagged TrVolSurface) s' = (Err e, s').
Proof. exact @flat_unreadable. Qed.
Print Assumptions C55_flat_smiles_refuted.

Example C55_flat_smiles_example : exists p : vol_by_probability R, vbp_smiles p <> [] /\
  forall d m, In (d, m) (vbp_smiles p) -> exists v, m = FlatSmile v.
Proof.
  exists (mkVBP [(mkDDF 0%Z 0%R, FlatSmile 0%R); (mkDDF 365%Z 0%R, FlatSmile 1%R)] EveryDay (mkDDF 0%Z 0%R)
    (mkLinear Flat Flat []) (mkLinear Flat Flat []) NoCashDivs [] [] []).
  split; [discriminate|]. intros d m [E|[E|[]]]; injection E as <- <-; eauto.
Qed.

Theorem C55_sticky_delta_refuted : forall T (N : Num T) finite (b : vol_surface T) f s,
  exists j, write finite (val_of_vol (StickyDeltaBumpVol b f)) s = (Ok j, s) /\
    forall s', exists e, read j (TTagged TrVolSurface) s' = (Err e, s').
Proof. exact @sticky_unreadable. Qed.
Print Assumptions C55_sticky_delta_refuted.

(** And a surface with spline smiles reads back, as an object which panics when it is written again. *)
Theorem C55_written_again_refuted : forall T (N : Num T) finite (nan : T) p s, storable_vol finite nan (VolByProbability p) ->
  exists j v s', write finite (val_of_vol (VolByProbability p)) s = (Ok j, s) /\
    read j (TTagged TrVolSurface) s = (Ok v, s') /\ vol_of_val nan v = Ok (VolByProbability p) /\
    forall r, exists m, write finite v r = (Panic m, r).
Proof. exact @spline_once. Qed.
Print Assumptions C55_written_again_refuted.

Example C55_written_again_case : forall nan : R, exists p, storable_vol all nan (VolByProbability p).
Proof. exact skewed_surface. Qed.
