(** Proofs: what reading lets through. *)
From Coq Require Import ZArith List String Bool Lia Reals Lra.
From Verif Require Import Prelude Num M_Dates M_Calendar M_Interp M_Curves M_Fixings M_Forward M_Vol M_Black76 M_Instruments
  M_Risk M_Reports M_MonteCarlo M_Schema M_Serde M_Objects M_Facade S_Serde S_Objects S_Facade S_Read L_Num L_Calendar L_Search L_Interp L_Vol
  L_Fixings L_Serde L_Objects L_Market L_RoundTrip L_SerdeCases L_Facade L_Read L_ReadObjects L_ReadMarket L_ReadTop.
Import ListNotations.
Open Scope string_scope.
Open Scope list_scope.

Section Through.
  Notation T := R.
  Notation finite := (fun _ : R => true).
  Variables x y : R.

  (** Points in the wrong order. *)
  Definition backwards : linear T date := mkLinear Flat Flat [(43557%Z, x); (43657%Z, x); (43457%Z, y)].
  Definition backwards_md : market_data T := mkMarket 43457%Z [] [("GBP", RateCurveAct365 43457%Z backwards)] [] [] [].

  Lemma backwards_storable nan : storable_market finite nan backwards_md.
  Proof. repeat split; repeat constructor; cbn; try lia; try reflexivity; intros []. Qed.

  Lemma backwards_read nan : exists j s', market_data_from_json nan j tls_initial = (Ok backwards_md, s') /\
    get "GBP" (md_yields backwards_md) = Some (RateCurveAct365 43457%Z backwards) /\
    (exists e, linear_new (lin_points backwards) (lin_left backwards) (lin_right backwards) = Err e) /\
    In (43457%Z, y) (lin_points backwards) /\ linear_at nan backwards 43457%Z = Ok x.
  Proof.
    destruct (market_round_trip finite nan backwards_md tls_initial (backwards_storable nan)) as (j & s' & _ & R & _).
    exists j, s'. split; [exact R|]. split; [reflexivity|]. split; [|split; [right; right; left; reflexivity | reflexivity]].
    unfold linear_new, backwards. cbn [lin_points validate_abscissae validate_from fst snd]. rnum.
    repeat rcase; try (eexists; reflexivity). exfalso. cbn in *. lra.
  Qed.

  (** Holidays in the wrong order: Christmas Day of 2018 is among them and is not a holiday. *)
  Definition jumbled : calendar T := Holidays "London" [18479%Z; 18480%Z; 18478%Z].
  Definition jumbled_ccy : currency T := mkCurrency "GBP" (ModifiedFollowing jumbled).

  Lemma jumbled_read : exists j s', instrument_from_json j Inline [] Inline [] tls_initial = (Ok (ICurrency jumbled_ccy), s') /\
    In 18478%Z [18479%Z; 18480%Z; 18478%Z] /\ is_holiday jumbled 18478%Z = Ok false /\
    is_holiday (Holidays "London" [18478%Z; 18479%Z; 18480%Z] : calendar T) 18478%Z = Ok true.
  Proof.
    assert (S : storable finite (ICurrency jumbled_ccy)) by (repeat constructor).
    destruct (instrument_again finite _ tls_initial S) as (j & _ & R). exists j, tls_initial. split; [exact R|].
    split; [right; right; left; reflexivity|]. split; reflexivity.
  Qed.

  (** An option that expires half a day into the next day, and at another time than the one it also gives. *)
  Definition late : vanilla R :=
    mkVanilla "BP" "OPT" (ICurrency jumbled_ccy) NullRule (mkDT 18478%Z Close_) Call CashSettled (mkDDF 18500%Z (3 / 2)%R) 18480%Z.
  Lemma late_read : exists j s', instrument_from_json j Inline [] Inline [] tls_initial = (Ok (ISpotEuropean late x), s') /\
    (exists m, ddf_new (ddf_date (van_expiry_time late)) (ddf_frac (van_expiry_time late)) = Panic m) /\
    ddf_date (van_expiry_time late) <> dt_date (van_expiry late).
  Proof.
    assert (S : storable finite (ISpotEuropean late x)) by (repeat split; repeat constructor).
    destruct (instrument_again finite _ tls_initial S) as (j & _ & R). exists j, tls_initial. split; [exact R|].
    split; [|discriminate]. unfold ddf_new. cbn [late van_expiry_time ddf_frac]. rnum. repeat rcase; try (eexists; reflexivity). lra.
  Qed.

  (** A dividend stream whose last cash dividend is not where it says. *)
  Definition early : div_stream T :=
    mkStream [mkDiv x x 43500%Z 43510%Z] (ZeroRateCurve 43457%Z) 43400%Z.
  Definition early_md : market_data T := mkMarket 43457%Z [] [] [] [("BP.L", early)] [].
  Lemma early_read nan : x <> 0%R -> exists j s', market_data_from_json nan j tls_initial = (Ok early_md, s') /\
    get "BP.L" (md_divs early_md) = Some early /\
    last_cash_ex_date early = 43400%Z /\ last_cash_ex_date (stream_new (dividends early) (div_yield early)) = 43500%Z.
  Proof.
    intros NZ. assert (S : storable_market finite nan early_md).
    { repeat split; repeat constructor; cbn; try lia; try reflexivity; intros []. }
    destruct (market_round_trip finite nan early_md tls_initial S) as (j & s' & _ & R & _).
    exists j, s'. split; [exact R|]. split; [reflexivity|]. split; [reflexivity|].
    cbn [stream_new dividends early fold_left last_cash_ex_date cash ex_date]. rnum. rcase; [contradiction | reflexivity].
  Qed.

  (** Two fixings for one time. *)
  Definition twice : val T := val_of_fixing_table (mkTable 43457%Z [("BP.L", [(mkDT 43400%Z Close_, x); (mkDT 43400%Z Close_, y)])]).
  Lemma twice_read : exists j s', fixing_table_from_json j tls_initial =
      (Ok (mkTable 43457%Z [("BP.L", [(mkDT 43400%Z Close_, y)])]), s') /\
    exists e, from_fixings 43457%Z [("BP.L", [(mkDT 43400%Z Close_, x); (mkDT 43400%Z Close_, y)])] = Err e.
  Proof.
    assert (C : conforms finite twice ty_fixing_table).
    { cbn. repeat split; repeat constructor; cbn; try lia; try reflexivity; try (intros [E|[]]; discriminate); intuition congruence. }
    destruct (plain_read finite ty_fixing_table twice fixing_table_of_val
      (mkTable 43457%Z [("BP.L", [(mkDT 43400%Z Close_, y)])]) tls_initial C eq_refl (named_fixing_table _) eq_refl) as (j & s' & _ & R & _).
    exists j, s'. split; [exact R|]. eexists. reflexivity.
  Qed.
End Through.

(** ** Panics other than those of dates *)

Section Panics.
  Open Scope R_scope.

  Definition time_json (d : string) : json R := JObj [("date", JStr d); ("day_fraction", JNum 0)].
  Definition points_json (ps : list (json R * R)) : json R :=
    JObj [("left", JStr "Flat"); ("right", JStr "Flat"); ("points", JArr (map (fun p => JArr [fst p; JNum (snd p)]) ps))].
  Definition surface_json (cal : json R) (d : string) (smile : list (json R * R)) : json R :=
    JObj [("spot_date", JStr "2018-12-25"); ("spots", JObj []); ("yield_curves", JObj []); ("borrow_curves", JObj []);
      ("dividends", JObj []); ("vol_surfaces", JObj [("BP.L", JObj [("VolByProbabilityCubicSplineSmile", JObj [
        ("smiles", JArr [JArr [time_json d; JObj [("smile", points_json smile)]]]); ("calendar", cal);
        ("base_date", time_json d); ("forward", points_json [(JStr d, 100)]); ("fixed_divs_after", points_json [(JStr d, 100)]);
        ("div_assumptions", JStr "NoCashDivs")])])])].

  Ltac no_text := intros (t & m & I & E); cbn [texts surface_json points_json time_json flat_map map app In fst snd] in I;
    repeat (destruct I as [<-|I]; [vm_compute in E; discriminate E|]); exact I.

  (** A smile of one point. *)
  Definition one_point : json R := surface_json (JObj [("EveryDayCalendar", JArr [])]) "2018-12-25" [(JNum 100, / 5)].
  Lemma one_point_panics nan : ~ panicking_text one_point /\ exists m, fst (market_data_from_json nan one_point tls_initial) = Panic m.
  Proof. split; [no_text|]. eexists. reflexivity. Qed.

  (** The last day of all is a holiday. *)
  Definition last_day : json R := surface_json
    (JObj [("WeekdayAndHolidayCalendar", JObj [("name", JStr "London"); ("holidays", JArr [JStr "2168-04-03"])])]) "2168-04-03"
    [(JNum 100, / 5); (JNum 120, / 4)].
  Definition last_time : ddf R := mkDDF 72999%Z 0.
  Definition last_points : list (R * R) := [(100, / 5); (120, / 4)].

  Lemma last_smile : exists sp, spline_load last_points Flat Flat = Ok sp /\ sp_points sp = last_points.
  Proof. eexists. unfold spline_load. cbn [is_natural]. repeat split. Qed.
  Lemma last_count : exists m, year_fraction (Holidays "London" [72999%Z]) last_time last_time = Panic m.
  Proof.
    unfold year_fraction. cbn [count_business_days last_time ddf_date ddf_frac]. unfold hol_count.
    pose proof day_fuel_eq as E. destruct day_fuel as [|[|k]]; [cbn in E; lia | cbn in E; lia|].
    eexists. reflexivity.
  Qed.
  Lemma last_day_panics nan : ~ panicking_text last_day /\ exists m, fst (market_data_from_json nan last_day tls_initial) = Panic m.
  Proof.
    split; [no_text|].
    assert (R : exists s', read last_day ty_market_data tls_initial = (Ok (VStruct [("spot_date", VDate 18478%Z); ("spots", VMap []);
      ("yield_curves", VMap []); ("borrow_curves", VMap []); ("dividends", VMap []); ("vol_surfaces", VMap [("BP.L",
        VTagged TrVolSurface None (VStruct [
          ("smiles", VVec [VTuple [val_of_ddf last_time; VStruct [("smile", val_of_points VNum Flat Flat last_points)]]]);
          ("calendar", val_of_calendar (Holidays "London" [72999%Z])); ("base_date", val_of_ddf last_time);
          ("forward", val_of_linear (mkLinear Flat Flat [(72999%Z, 100)]));
          ("fixed_divs_after", val_of_linear (mkLinear Flat Flat [(72999%Z, 100)]));
          ("div_assumptions", VUnit (assumptions_name NoCashDivs))]))])]), s')).
    { eexists. lazy -[IZR Rinv]. reflexivity. }
    destruct R as (s' & R). unfold market_data_from_json. rewrite (bind_act_run _ _ _ _ _ R). unfold lift. cbn [fst].
    destruct last_smile as (sp & L & P). destruct last_count as (m & C).
    assert (A : smile_at nan (CubicSplineSmile sp) 100 = Ok (/ 5)).
    { cbn [smile_at]. unfold spline_at. rewrite P. unfold last_points.
      rewrite (search_found _ lawful_R _ 100 0 (100, / 5)); [reflexivity | | reflexivity | reflexivity].
      intros x y (i & Px & Py). destruct i as [|i]; [|cbn in Py; destruct i; discriminate].
      cbn in Px, Py. inversion Px; inversion Py; subst. cbn. lra. }
    assert (F : linear_at (X := date) nan (mkLinear Flat Flat [(72999%Z, 100)]) (ddf_date last_time) = Ok 100) by reflexivity.
    assert (V : vbp_new nan [(last_time, CubicSplineSmile sp)] (Holidays "London" [72999%Z]) last_time
      (mkLinear Flat Flat [(72999%Z, 100)]) (mkLinear Flat Flat [(72999%Z, 100)]) NoCashDivs = Panic m).
    { unfold vbp_new. cbn [foldM]. unfold vbp_pillar at 1. cbn [fst snd]. rewrite F. cbn [bind].
      rewrite A. cbn [bind]. rewrite C. reflexivity. }
    assert (M : smile_of_val (VStruct [("smile", val_of_points VNum Flat Flat last_points)]) = Ok (CubicSplineSmile sp)).
    { unfold smile_of_val. rewrite (back_points VNum num_of_val Flat Flat last_points num_back). cbn [bind]. rewrite L. reflexivity. }
    exists m. cbn [market_of_val map_of_val mapM bind]. rewrite vol_probability. cbn [mapM]. rewrite back_ddf. cbn [bind].
    rewrite M. cbn [bind]. rewrite V. reflexivity.
  Qed.
End Panics.
