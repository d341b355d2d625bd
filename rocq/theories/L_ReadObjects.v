(** Proofs: what is read is an object of the model. *)
From Coq Require Import ZArith List String Bool Lia.
From Verif Require Import Prelude Num M_Dates M_Calendar M_Interp M_Curves M_Fixings M_Forward M_Vol M_Black76 M_Instruments
  M_Risk M_Reports M_MonteCarlo M_Schema M_Serde M_Objects M_Facade S_Serde S_Objects S_Facade S_Read
  L_Fixings L_Serde L_Objects L_RoundTrip L_Read L_Facade.
Import ListNotations.
Open Scope string_scope.
Open Scope list_scope.

(** Which entry of a registry a tag is. *)
Ltac entries G :=
  repeat (cbn [get registry calendar_types rule_types instrument_types curve_types vol_types model_types pricer_types
               generator_types report_types] in G;
          match type of G with
          | context [String.eqb ?x ?y] => destruct (String.eqb_spec x y) as [->|_]; [injection G as <-|]
          end);
  try discriminate G.

Section Made.
  Context {T : Type} {N : Num T} {TR : Trans T}.
  Variable finite : T -> bool.
  Notation conforms := (conforms finite).

  Lemma is_struct v flat ts : conforms v (TStruct flat ts) -> exists fs, v = VStruct fs /\ fields_conform conforms fs ts.
  Proof. destruct v; cbn [S_Serde.conforms]; try tauto. intros [_ H]. eexists. split; [reflexivity | exact H]. Qed.
  Lemma is_field (fs : list (string * val T)) n t ts : fields_conform conforms fs ((n, t) :: ts) ->
    exists u fs', fs = (n, u) :: fs' /\ conforms u t /\ fields_conform conforms fs' ts.
  Proof. destruct fs as [|[m u] fs]; cbn [fields_conform]; [tauto|]. intros (-> & C & H). exists u, fs. auto. Qed.
  Lemma is_end (fs : list (string * val T)) : fields_conform conforms fs [] -> fs = [].
  Proof. destruct fs as [|[m u] fs]; cbn [fields_conform]; tauto. Qed.
  Lemma is_tagged v tr : conforms v (TTagged tr) -> exists id tag t u, v = VTagged tr id u /\
    (id = Some tag \/ id = read_type_id tr tag) /\ get tag (registry tr) = Some t /\ conforms u t.
  Proof. destruct v; cbn [S_Serde.conforms]; try tauto. intros [<- (tag & t & H)]. exists type_id, tag, t, v. split; [reflexivity | exact H]. Qed.
  Lemma is_vec v t : conforms v (TVec t) -> exists l, v = VVec l /\ Forall (fun u => conforms u t) l.
  Proof.
    destruct v; cbn [S_Serde.conforms]; try tauto. intros H. exists l. split; [reflexivity|].
    induction l as [|u l IH]; cbn [every] in H; [constructor|]. destruct H. constructor; auto.
  Qed.
  Lemma is_map v t : conforms v (TMap t) -> exists m, v = VMap m /\ NoDup (keys m) /\ Forall (fun e => conforms (snd e) t) m.
  Proof.
    destruct v; cbn [S_Serde.conforms]; try tauto. intros [ND H]. exists m. split; [reflexivity|]. split; [exact ND|].
    clear ND. induction m as [|[n u] m IH]; cbn [every] in H; [constructor|]. destruct H. constructor; auto.
  Qed.
  Lemma is_pair v t t' : conforms v (TTuple [t; t']) -> exists u u', v = VTuple [u; u'] /\ conforms u t /\ conforms u' t'.
  Proof.
    destruct v; cbn [S_Serde.conforms]; try tauto. destruct l as [|u [|u' [|u'' l]]]; cbn [tuple_conforms]; try tauto.
    intros (H & H' & _). exists u, u'. auto.
  Qed.
  Lemma is_empty v : conforms v (TTuple []) -> v = VTuple [].
  Proof. destruct v; cbn [S_Serde.conforms]; try tauto. destruct l; cbn [tuple_conforms]; tauto. Qed.
  Lemma is_num v : conforms v TF64 -> exists x, v = VNum x /\ fin finite x.
  Proof. destruct v; cbn [S_Serde.conforms]; try tauto. intros H. exists x. auto. Qed.
  Lemma is_str v : conforms v TStr -> exists x, v = VStr x.
  Proof. destruct v; cbn [S_Serde.conforms]; try tauto. intros H. exists s. auto. Qed.
  Lemma is_bool v : conforms v TBool -> exists x, v = VBool x.
  Proof. destruct v; cbn [S_Serde.conforms]; try tauto. intros H. exists b. auto. Qed.
  Lemma is_i32 v : conforms v TI32 -> exists z, v = VInt z /\ (-2147483648 <= z <= 2147483647)%Z.
  Proof. destruct v; cbn [S_Serde.conforms]; try tauto. intros H. exists z. auto. Qed.
  Lemma is_usize v : conforms v TUsize -> exists z, v = VInt z /\ (0 <= z <= 18446744073709551615)%Z.
  Proof. destruct v; cbn [S_Serde.conforms]; try tauto. intros H. exists z. auto. Qed.
  Lemma is_date v : conforms v TDate -> exists d, v = VDate d /\ proper d.
  Proof. destruct v; cbn [S_Serde.conforms]; try tauto. intros H. exists d. auto. Qed.
  Lemma is_unit v names : conforms v (unit_enum names) -> exists n, v = VUnit n /\ In n names.
  Proof.
    unfold unit_enum. destruct v as [| | | | |n|n u| | | | | |]; cbn [S_Serde.conforms]; try tauto.
    - intros G. exists n. split; [reflexivity|]. induction names as [|m names IH]; cbn [map get] in G; [discriminate|].
      destruct (String.eqb_spec n m) as [->|ne]; [left; reflexivity | right; exact (IH G)].
    - intros (t & G & _). exfalso. induction names as [|m names IH]; cbn [map get] in G; [discriminate|].
      destruct (String.eqb n m); [discriminate | exact (IH G)].
  Qed.
  Lemma is_shared v k : conforms v (TShared k) -> exists u, v = VShared k u /\ conforms u (content k).
  Proof. destruct v; cbn [S_Serde.conforms]; try tauto. intros [<- H]. eexists. split; [reflexivity | exact H]. Qed.

  (** Take apart an object of a known type. *)
  Ltac part :=
    match goal with
    | H : conforms _ (TStruct _ _) |- _ => apply is_struct in H as (? & -> & H)
    | H : fields_conform _ _ (_ :: _) |- _ => apply is_field in H as (? & ? & -> & ? & H)
    | H : fields_conform _ _ [] |- _ => apply is_end in H as ->
    | H : conforms _ TF64 |- _ => apply is_num in H as (? & -> & H)
    | H : conforms _ TStr |- _ => apply is_str in H as (? & ->)
    | H : conforms _ TBool |- _ => apply is_bool in H as (? & ->)
    | H : conforms _ TI32 |- _ => apply is_i32 in H as (? & -> & H)
    | H : conforms _ TUsize |- _ => apply is_usize in H as (? & -> & H)
    | H : conforms _ TDate |- _ => apply is_date in H as (? & -> & H)
    | H : conforms _ (unit_enum _) |- _ => apply is_unit in H as (? & -> & H)
    | H : conforms _ (TTuple []) |- _ => apply is_empty in H as ->
    | H : conforms _ (TTuple [_; _]) |- _ => apply is_pair in H as (? & ? & -> & ? & H)
    | H : conforms _ (TVec _) |- _ => apply is_vec in H as (? & -> & H)
    | H : conforms _ (TMap _) |- _ => apply is_map in H as (? & -> & ? & H)
    | H : conforms _ (TShared _) |- _ => apply is_shared in H as (? & -> & H)
    end.
  Ltac parts := repeat part.

  Ltac names H := cbn [In] in H; repeat destruct H as [<-|H]; try destruct H.

  (** [v] is the object [f] makes of something storable. *)
  Definition made {A} (f : A -> val T) (P : A -> Prop) (v : val T) : Prop := exists a, v = f a /\ P a.

  Ltac one := match goal with H : In _ (_ :: _) |- _ => names H end.

  Lemma made_datetime v : conforms v ty_date_time -> made val_of_datetime (fun d => proper (dt_date d)) v.
  Proof.
    intros H. unfold ty_date_time, ty_time_of_day in H. parts. one;
      [eexists (mkDT _ Open_) | eexists (mkDT _ EDSP) | eexists (mkDT _ Close_)]; (split; [reflexivity | assumption]).
  Qed.

  Lemma made_ddf v : conforms v ty_ddf -> made val_of_ddf (storable_ddf finite) v.
  Proof. intros H. unfold ty_ddf in H. parts. eexists (mkDDF _ _). split; [reflexivity | split; assumption]. Qed.

  Lemma made_list {A} (f : A -> val T) (P : A -> Prop) l : Forall (made f P) l -> exists l', l = map f l' /\ Forall P l'.
  Proof.
    induction 1 as [|v l (a & -> & Pa) _ (l' & -> & H)]; [exists []; split; [reflexivity | constructor]|].
    exists (a :: l'). split; [reflexivity | constructor; assumption].
  Qed.

  Lemma made_date v : conforms v TDate -> made VDate proper v.
  Proof. intros H. parts. eexists. split; [reflexivity | exact H]. Qed.
  Lemma made_num v : conforms v TF64 -> made VNum (fin finite) v.
  Proof. intros H. parts. eexists. split; [reflexivity | exact H]. Qed.

  Lemma tag_of tr id tag : tr <> TrVolSurface -> id = Some tag \/ id = read_type_id tr tag -> id = Some tag.
  Proof. intros NV [-> | ->]; [reflexivity|]. destruct tr; try reflexivity. destruct (NV eq_refl). Qed.

  Ltac tagged H := let G := fresh "G" in let I := fresh "I" in
    apply is_tagged in H as (? & ? & ? & ? & -> & I & G & H); apply tag_of in I; [|discriminate]; subst;
    entries G.

  Lemma made_calendar_size n : forall v, (vsize v < n)%nat -> conforms v (TTagged TrCalendar) ->
    made val_of_calendar (storable_calendar finite) v.
  Proof.
    induction n as [|n IH]; [lia|]. intros v L H. tagged H; parts.
    - exists EveryDay. split; [reflexivity | exact I].
    - exists Weekday. split; [reflexivity | exact I].
    - destruct (made_list VDate proper x0) as (hols & -> & P).
      { eapply Forall_impl; [|eassumption]. exact made_date. }
      eexists (Holidays _ _). split; [reflexivity | exact P].
    - match goal with K : conforms _ _ |- _ => apply IH in K as (c & -> & S) end.
      + eexists (VolCal _ c _). split; [reflexivity | split; assumption].
      + cbn [vsize map nsum] in L. lia.
  Qed.
  Lemma made_calendar v : conforms v (TTagged TrCalendar) -> made val_of_calendar (storable_calendar finite) v.
  Proof. apply (made_calendar_size (S (vsize v))). lia. Qed.

  Lemma made_rule v : conforms v (TTagged TrDateRule) -> made val_of_rule (storable_rule finite) v.
  Proof.
    intros H. tagged H; parts.
    - exists NullRule. split; [reflexivity | exact I].
    - match goal with K : conforms _ _ |- _ => apply made_calendar in K as (c & -> & S) end.
      eexists (BusinessDays c _ _). split; [reflexivity | split; assumption].
    - match goal with K : conforms _ _ |- _ => apply made_calendar in K as (c & -> & S) end.
      exists (ModifiedFollowing c). split; [reflexivity | exact S].
  Qed.

  Lemma made_currency v : conforms v ty_currency -> made val_of_currency (storable_currency finite) v.
  Proof.
    intros H. unfold ty_currency in H. parts. apply made_rule in H1 as (r & -> & S).
    eexists (mkCurrency _ r). split; [reflexivity | exact S].
  Qed.

  Lemma made_rc_currency v : conforms v (TShared ShCurrency) -> made val_of_rc_currency (storable_currency finite) v.
  Proof.
    intros H. apply is_shared in H as (u & -> & H). apply made_currency in H as (c & -> & S).
    exists c. split; [reflexivity | exact S].
  Qed.

  Lemma made_pc v : conforms v (unit_enum ["Put"; "Call"]) -> exists p, v = VUnit (pc_name p).
  Proof. intros H. parts. one; [exists Put | exists Call]; reflexivity. Qed.
  Lemma made_cp v : conforms v (unit_enum ["Cash"; "Physical"]) -> exists p, v = VUnit (cp_name p).
  Proof. intros H. parts. one; [exists CashSettled | exists PhysicalSettled]; reflexivity. Qed.
  Lemma made_extrap v : conforms v ty_extrap -> exists e, v = VUnit (extrap_name e).
  Proof.
    intros H. unfold ty_extrap in H. parts.
    one; [exists Flat | exists Natural | exists NotANumber | exists Zero | exists Throw]; reflexivity.
  Qed.

  Ltac known_part :=
    match goal with
    | K : conforms _ ty_date_time |- _ => apply made_datetime in K as (? & -> & K)
    | K : conforms _ ty_ddf |- _ => apply made_ddf in K as (? & -> & K)
    | K : conforms _ (TTagged TrCalendar) |- _ => apply made_calendar in K as (? & -> & K)
    | K : conforms _ (TTagged TrDateRule) |- _ => apply made_rule in K as (? & -> & K)
    | K : conforms _ (TShared ShCurrency) |- _ => apply made_rc_currency in K as (? & -> & K)
    | K : conforms _ ty_currency |- _ => apply made_currency in K as (? & -> & K)
    | K : conforms _ ty_extrap |- _ => apply made_extrap in K as (? & ->)
    | K : conforms _ (unit_enum ["Put"; "Call"]) |- _ => apply made_pc in K as (? & ->)
    | K : conforms _ (unit_enum ["Cash"; "Physical"]) |- _ => apply made_cp in K as (? & ->)
    end.

  Ltac all_parts := repeat first [known_part | part].

  Lemma storable_members l : Forall (fun m : T * instrument T => fin finite (fst m) /\ storable finite (snd m)) l ->
    (fix go (l : list (T * instrument T)) : Prop :=
       match l with [] => True | (w, u) :: l' => (fin finite w /\ storable finite u) /\ go l' end) l.
  Proof. induction 1 as [|[w u] l H _ IH]; [exact I | split; assumption]. Qed.

  Lemma made_instrument_size n : forall v, (vsize v < n)%nat -> conforms v (TTagged TrInstrument) ->
    made val_of_instrument (storable finite) v.
  Proof.
    induction n as [|n IH]; [lia|]. intros v L H. tagged H.
    - known_part. eexists (ICurrency _). split; [reflexivity | exact H].
    - all_parts. eexists (ICreditEntity _ _ _). split; [reflexivity | cbn; tauto].
    - all_parts. eexists (IEquity _ _ _ _). split; [reflexivity | cbn; tauto].
    - all_parts. eexists (IZeroCoupon _ _ _ _ _ _). split; [reflexivity | cbn; tauto].
    - all_parts.
      match goal with K : Forall _ ?l |- _ =>
        assert (M : Forall (made (fun m => match m with (w, u) => VTuple [VNum w; VShared ShInstrument (val_of_instrument u)] end)
                       (fun m => fin finite (fst m) /\ storable finite (snd m))) l) end.
      { rewrite Forall_forall in *. intros u M.
        match goal with K : forall x, In x _ -> _ |- _ => pose proof (K u M) as C end.
        apply vsize_item in M. parts. cbn [content] in *.
        match goal with K : conforms _ (TTagged TrInstrument) |- _ => apply IH in K as (i & -> & S) end;
          [|cbn [vsize map nsum] in L, M; lia].
        eexists (_, i). split; [reflexivity | split; assumption]. }
      apply made_list in M as (ms & -> & M).
      eexists (IBasket _ _ _ _ ms). split; [reflexivity|]. cbn [storable]. split; [assumption|]. split; [assumption|].
      apply storable_members, M.
    - unfold vanilla_fields in H. cbn [app] in H. all_parts. cbn [content] in *.
      match goal with K : conforms _ (TTagged TrInstrument) |- _ => apply IH in K as (i & -> & S) end;
        [|cbn [vsize map nsum] in L; lia].
      eexists (ISpotEuropean (mkVanilla _ _ i _ _ _ _ _ _) _). split; [reflexivity|]. cbn; unfold storable_vanilla; cbn; tauto.
    - unfold vanilla_fields in H. cbn [app] in H. all_parts. cbn [content] in *.
      match goal with K : conforms _ (TTagged TrInstrument) |- _ => apply IH in K as (i & -> & S) end;
        [|cbn [vsize map nsum] in L; lia].
      eexists (IForwardEuropean (mkVanilla _ _ i _ _ _ _ _ _) _ _ _). split; [reflexivity|].
      cbn; unfold storable_vanilla; cbn; tauto.
  Qed.
  Lemma made_instrument v : conforms v (TTagged TrInstrument) -> made val_of_instrument (storable finite) v.
  Proof. apply (made_instrument_size (S (vsize v))). lia. Qed.

  Lemma made_points {X} (f : X -> val T) (P : X -> Prop) t v : (forall u, conforms u t -> made f P u) -> conforms v (ty_points t) ->
    exists lx rx points, v = val_of_points f lx rx points /\ Forall (fun p => P (fst p) /\ fin finite (snd p)) points.
  Proof.
    intros X' H. unfold ty_points in H. all_parts.
    match goal with K : Forall _ ?l |- _ =>
      assert (M : Forall (made (fun p => match p with (x, y) => VTuple [f x; VNum y] end) (fun p => P (fst p) /\ fin finite (snd p))) l) end.
    { eapply Forall_impl; [|eassumption]. intros u C. cbn beta in C. parts.
      match goal with K : conforms _ t |- _ => apply X' in K as (a & -> & Pa) end.
      eexists (a, _). split; [reflexivity | split; assumption]. }
    apply made_list in M as (ps & -> & M). eexists _, _, ps. split; [reflexivity | exact M].
  Qed.

  Lemma made_linear v : conforms v (ty_points TDate) -> made val_of_linear (storable_linear finite) v.
  Proof.
    intros H. apply (made_points VDate proper TDate v made_date) in H as (lx & rx & ps & -> & P).
    exists (mkLinear lx rx ps). split; [reflexivity | exact P].
  Qed.

  Lemma made_curve_size n : forall v, (vsize v < n)%nat -> conforms v (TTagged TrRateCurve) ->
    made val_of_curve (storable_curve finite) v.
  Proof.
    induction n as [|n IH]; [lia|]. intros v L H. tagged H.
    - parts. eexists (ZeroRateCurve _). split; [reflexivity | assumption].
    - repeat first [match goal with K : conforms _ (ty_points TDate) |- _ => apply made_linear in K as (? & -> & K) end | part].
      eexists (RateCurveAct365 _ _). split; [reflexivity | split; assumption].
    - parts. match goal with K : conforms _ _ |- _ => apply IH in K as (c & -> & S) end; [|cbn [vsize map nsum] in L; lia].
      eexists (AnnualisedFlatBump c _). split; [reflexivity | split; assumption].
    - parts. match goal with K : conforms _ _ |- _ => apply IH in K as (c & -> & S) end; [|cbn [vsize map nsum] in L; lia].
      eexists (ContinuouslyCompoundedFlatBump c _). split; [reflexivity | split; assumption].
    - parts. match goal with K : conforms _ _ |- _ => apply IH in K as (c & -> & S) end; [|cbn [vsize map nsum] in L; lia].
      eexists (RelativeBump c _). split; [reflexivity | split; assumption].
  Qed.
  Lemma made_curve v : conforms v (TTagged TrRateCurve) -> made val_of_curve (storable_curve finite) v.
  Proof. apply (made_curve_size (S (vsize v))). lia. Qed.

  Lemma made_dividend v : conforms v (TStruct false [("cash", TF64); ("relative", TF64); ("ex_date", TDate); ("pay_date", TDate)]) ->
    made val_of_dividend (fun d => fin finite (cash d) /\ fin finite (relative d) /\ proper (ex_date d) /\ proper (pay_date d)) v.
  Proof. intros H. parts. eexists (mkDiv _ _ _ _). split; [reflexivity | cbn; tauto]. Qed.

  Lemma made_stream v : conforms v ty_dividends -> made val_of_stream (storable_stream finite) v.
  Proof.
    intros H. unfold ty_dividends in H. parts.
    match goal with K : conforms _ (TTagged TrRateCurve) |- _ => apply made_curve in K as (c & -> & S) end.
    match goal with K : Forall _ ?l |- _ => apply (Forall_impl _ made_dividend) in K; apply made_list in K as (ds & -> & K) end.
    eexists (mkStream ds c _). split; [reflexivity | repeat (split; [assumption|]); assumption].
  Qed.

  Lemma made_map {A} (f : A -> val T) (P : A -> Prop) t v : (forall u, conforms u t -> made f P u) -> conforms v (TMap t) ->
    made (val_of_map f) (storable_map P) v.
  Proof.
    intros M H. apply is_map in H as (m & -> & ND & H).
    assert (E : exists m', m = map (fun e => match e with (n, a) => (n, f a) end) m' /\ Forall (fun e => P (snd e)) m').
    { clear ND. induction H as [|[n u] m C _ (m' & -> & F)]; [exists []; split; [reflexivity | constructor]|].
      cbn [snd] in C. destruct (M u C) as (a & -> & Pa). exists ((n, a) :: m'). split; [reflexivity | constructor; assumption]. }
    destruct E as (m' & -> & F). exists m'. split; [reflexivity|]. split; [|exact F].
    unfold keys in *. rewrite map_map in ND. erewrite map_ext; [exact ND|]. intros [n a]. reflexivity.
  Qed.

  Lemma made_numbers n n' v : conforms v (TStruct false [(n, TF64); (n', TF64)]) -> made (val_of_pair n n') (storable_pair finite) v.
  Proof. intros H. parts. eexists (_, _). split; [reflexivity | split; assumption]. Qed.

  Lemma storable_reports l : Forall (storable_report finite) l ->
    (fix go (l : list (report T)) : Prop := match l with [] => True | u :: l' => storable_report finite u /\ go l' end) l.
  Proof. induction 1 as [|u l H _ IH]; [exact I | split; assumption]. Qed.
  Lemma made_report_size n : forall v, (vsize v < n)%nat -> conforms v (TTagged TrReport) ->
    made val_of_report (storable_report finite) v.
  Proof.
    induction n as [|n IH]; [lia|]. intros v L H. tagged H; cbn [map] in *.
    - apply is_struct in H as (fs & -> & H). apply is_field in H as (u & fs' & -> & C & H).
      apply is_field in H as (u' & fs'' & -> & C' & H). apply is_end in H as ->.
      apply (made_map _ _ _ _ (made_numbers "delta" "gamma")) in C' as (m & -> & S). parts.
      eexists (DeltaGammaReport _ m). split; [reflexivity | split; assumption].
    - apply is_struct in H as (fs & -> & H). apply is_field in H as (u & fs' & -> & C & H).
      apply is_field in H as (u' & fs'' & -> & C' & H). apply is_end in H as ->.
      apply (made_map _ _ _ _ (made_numbers "vega" "volga")) in C' as (m & -> & S). parts.
      eexists (VegaVolgaReport _ m). split; [reflexivity | split; assumption].
    - parts. match goal with K : Forall _ ?l |- _ => assert (M : Forall (made val_of_report (storable_report finite)) l) end.
      { rewrite Forall_forall in *. intros u M.
        match goal with K : forall x, In x _ -> _ |- _ => pose proof (K u M) as C end.
        apply vsize_item in M. apply IH; [cbn [vsize map nsum] in L; lia | exact C]. }
      apply made_list in M as (rs & -> & M). eexists (TimeBumpedReport _ _ rs). split; [reflexivity|].
      cbn [storable_report]. split; [assumption|]. split; [assumption|]. apply storable_reports, M.
  Qed.
  Lemma made_report v : conforms v (TTagged TrReport) -> made val_of_report (storable_report finite) v.
  Proof. apply (made_report_size (S (vsize v))). lia. Qed.

  Lemma made_bump_vol v : conforms v ty_bump_vol -> made val_of_bump_vol (storable_bump_vol finite) v.
  Proof.
    unfold ty_bump_vol. destruct v as [| | | | |n|n u| | | | | |]; cbn [S_Serde.conforms]; try tauto.
    - cbn [get]. destruct (String.eqb n "FlatAdditive"), (String.eqb n "TimeScaled"), (String.eqb n "Replace"); discriminate.
    - intros (t & G & H). cbn [get] in G.
      destruct (String.eqb_spec n "FlatAdditive") as [->|_]; [|destruct (String.eqb_spec n "TimeScaled") as [->|_];
        [|destruct (String.eqb_spec n "Replace") as [->|_]; [|discriminate G]]]; assert (E := G); clear G;
        injection E as <-; parts.
      + eexists (FlatAdditive _). split; [reflexivity | assumption].
      + eexists (TimeScaled _ _). split; [reflexivity | split; assumption].
      + eexists (ReplaceVol _). split; [reflexivity | assumption].
  Qed.
  Lemma storable_generators l : Forall (storable_generator finite) l ->
    (fix go (l : list (generator T)) : Prop := match l with [] => True | u :: l' => storable_generator finite u /\ go l' end) l.
  Proof. induction 1 as [|u l H _ IH]; [exact I | split; assumption]. Qed.
  Lemma made_bump_time v : conforms v ty_bump_time ->
    made val_of_bump_time (fun b => proper (bsd_date (bt_spot_date_bump b)) /\ proper (bt_ex_from b)) v.
  Proof.
    unfold ty_bump_time. intros H. parts. one; [eexists (mkBumpTime (mkBumpSpotDate _ StickySpot) _) |
      eexists (mkBumpTime (mkBumpSpotDate _ StickyForward) _)]; (split; [reflexivity | split; assumption]).
  Qed.
  Lemma made_generator_size n : forall v, (vsize v < n)%nat -> conforms v (TTagged TrReportGenerator) ->
    made val_of_generator (storable_generator finite) v.
  Proof.
    induction n as [|n IH]; [lia|]. intros v L H. tagged H.
    - parts. eexists (DeltaGammaGenerator _). split; [reflexivity | assumption].
    - apply is_struct in H as (fs & -> & H). apply is_field in H as (u & fs' & -> & C & H). apply is_end in H as ->.
      apply made_bump_vol in C as (b & -> & S). exists (VegaVolgaGenerator b). split; [reflexivity | exact S].
    - apply is_struct in H as (fs & -> & H). apply is_field in H as (u & fs' & -> & C & H).
      apply made_bump_time in C as (b & -> & S). parts.
      match goal with K : Forall _ ?l |- _ => assert (M : Forall (made val_of_generator (storable_generator finite)) l) end.
      { rewrite Forall_forall in *. intros u M.
        match goal with K : forall x, In x _ -> _ |- _ => pose proof (K u M) as C end.
        apply vsize_item in M. apply IH; [cbn [vsize map nsum] in L; lia | exact C]. }
      apply made_list in M as (gs & -> & M). exists (TimeBumpedGenerator b gs). split; [reflexivity|].
      cbn [storable_generator]. destruct S. split; [assumption|]. split; [assumption|]. apply storable_generators, M.
  Qed.
  Lemma made_generator v : conforms v (TTagged TrReportGenerator) -> made val_of_generator (storable_generator finite) v.
  Proof. apply (made_generator_size (S (vsize v))). lia. Qed.

  Lemma made_factory v : conforms v (TTagged TrPricerFactory) -> made val_of_factory (storable_factory finite) v.
  Proof.
    intros H. tagged H; parts.
    - match goal with K : conforms _ _ |- _ => tagged K end. parts.
      match goal with |- made _ _ (VTagged _ _ (VStruct [(_, VTagged _ _ (VStruct [(_, VInt ?c); (_, VNum ?p); (_, VInt ?n)]))])) =>
        exists (MonteCarloPricerFactory c (mkFactory p (Z.to_nat n))) end.
      unfold val_of_factory, storable_factory. cbn [df_path_substep df_n_paths]. rewrite Z2Nat.id by tauto.
      split; [reflexivity | repeat split; tauto].
    - exists SelfPricerFactory. split; [reflexivity | exact I].
  Qed.
End Made.
