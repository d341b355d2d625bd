(** Proofs: the objects of the model as serialisation sees them. *)
From Coq Require Import ZArith List String Bool Lia.
From Verif Require Import Prelude Num M_Dates M_Calendar M_Interp M_Curves M_Fixings M_Forward M_Vol M_Black76 M_Instruments
  M_Risk M_Reports M_Schema M_Serde M_Objects S_Serde S_Objects L_Fixings L_Instruments L_Serde.
Import ListNotations.
Open Scope string_scope.
Open Scope list_scope.

Lemma every_map {A B} (P : B -> Prop) (f : A -> B) l : every P (map f l) <-> Forall (fun a => P (f a)) l.
Proof.
  induction l as [|a l IH]; cbn [map every]; [split; auto|]. rewrite IH.
  split; [intros [H K]; constructor; assumption | intros H; inversion H; auto].
Qed.

Lemma flat_map_nil {A B} (f : A -> list B) l : (forall a, In a l -> f a = []) -> flat_map f l = [].
Proof. induction l as [|a l IH]; cbn [flat_map In]; intros H; [reflexivity|]. rewrite H, IH; auto. Qed.

Lemma map_id_on {A} (f : A -> A) l : (forall a, In a l -> f a = a) -> map f l = l.
Proof. induction l as [|a l IH]; cbn [map In]; intros H; [reflexivity|]. rewrite H, IH; auto. Qed.

Lemma mapM_back {A B} (f : A -> B) (g : B -> res A) l : (forall a, In a l -> g (f a) = Ok a) -> mapM g (map f l) = Ok l.
Proof.
  induction l as [|a l IH]; cbn [map mapM In]; intros H; [reflexivity|].
  rewrite H by auto. cbn [bind]. rewrite IH by auto. reflexivity.
Qed.

Ltac distinct := repeat (apply NoDup_cons; [cbn; intuition discriminate|]); apply NoDup_nil.
Ltac enum := cbn; reflexivity.
Ltac tag := split; [reflexivity|]; eexists; eexists; split; [left; reflexivity|]; split; [reflexivity|].
Ltac struct := split; [distinct|]; repeat (split; [reflexivity|]; split); [..|exact I].

Section Fits.
  Context {T : Type} {N : Num T} {TR : Trans T}.
  Variable finite : T -> bool.

  (** An object without shared parts, at its type. *)
  Definition fits (v : val T) (t : ty) : Prop := conforms finite v t /\ sharing v = [] /\ loaded v = v.

  Lemma fits_num x : fin finite x -> fits (VNum x) TF64.
  Proof. intros H. split; [exact H | split; reflexivity]. Qed.
  Lemma fits_date d : proper d -> fits (VDate d) TDate.
  Proof. intros H. split; [exact H | split; reflexivity]. Qed.
  Lemma fits_str s : fits (VStr s) TStr.
  Proof. repeat split. Qed.
  Lemma fits_bool b : fits (VBool b) TBool.
  Proof. repeat split. Qed.
  Lemma fits_unit n names : In n names -> fits (VUnit n) (unit_enum names).
  Proof.
    intros I. split; [|split; reflexivity]. cbn [conforms unit_enum].
    induction names as [|m names IH]; cbn [In map get] in *; [contradiction|].
    destruct (String.eqb_spec n m) as [->|ne]; [reflexivity|]. apply IH. destruct I; [congruence | assumption].
  Qed.

  Lemma fits_nil_tuple : fits (VTuple []) (TTuple []).
  Proof. repeat split. Qed.
  Lemma fits_tuple2 u v t t' : fits u t -> fits v t' -> fits (VTuple [u; v]) (TTuple [t; t']).
  Proof.
    intros (C & S & L) (C' & S' & L'). split; [cbn; auto|]. cbn [sharing flat_map loaded map]. rewrite S, S', L, L'. auto.
  Qed.
  Lemma fits_vec {A} (f : A -> val T) t l : (forall a, In a l -> fits (f a) t) -> fits (VVec (map f l)) (TVec t).
  Proof.
    intros H. split; [|cbn [sharing loaded]; split].
    - cbn [conforms]. apply every_map, Forall_forall. intros a I. apply H, I.
    - apply flat_map_nil. intros v I. apply in_map_iff in I. destruct I as (a & <- & I). apply H, I.
    - f_equal. apply map_id_on. intros v I. apply in_map_iff in I. destruct I as (a & <- & I). apply H, I.
  Qed.
  Lemma fits_map {A} (f : A -> val T) t m : NoDup (keys m) -> (forall n a, In (n, a) m -> fits (f a) t) ->
    fits (val_of_map f m) (TMap t).
  Proof.
    intros ND H. unfold val_of_map. split; [|cbn [sharing loaded]; split].
    - cbn [conforms]. split.
      + unfold keys in *. rewrite map_map. rewrite (map_ext _ fst); [exact ND | intros [? ?]; reflexivity].
      + apply every_map, Forall_forall. intros [n a] I. exact (proj1 (H n a I)).
    - apply flat_map_nil. intros v I. apply in_map_iff in I. destruct I as ([n a] & <- & I). apply (H n a I).
    - f_equal. apply map_id_on. intros v I. apply in_map_iff in I. destruct I as ([n a] & <- & I).
      rewrite (proj2 (proj2 (H n a I))). reflexivity.
  Qed.

  Inductive fits_fields : list (string * val T) -> list (string * ty) -> Prop :=
  | fits_none : fits_fields [] []
  | fits_more n v t fs ts : fits v t -> fits_fields fs ts -> fits_fields ((n, v) :: fs) ((n, t) :: ts).

  Lemma fits_struct flat fs ts : NoDup (keys ts) -> fits_fields fs ts -> fits (VStruct fs) (TStruct flat ts).
  Proof.
    intros ND H.
    assert (K : keys fs = keys ts /\ fields_conform (conforms finite) fs ts /\
                flat_map (fun e : string * val T => match e with (_, u) => sharing u end) fs = [] /\
                map (fun e : string * val T => match e with (n, u) => (n, loaded u) end) fs = fs).
    { clear ND. induction H as [|n v t fs ts (C & S & L) _ (Kk & Kc & Ks & Kl)]; [repeat split|].
      unfold keys in *. cbn [map fst flat_map fields_conform]. rewrite Kk, S, Ks, L, Kl. auto. }
    destruct K as (Kk & Kc & Ks & Kl). split; [|split].
    - cbn [conforms]. rewrite Kk. auto.
    - exact Ks.
    - cbn [loaded]. rewrite Kl. reflexivity.
  Qed.

  Lemma fits_tagged tr tag v t : get tag (registry tr) = Some t -> read_type_id tr tag = Some tag -> fits v t ->
    fits (VTagged tr (Some tag) v) (TTagged tr).
  Proof.
    intros G R (C & S & L). split; [|split].
    - cbn [conforms]. split; [reflexivity|]. exists tag, t. auto.
    - exact S.
    - cbn [loaded]. rewrite R, L. reflexivity.
  Qed.

  Ltac fields := repeat (apply fits_more; [|]); [..|apply fits_none].

  Lemma fits_datetime d : proper (dt_date d) -> fits (val_of_datetime d) ty_date_time.
  Proof.
    intros H. apply fits_struct; [distinct|]. fields; [apply fits_date, H|].
    apply fits_unit. destruct (dt_tod d); cbn; auto.
  Qed.
  Lemma fits_ddf d : storable_ddf finite d -> fits (val_of_ddf d) ty_ddf.
  Proof. intros [H K]. apply fits_struct; [distinct|]. fields; [apply fits_date, H | apply fits_num, K]. Qed.

  Lemma fits_calendar c : storable_calendar finite c -> fits (val_of_calendar c) (TTagged TrCalendar).
  Proof.
    induction c as [| |name hols|name inner IH w]; cbn [storable_calendar val_of_calendar]; intros H.
    - eapply fits_tagged; [reflexivity | reflexivity | apply fits_nil_tuple].
    - eapply fits_tagged; [reflexivity | reflexivity | apply fits_nil_tuple].
    - eapply fits_tagged; [reflexivity | reflexivity |]. apply fits_struct; [distinct|]. fields; [apply fits_str|].
      apply fits_vec. intros d I. apply fits_date. rewrite Forall_forall in H. apply H, I.
    - destruct H as [H K]. eapply fits_tagged; [reflexivity | reflexivity |]. apply fits_struct; [distinct|].
      fields; [apply fits_str | apply IH, H | apply fits_num, K].
  Qed.
  Lemma fits_rule r : storable_rule finite r -> fits (val_of_rule r) (TTagged TrDateRule).
  Proof.
    destruct r as [|cal step slip|cal]; cbn [storable_rule val_of_rule]; intros H.
    - eapply fits_tagged; [reflexivity | reflexivity |]. apply fits_struct; [distinct|]. fields.
    - destruct H as [H K]. eapply fits_tagged; [reflexivity | reflexivity |]. apply fits_struct; [distinct|].
      fields; [apply fits_calendar, H | split; [exact K | split; reflexivity] | apply fits_bool].
    - eapply fits_tagged; [reflexivity | reflexivity |]. apply fits_struct; [distinct|]. fields. apply fits_calendar, H.
  Qed.
  Lemma fits_currency c : storable_currency finite c -> fits (val_of_currency c) ty_currency.
  Proof. intros H. apply fits_struct; [distinct|]. fields; [apply fits_str | apply fits_rule, H]. Qed.

  Lemma fits_points {X} (f : X -> val T) tx lx rx l : (forall x y, In (x, y) l -> fits (f x) tx /\ fin finite y) ->
    fits (val_of_points f lx rx l) (ty_points tx).
  Proof.
    intros H. apply fits_struct; [distinct|]. fields.
    - apply fits_unit. destruct lx; cbn; auto 6.
    - apply fits_unit. destruct rx; cbn; auto 6.
    - apply fits_vec. intros [x y] I. destruct (H x y I) as [Hx Hy]. apply fits_tuple2; [exact Hx | apply fits_num, Hy].
  Qed.
  Lemma fits_linear l : storable_linear finite l -> fits (val_of_linear l) (ty_points TDate).
  Proof.
    intros H. apply fits_points. intros x y I. unfold storable_linear in H. rewrite Forall_forall in H.
    destruct (H _ I) as [Hx Hy]. split; [apply fits_date, Hx | exact Hy].
  Qed.
  Lemma fits_curve c : storable_curve finite c -> fits (val_of_curve c) (TTagged TrRateCurve).
  Proof.
    induction c as [base|base l|c IH b|c IH b|c IH b]; cbn [storable_curve val_of_curve]; intros H;
      (eapply fits_tagged; [reflexivity | reflexivity |]); (apply fits_struct; [distinct|]); fields.
    - apply fits_date, H.
    - apply fits_date, H.
    - apply fits_linear, H.
    - apply IH, H.
    - apply fits_num, H.
    - apply IH, H.
    - apply fits_num, H.
    - apply IH, H.
    - apply fits_num, H.
  Qed.
  Lemma fits_stream s : storable_stream finite s -> fits (val_of_stream s) ty_dividends.
  Proof.
    intros (H & K & L). apply fits_struct; [distinct|]. fields; [| apply fits_curve, K | apply fits_date, L].
    apply fits_vec. intros d I. rewrite Forall_forall in H. destruct (H d I) as (Hc & Hr & He & Hp).
    apply fits_struct; [distinct|]. fields; [apply fits_num, Hc | apply fits_num, Hr | apply fits_date, He | apply fits_date, Hp].
  Qed.
  Lemma fits_storable_map {A} (f : A -> val T) (P : A -> Prop) t m : storable_map P m -> (forall a, P a -> fits (f a) t) ->
    fits (val_of_map f m) (TMap t).
  Proof.
    intros [ND F] H. apply fits_map; [exact ND|]. intros n a I. apply H. rewrite Forall_forall in F. exact (F (n, a) I).
  Qed.
  Lemma fits_fixing_table t : storable_table finite t -> fits (val_of_fixing_table t) ty_fixing_table.
  Proof.
    intros [H K]. apply fits_struct; [distinct|]. fields; [apply fits_date, H|].
    apply (fits_storable_map _ _ _ _ K). intros f [_ F]. apply fits_struct; [distinct|]. fields.
    apply fits_vec. intros [d x] I. rewrite Forall_forall in F. destruct (F _ I) as [Hd Hx].
    apply fits_tuple2; [apply fits_datetime, Hd | apply fits_num, Hx].
  Qed.

  Lemma fits_pairs n n' m : n <> n' -> storable_map (storable_pair finite) m ->
    fits (val_of_map (val_of_pair n n') m) (TMap (TStruct false [(n, TF64); (n', TF64)])).
  Proof.
    intros D H. apply (fits_storable_map _ _ _ _ H). intros [x y] [Hx Hy].
    apply fits_struct; [repeat constructor; cbn; intuition congruence|]. fields; apply fits_num; assumption.
  Qed.

  Section ReportInd.
    Variable P : report T -> Prop.
    Hypothesis HD : forall x m, P (DeltaGammaReport x m).
    Hypothesis HV : forall x m, P (VegaVolgaReport x m).
    Hypothesis HT : forall p th l, Forall P l -> P (TimeBumpedReport p th l).
    Fixpoint report_nested_ind (r : report T) : P r :=
      match r with
      | DeltaGammaReport x m => HD x m
      | VegaVolgaReport x m => HV x m
      | TimeBumpedReport p th l => HT p th l
          ((fix go l : Forall P l :=
              match l with [] => Forall_nil _ | r' :: l' => Forall_cons r' (report_nested_ind r') (go l') end) l)
      end.
  End ReportInd.
  Section GeneratorInd.
    Variable P : generator T -> Prop.
    Hypothesis HD : forall x, P (DeltaGammaGenerator x).
    Hypothesis HV : forall b, P (VegaVolgaGenerator b).
    Hypothesis HT : forall b l, Forall P l -> P (TimeBumpedGenerator b l).
    Fixpoint generator_nested_ind (g : generator T) : P g :=
      match g with
      | DeltaGammaGenerator x => HD x
      | VegaVolgaGenerator b => HV b
      | TimeBumpedGenerator b l => HT b l
          ((fix go l : Forall P l :=
              match l with [] => Forall_nil _ | g' :: l' => Forall_cons g' (generator_nested_ind g') (go l') end) l)
      end.
  End GeneratorInd.

  Lemma fits_report r : storable_report finite r -> fits (val_of_report r) (TTagged TrReport).
  Proof.
    induction r as [x m|x m|p th l IH] using report_nested_ind; cbn [storable_report val_of_report]; intros H;
      (eapply fits_tagged; [reflexivity | reflexivity |]); (apply fits_struct; [distinct|]); fields.
    - apply fits_num, H.
    - apply fits_pairs; [discriminate | apply H].
    - apply fits_num, H.
    - apply fits_pairs; [discriminate | apply H].
    - apply fits_num, H.
    - apply fits_num, H.
    - destruct H as (_ & _ & H). apply fits_vec. intros r I. induction IH as [|r' l Hr _ IHl]; [destruct I|].
      destruct H as [H1 H2]. destruct I as [->|I]; [apply Hr, H1 | apply (IHl H2 I)].
  Qed.

  Lemma fits_bump_vol b : storable_bump_vol finite b -> fits (val_of_bump_vol b) ty_bump_vol.
  Proof.
    assert (V : forall n v t variants, get n variants = Some (Some t) -> fits v t -> fits (VVariant n v) (TEnum variants)).
    { intros n v t vs G (C & S & L). split; [cbn [conforms]; eauto | split; [exact S | cbn [loaded]; rewrite L; reflexivity]]. }
    destruct b as [x|x y|x]; cbn [storable_bump_vol val_of_bump_vol]; intros H; (eapply V; [reflexivity|]);
      (apply fits_struct; [distinct|]); fields; apply fits_num; apply H.
  Qed.
  Lemma fits_generator g : storable_generator finite g -> fits (val_of_generator g) (TTagged TrReportGenerator).
  Proof.
    induction g as [x|b|b l IH] using generator_nested_ind; cbn [storable_generator val_of_generator]; intros H;
      (eapply fits_tagged; [reflexivity | reflexivity |]); (apply fits_struct; [distinct|]); fields.
    - apply fits_num, H.
    - apply fits_bump_vol, H.
    - destruct H as (H & K & _). apply fits_struct; [distinct|]. fields; [|apply fits_date, K].
      apply fits_struct; [distinct|]. fields; [apply fits_date, H|].
      apply fits_unit. destruct (bsd_dynamics _); cbn; auto.
    - destruct H as (_ & _ & H). apply fits_vec. intros r I. induction IH as [|r' l Hr _ IHl]; [destruct I|].
      destruct H as [H1 H2]. destruct I as [->|I]; [apply Hr, H1 | apply (IHl H2 I)].
  Qed.

  (** ** And back *)

  Lemma back_datetime d : datetime_of_val (val_of_datetime d : val T) = Ok d.
  Proof. destruct d as [d [| |]]; reflexivity. Qed.
  Lemma back_ddf (d : ddf T) : ddf_of_val (val_of_ddf d) = Ok d.
  Proof. destruct d; reflexivity. Qed.
  Lemma back_calendar (c : calendar T) : calendar_of_val (val_of_calendar c) = Ok c.
  Proof.
    induction c as [| |name hols|name inner IH w]; cbn [val_of_calendar calendar_of_val]; try reflexivity.
    - rewrite mapM_back by reflexivity. reflexivity.
    - destruct (val_of_calendar inner) eqn:E; try discriminate; rewrite IH; reflexivity.
  Qed.
  Lemma calendar_tagged (c : calendar T) : exists tag v, val_of_calendar c = VTagged TrCalendar tag v.
  Proof. destruct c; cbn [val_of_calendar]; eauto. Qed.
  Lemma back_rule (r : date_rule T) : rule_of_val (val_of_rule r) = Ok r.
  Proof.
    destruct r as [|cal step slip|cal]; cbn [val_of_rule rule_of_val]; [reflexivity| |]; rewrite back_calendar; reflexivity.
  Qed.
  Lemma back_currency (c : currency T) : currency_of_val (val_of_currency c) = Ok c.
  Proof. destruct c as [id s]. cbn [val_of_currency currency_of_val cur_id cur_settlement]. rewrite back_rule. reflexivity. Qed.
  Lemma back_rc_currency (c : currency T) : rc_currency_of_val (val_of_rc_currency c) = Ok c.
  Proof. apply back_currency. Qed.

  Lemma back_points {X} (f : X -> val T) (g : val T -> res X) lx rx l : (forall x, g (f x) = Ok x) ->
    points_of_val g (val_of_points f lx rx l) = Ok (lx, rx, l).
  Proof.
    intros H. cbn [val_of_points points_of_val].
    assert (E : forall e, extrap_of_name (extrap_name e) = Ok e) by (intros []; reflexivity).
    rewrite !E. cbn [bind]. rewrite mapM_back; [reflexivity|]. intros [x y] _. rewrite H. reflexivity.
  Qed.
  Lemma back_linear (l : linear T date) : linear_of_val (val_of_linear l) = Ok l.
  Proof. unfold linear_of_val, val_of_linear. rewrite back_points by reflexivity. destruct l; reflexivity. Qed.
  Lemma back_curve (c : curve T) : curve_of_val (val_of_curve c) = Ok c.
  Proof.
    induction c as [base|base l|c IH b|c IH b|c IH b]; cbn [val_of_curve curve_of_val]; try reflexivity;
      try (destruct (val_of_curve c) eqn:E; try discriminate; rewrite IH; reflexivity).
    rewrite back_linear. reflexivity.
  Qed.
  Lemma back_stream (s : div_stream T) : stream_of_val (val_of_stream s) = Ok s.
  Proof.
    destruct s as [ds y last]. cbn [val_of_stream stream_of_val dividends div_yield last_cash_ex_date].
    rewrite mapM_back by (intros [] _; reflexivity). cbn [bind]. rewrite back_curve. reflexivity.
  Qed.
  Lemma back_map {A} (f : A -> val T) (g : val T -> res A) (m : smap A) : (forall n a, In (n, a) m -> g (f a) = Ok a) ->
    map_of_val g (val_of_map f m) = Ok m.
  Proof. intros H. cbn [val_of_map map_of_val]. apply mapM_back. intros [n a] I. rewrite (H n a I). reflexivity. Qed.

  Lemma dt_put_absent (k : datetime) (x : T) m : ~ In k (map fst m) -> dt_put k x m = m ++ [(k, x)].
  Proof.
    induction m as [|[k' x'] m IH]; cbn [dt_put map fst In app]; intros H; [reflexivity|].
    destruct (dt_eqb k k') eqn:E; [exfalso; apply H; left; symmetry; apply dt_eqb_iff, E|]. rewrite IH by tauto. reflexivity.
  Qed.
  Lemma load_distinct (f : fixings T) : NoDup (map fst f) -> fixings_load f = f.
  Proof.
    unfold fixings_load. change f with ([] ++ f) at 1 3. generalize (@nil (datetime * T)) as before.
    induction f as [|[k x] f IH]; intros before; cbn [fold_left]; [intros _; rewrite app_nil_r; reflexivity|].
    intros ND. cbn [fst snd]. rewrite dt_put_absent.
    - rewrite IH; rewrite <- app_assoc; [reflexivity | exact ND].
    - rewrite map_app in ND. cbn [map fst] in ND. apply NoDup_remove_2 in ND. intros I. apply ND, in_or_app. left. exact I.
  Qed.
  Lemma back_fixing_table (t : fixing_table T) : storable_table finite t -> fixing_table_of_val (val_of_fixing_table t) = Ok t.
  Proof.
    destruct t as [d m]. intros [_ [_ F]]. cbn [known_until by_id val_of_fixing_table fixing_table_of_val] in *.
    rewrite back_map; [reflexivity|]. intros n f I. rewrite Forall_forall in F. destruct (F _ I) as [ND _]. cbn [snd] in ND.
    cbn [val_of_fixings fixings_of_val]. rewrite mapM_back.
    - cbn [bind]. rewrite load_distinct by exact ND. reflexivity.
    - intros [k x] _. rewrite back_datetime. reflexivity.
  Qed.

  Lemma back_report (r : report T) : report_of_val (val_of_report r) = Ok r.
  Proof.
    induction r as [x m|x m|p th l IH] using report_nested_ind; cbn [val_of_report report_of_val].
    - rewrite back_map by (intros ? [] _; reflexivity). reflexivity.
    - rewrite back_map by (intros ? [] _; reflexivity). reflexivity.
    - induction IH as [|r l Hr _ IHl]; [reflexivity|].
      cbn [map]. rewrite Hr. cbn [bind].
      match type of IHl with context [bind ?e] => destruct e as [rs|e'|e']; cbn [bind] in *; [|discriminate|discriminate] end.
      injection IHl as ->. reflexivity.
  Qed.

  Lemma back_bump_vol (b : bump_vol T) : bump_vol_of_val (val_of_bump_vol b) = Ok b.
  Proof. destruct b; reflexivity. Qed.
  Lemma back_bump_time b : bump_time_of_val (val_of_bump_time b : val T) = Ok b.
  Proof. destruct b as [[d []] e]; reflexivity. Qed.
  Lemma back_generator (g : generator T) : generator_of_val (val_of_generator g) = Ok g.
  Proof.
    induction g as [x|b|b l IH] using generator_nested_ind; cbn [val_of_generator generator_of_val].
    - reflexivity.
    - destruct b; reflexivity.
    - rewrite back_bump_time. cbn [bind]. induction IH as [|r l Hr _ IHl]; [reflexivity|].
      cbn [map]. rewrite Hr. cbn [bind].
      match type of IHl with context [bind ?e] => destruct e as [rs|e'|e']; cbn [bind] in *; [|discriminate|discriminate] end.
      injection IHl as ->. reflexivity.
  Qed.

  (** ** Instruments *)

  Lemma back_tod n : pc_of_name (pc_name n) = Ok n.
  Proof. destruct n; reflexivity. Qed.
  Lemma back_cp n : cp_of_name (cp_name n) = Ok n.
  Proof. destruct n; reflexivity. Qed.

  Lemma back_instrument (i : instrument T) : instrument_of_val (val_of_instrument i) = Ok i.
  Proof.
    induction i as [c|id cur s|id cr cur s|id cr cur ex pay s|id cr cur s ms IH|v k IH|v f d x IH]
      using instrument_nested_ind; cbn [val_of_instrument].
    - destruct c as [id s]. cbn [val_of_currency instrument_of_val currency_of_val cur_id cur_settlement].
      rewrite back_rule. destruct (val_of_rule s); reflexivity.
    - cbn [instrument_of_val]. rewrite back_rc_currency, back_rule. reflexivity.
    - cbn [instrument_of_val]. rewrite back_rc_currency, back_rule. reflexivity.
    - cbn [instrument_of_val]. rewrite back_rc_currency, back_rule, back_datetime. reflexivity.
    - cbn [instrument_of_val]. rewrite back_rc_currency, back_rule. cbn [bind].
      induction IH as [|[w u] l Hr _ IHl]; [reflexivity|].
      cbn [map snd] in *. rewrite Hr. cbn [bind].
      match type of IHl with context [bind ?e] => destruct e as [rs|e'|e']; cbn [bind] in *; [|discriminate|discriminate] end.
      injection IHl as ->. reflexivity.
    - cbn [instrument_of_val val_of_vanilla app]. rewrite IH, back_rule, back_datetime, back_tod, back_cp, back_ddf.
      destruct v; reflexivity.
    - cbn [instrument_of_val val_of_vanilla app]. rewrite IH, back_rule, !back_datetime, back_tod, back_cp, !back_ddf.
      destruct v; reflexivity.
  Qed.

  (** An object whose shared parts are at their types and which reading does not change. *)
  Definition suits (v : val T) (t : ty) : Prop := conforms finite v t /\ loaded v = v.
  Lemma fits_suits v t : fits v t -> suits v t.
  Proof. intros (C & _ & L). split; assumption. Qed.
  Lemma suits_shared k v : suits v (content k) -> suits (VShared k v) (TShared k).
  Proof. intros [C L]. split; [cbn [conforms]; auto | cbn [loaded]; rewrite L; reflexivity]. Qed.
  Inductive suits_fields : list (string * val T) -> list (string * ty) -> Prop :=
  | suits_none : suits_fields [] []
  | suits_more n v t fs ts : suits v t -> suits_fields fs ts -> suits_fields ((n, v) :: fs) ((n, t) :: ts).
  Lemma suits_struct flat fs ts : NoDup (keys ts) -> suits_fields fs ts -> suits (VStruct fs) (TStruct flat ts).
  Proof.
    intros ND H.
    assert (K : keys fs = keys ts /\ fields_conform (conforms finite) fs ts /\
                map (fun e : string * val T => match e with (n, u) => (n, loaded u) end) fs = fs).
    { clear ND. induction H as [|n v t fs ts (C & L) _ (Kk & Kc & Kl)]; [repeat split|].
      unfold keys in *. cbn [map fst flat_map fields_conform]. rewrite Kk, L, Kl. auto. }
    destruct K as (Kk & Kc & Kl). split.
    - cbn [conforms]. rewrite Kk. auto.
    - cbn [loaded]. rewrite Kl. reflexivity.
  Qed.
  Lemma suits_tagged tr tag v t : get tag (registry tr) = Some t -> read_type_id tr tag = Some tag -> suits v t ->
    suits (VTagged tr (Some tag) v) (TTagged tr).
  Proof.
    intros G R (C & L). split.
    - cbn [conforms]. split; [reflexivity|]. exists tag, t. auto.
    - cbn [loaded]. rewrite R, L. reflexivity.
  Qed.
  Ltac sfields := repeat (apply suits_more; [|]); [..|apply suits_none].

  Lemma suits_rc_currency c : storable_currency finite c -> suits (val_of_rc_currency c) (TShared ShCurrency).
  Proof. intros H. apply suits_shared, fits_suits, fits_currency, H. Qed.

  Lemma suits_vanilla (v : vanilla T) u fs ts : storable_vanilla finite v -> suits u (TTagged TrInstrument) ->
    suits_fields fs ts -> suits_fields (val_of_vanilla u v ++ fs) (vanilla_fields ++ ts).
  Proof.
    intros (Hs & He & Ht & Hp) U F. unfold val_of_vanilla, vanilla_fields. cbn [app].
    repeat (apply suits_more; [|]); [..|exact F].
    - apply fits_suits, fits_str.
    - apply fits_suits, fits_str.
    - apply suits_shared, U.
    - apply fits_suits, fits_rule, Hs.
    - apply fits_suits, fits_datetime, He.
    - apply fits_suits, fits_unit. destruct (van_put_or_call v); cbn; auto.
    - apply fits_suits, fits_unit. destruct (van_cash_or_physical v); cbn; auto.
    - apply fits_suits, fits_ddf, Ht.
    - apply fits_suits, fits_date, Hp.
  Qed.

  Lemma suits_instrument i : storable finite i -> suits (val_of_instrument i) (TTagged TrInstrument).
  Proof.
    induction i as [c|id cur s|id cr cur s|id cr cur ex pay s|id cr cur s ms IH|v k IH|v f d x IH]
      using instrument_nested_ind; cbn [storable val_of_instrument]; intros H;
      (eapply suits_tagged; [reflexivity | reflexivity |]).
    - apply fits_suits, fits_currency, H.
    - destruct H as [Hc Hs]. apply suits_struct; [distinct|].
      sfields; [apply fits_suits, fits_str | apply suits_rc_currency, Hc | apply fits_suits, fits_rule, Hs].
    - destruct H as [Hc Hs]. apply suits_struct; [distinct|].
      sfields; [apply fits_suits, fits_str | apply fits_suits, fits_str | apply suits_rc_currency, Hc | apply fits_suits, fits_rule, Hs].
    - destruct H as (Hc & He & Hp & Hs). apply suits_struct; [distinct|].
      sfields; [apply fits_suits, fits_str | apply fits_suits, fits_str | apply suits_rc_currency, Hc |
                apply fits_suits, fits_datetime, He | apply fits_suits, fits_date, Hp | apply fits_suits, fits_rule, Hs].
    - destruct H as (Hc & Hs & Hm). apply suits_struct; [distinct|].
      sfields; [apply fits_suits, fits_str | apply fits_suits, fits_str | apply suits_rc_currency, Hc |
                apply fits_suits, fits_rule, Hs |].
      induction IH as [|[w u] l Hu _ IHl]; [repeat split|].
      destruct Hm as [[Hw Hu'] Hl]. destruct (IHl Hl) as [C L]. destruct (Hu Hu') as [Cu Lu]. cbn [snd] in *. split.
      + cbn [map conforms every tuple_conforms content] in *. repeat split; assumption.
      + cbn [map loaded] in *. rewrite Lu. injection L as L. rewrite L. reflexivity.
    - destruct H as (Hv & Hu & Hk). apply suits_struct; [distinct|]. apply suits_vanilla; [exact Hv | apply IH, Hu |].
      sfields. apply fits_suits, fits_num, Hk.
    - destruct H as (Hv & Hu & Hf & Hd & Hx). apply suits_struct; [distinct|]. apply suits_vanilla; [exact Hv | apply IH, Hu |].
      sfields; [apply fits_suits, fits_num, Hf | apply fits_suits, fits_datetime, Hd | apply fits_suits, fits_ddf, Hx].
  Qed.
End Fits.
