(** Proofs: instruments, market data, fixings, reports and generators written and read back. *)
From Coq Require Import ZArith List String Bool Lia.
From Verif Require Import Prelude Num M_Dates M_Calendar M_Interp M_Curves M_Fixings M_Forward M_Vol M_Black76 M_Instruments
  M_Risk M_Reports M_Schema M_Serde M_Objects S_Serde S_Objects L_Fixings L_Instruments L_Serde L_Objects L_Market.
Import ListNotations.
Open Scope string_scope.
Open Scope list_scope.

(** ** Dedup states *)

Lemma with_dedup_ok {T A} k (d : dedup T) (f : act T A) s a s' :
  f (set_slot k d s) = (Ok a, s') -> with_dedup k d f s = (Ok a, set_slot k (slot k s) s').
Proof. unfold with_dedup. intros ->. reflexivity. Qed.

Lemma with_dedup_inv {T A} k (d : dedup T) (f : act T A) s a s' :
  with_dedup k d f s = (Ok a, s') -> exists s1, f (set_slot k d s) = (Ok a, s1) /\ s' = set_slot k (slot k s) s1.
Proof.
  unfold with_dedup. destruct (f (set_slot k d s)) as [[x|e|e] s1]; intros H; [|discriminate|discriminate].
  injection H as -> <-. eauto.
Qed.

(** The states inside and after the two nested calls of the facade. *)
Lemma nested_inside {T} (ccy opt : dedup T) s : set_slot ShInstrument opt (set_slot ShCurrency ccy s) = mkTls ccy opt.
Proof. reflexivity. Qed.
Lemma nested_after {T} (ccy : dedup T) s s1 :
  set_slot ShCurrency (slot ShCurrency s) (set_slot ShInstrument (slot ShInstrument (set_slot ShCurrency ccy s)) s1) = s.
Proof. destruct s, s1; reflexivity. Qed.

Section Slices.
  Context {T : Type}.
  Lemma slice_get (l : list (val T)) id v :
    get id (dedup_map_from_slice l) = Some v -> In v l /\ id_of v = id.
  Proof.
    unfold dedup_map_from_slice.
    assert (G : forall m, (forall v, get id m = Some v -> In v l /\ id_of v = id) \/ True) by auto. clear G.
    enough (G : forall m, get id (fold_left (fun m v => put (id_of v) v m) l m) = Some v ->
                  get id m = Some v \/ (In v l /\ id_of v = id)).
    { intros H. destruct (G [] H) as [H'|H']; [discriminate | exact H']. }
    induction l as [|u l IH]; cbn [fold_left In]; intros m H; [left; exact H|].
    destruct (IH _ H) as [H'|[I E]]; [|right; auto].
    destruct (String.eqb_spec (id_of u) id) as [E|ne].
    - rewrite <- E, get_put_same in H'. injection H' as <-. right. auto.
    - rewrite get_put_other in H' by congruence. left. exact H'.
  Qed.

  Lemma slice_contains (l : list (val T)) id : In id (map id_of l) -> contains id (dedup_map_from_slice l) = true.
  Proof.
    unfold dedup_map_from_slice.
    assert (K : forall (l : list (val T)) m, contains id m = true -> contains id (fold_left (fun m v => put (id_of v) v m) l m) = true).
    { clear l. induction l as [|u l IH]; cbn [fold_left]; intros m H; [exact H|]. apply IH. unfold contains in *.
      destruct (String.eqb_spec (id_of u) id) as [E|ne];
        [rewrite <- E, get_put_same; reflexivity | rewrite get_put_other by congruence; exact H]. }
    generalize (@nil (string * val T)). induction l as [|u l IH]; cbn [map fold_left In]; [contradiction|].
    intros m [E|I]; [|apply IH, I]. apply K. unfold contains. rewrite E, get_put_same. reflexivity.
  Qed.
End Slices.

Section RoundTrips.
  Context {T : Type} {N : Num T} {TR : Trans T}.
  Variable finite : T -> bool.
  Variable nan : T.

  (** ** What an instrument shares *)

  Lemma sharing_calendar (c : calendar T) : sharing (val_of_calendar c) = [].
  Proof.
    induction c as [| |name hols|name inner IH w]; cbn [val_of_calendar sharing flat_map]; try reflexivity.
    - rewrite flat_map_nil; [reflexivity|]. intros v I. apply in_map_iff in I. destruct I as (d & <- & _). reflexivity.
    - rewrite IH. reflexivity.
  Qed.
  Lemma sharing_rule (r : date_rule T) : sharing (val_of_rule r) = [].
  Proof. destruct r; cbn [val_of_rule sharing flat_map]; rewrite ?sharing_calendar; reflexivity. Qed.
  Lemma sharing_currency (c : currency T) : sharing (val_of_currency c) = [].
  Proof. cbn [val_of_currency sharing flat_map]. rewrite sharing_rule. reflexivity. Qed.

  Definition part_of (i : instrument T) (e : shared * val T) : Prop :=
    match e with
    | (ShInstrument, u) => exists p, In p (parts i) /\ u = val_of_instrument p
    | (ShCurrency, u) => exists c, In c (currencies_in i) /\ u = val_of_currency c
    end.

  Lemma part_in_parts (i : instrument T) : In i (parts i).
  Proof. destruct i; left; reflexivity. Qed.

  Lemma sharing_parts i : forall e, In e (sharing (val_of_instrument i)) -> part_of i e.
  Proof.
    induction i as [c|id cur s|id cr cur s|id cr cur ex pay s|id cr cur s ms IH|v k IH|v f d x IH]
      using instrument_nested_ind; intros e I; cbn [val_of_instrument] in I.
    - change (sharing (VTagged TrInstrument (Some "Currency") (val_of_currency c))) with (sharing (val_of_currency c)) in I.
      rewrite sharing_currency in I. destruct I.
    - cbn [sharing flat_map val_of_rc_currency app] in I. rewrite sharing_currency, sharing_rule in I. cbn [app] in I.
      destruct I as [<-|[]]. cbn [part_of currencies_in]. exists cur. split; [left|]; reflexivity.
    - cbn [sharing flat_map val_of_rc_currency app] in I. rewrite sharing_currency, sharing_rule in I. cbn [app] in I.
      destruct I as [<-|[]]. cbn [part_of currencies_in]. exists cur. split; [left|]; reflexivity.
    - cbn [sharing flat_map val_of_rc_currency app] in I. rewrite sharing_currency, sharing_rule in I. cbn [app] in I.
      destruct I as [<-|[]]. cbn [part_of currencies_in]. exists cur. split; [left|]; reflexivity.
    - cbn [sharing flat_map val_of_rc_currency app] in I. rewrite sharing_currency, sharing_rule in I. cbn [app] in I.
      destruct I as [<-|I]; [cbn [part_of currencies_in]; exists cur; split; [left|]; reflexivity|].
      rewrite app_nil_r in I. apply in_flat_map in I. destruct I as (m & Im & I).
      apply in_map_iff in Im. destruct Im as ([w u] & <- & Im). cbn [sharing flat_map app] in I. rewrite app_nil_r in I.
      rewrite Forall_forall in IH. specialize (IH _ Im). cbn [snd] in IH.
      assert (P : part_of u e).
      { destruct I as [<-|I]; [|apply IH, I]. exists u. split; [apply part_in_parts | reflexivity]. }
      destruct e as [[] w']; cbn [part_of parts currencies_in] in *; destruct P as (p & Ip & ->);
        exists p; (split; [right; apply in_flat_map; exists (w, u); auto | reflexivity]).
    - cbn [sharing flat_map val_of_vanilla app val_of_datetime val_of_ddf] in I. rewrite sharing_rule in I. cbn [app] in I.
      rewrite app_nil_r in I. cbn [In] in I.
      assert (P : part_of (van_underlying v) e).
      { destruct I as [<-|I]; [|apply IH, I]. exists (van_underlying v). split; [apply part_in_parts | reflexivity]. }
      destruct e as [[] w']; cbn [part_of parts currencies_in] in *; destruct P as (p & Ip & ->); exists p; cbn [In]; auto.
    - cbn [sharing flat_map val_of_vanilla app val_of_datetime val_of_ddf] in I. rewrite sharing_rule in I. cbn [app] in I.
      rewrite app_nil_r in I. cbn [In] in I.
      assert (P : part_of (van_underlying v) e).
      { destruct I as [<-|I]; [|apply IH, I]. exists (van_underlying v). split; [apply part_in_parts | reflexivity]. }
      destruct e as [[] w']; cbn [part_of parts currencies_in] in *; destruct P as (p & Ip & ->); exists p; cbn [In]; auto.
  Qed.

  Lemma id_of_instrument (i : instrument T) : id_of (val_of_instrument i) = instrument_id i.
  Proof. destruct i; reflexivity. Qed.
  Lemma id_of_currency (c : currency T) : id_of (val_of_currency c) = cur_id c.
  Proof. reflexivity. Qed.

  (** Parts of a storable instrument are storable, so that reading does not change them. *)
  Lemma storable_part i p : storable finite i -> In p (parts i) -> storable finite p.
  Proof.
    induction i as [c|id cur s|id cr cur s|id cr cur ex pay s|id cr cur s ms IH|v k IH|v f d x IH]
      using instrument_nested_ind; intros H I; cbn [parts] in I; destruct I as [<-|I]; try exact H; try contradiction.
    - apply in_flat_map in I. destruct I as ([w u] & Im & I). rewrite Forall_forall in IH. apply (IH _ Im); [|exact I].
      cbn [storable snd] in *. destruct H as (_ & _ & H). clear IH I. induction ms as [|[w' u'] ms IHm]; [destruct Im|].
      destruct H as [[_ H1] H2]. destruct Im as [E|Im]; [injection E as -> ->; exact H1 | apply (IHm H2 Im)].
    - apply IH; [apply H | exact I].
    - apply IH; [apply H | exact I].
  Qed.
  Lemma storable_currency_part i c : storable finite i -> In c (currencies_in i) -> storable_currency finite c.
  Proof.
    induction i as [c'|id cur s|id cr cur s|id cr cur ex pay s|id cr cur s ms IH|v k IH|v f d x IH]
      using instrument_nested_ind; intros H I; cbn [currencies_in] in I.
    - contradiction.
    - destruct I as [<-|[]]. apply H.
    - destruct I as [<-|[]]. apply H.
    - destruct I as [<-|[]]. apply H.
    - destruct I as [<-|I]; [apply H|].
      apply in_flat_map in I. destruct I as ([w u] & Im & I). rewrite Forall_forall in IH. apply (IH _ Im); [|exact I].
      cbn [storable snd] in *. destruct H as (_ & _ & H). clear IH I. induction ms as [|[w' u'] ms IHm]; [destruct Im|].
      destruct H as [[_ H1] H2]. destruct Im as [E|Im]; [injection E as -> ->; exact H1 | apply (IHm H2 Im)].
    - apply IH; [apply H | exact I].
    - apply IH; [apply H | exact I].
  Qed.

  Lemma rc_parts i e : In e (sharing (val_of_rc_instrument i)) -> part_of i e.
  Proof.
    cbn [val_of_rc_instrument sharing]. intros [<-|I]; [|apply sharing_parts, I].
    exists i. split; [apply part_in_parts | reflexivity].
  Qed.

  Section Instrument.
    Variables cd ic : dedup_control.
    Variable cs : list (currency T).
    Variable is : list (instrument T).
    Notation ccy := (mkDedup cd (dedup_map_from_slice (map val_of_currency cs))).
    Notation opt := (mkDedup ic (dedup_map_from_slice (map val_of_instrument is))).

    Lemma instrument_ids i :
      (cd <> Inline -> identified cur_id (currencies_in i) cs) ->
      (ic <> Inline -> identified instrument_id (parts i) is) ->
      ids_identify (mkTls ccy opt) (val_of_rc_instrument i).
    Proof.
      intros Hc Hi k u u' NI I. apply rc_parts in I.
      destruct k; cbn [slot tls_currency tls_instrument dd_control dd_map part_of] in *.
      - specialize (Hc NI). destruct I as (c & Ic & ->). split.
        + intros I' E. apply rc_parts in I'. destruct I' as (c' & Ic' & ->). f_equal.
          apply (Hc c c' Ic); [apply in_or_app; left; exact Ic' | exact E].
        + intros G. apply slice_get in G. destruct G as (I' & E). apply in_map_iff in I'. destruct I' as (c' & <- & Ic').
          f_equal. symmetry. apply (Hc c c' Ic); [apply in_or_app; right; exact Ic' | symmetry; exact E].
      - specialize (Hi NI). destruct I as (p & Ip & ->). split.
        + intros I' E. apply rc_parts in I'. destruct I' as (p' & Ip' & ->). f_equal. rewrite !id_of_instrument in E.
          apply (Hi p p' Ip); [apply in_or_app; left; exact Ip' | exact E].
        + intros G. apply slice_get in G. destruct G as (I' & E). apply in_map_iff in I'. destruct I' as (p' & <- & Ip').
          rewrite !id_of_instrument in E.
          f_equal. symmetry. apply (Hi p p' Ip); [apply in_or_app; right; exact Ip' | symmetry; exact E].
    Qed.

    Lemma instrument_loaded i : storable finite i ->
      forall k u, In (k, u) (sharing (val_of_rc_instrument i)) -> loaded u = u.
    Proof.
      intros H k u I. apply rc_parts in I. destruct k; cbn [part_of] in I.
      - destruct I as (c & Ic & ->). apply (fits_currency finite). exact (storable_currency_part i c H Ic).
      - destruct I as (p & Ip & ->). apply (suits_instrument finite). exact (storable_part i p H Ip).
    Qed.

    Lemma instrument_round_trip i s j s' : storable finite i ->
      (cd <> Inline -> identified cur_id (currencies_in i) cs) ->
      (ic <> Inline -> identified instrument_id (parts i) is) ->
      instrument_to_json finite i cd cs ic is s = (Ok j, s') ->
      s' = s /\ instrument_from_json j cd cs ic is s = (Ok i, s).
    Proof.
      intros H Hc Hi E. unfold instrument_to_json in E.
      apply with_dedup_inv in E. destruct E as (s1 & E & ->).
      apply with_dedup_inv in E. destruct E as (s2 & E & ->). rewrite nested_after. split; [reflexivity|].
      rewrite nested_inside in E. destruct (suits_instrument finite i H) as [C L].
      destruct (serde_round_trip finite (TShared ShInstrument) (val_of_rc_instrument i) _ j s2
                  (conj eq_refl C) (instrument_loaded i H) (instrument_ids i Hc Hi) E) as (r & R & _).
      cbn [val_of_rc_instrument loaded] in R. rewrite L in R.
      unfold instrument_from_json.
      assert (W : with_dedup ShCurrency ccy (with_dedup ShInstrument opt (read j (TShared ShInstrument))) s =
                  (Ok (VShared ShInstrument (val_of_instrument i)), s)).
      { rewrite <- (nested_after ccy s r) at 2. apply with_dedup_ok, with_dedup_ok. rewrite nested_inside. exact R. }
      rewrite (bind_act_run _ _ _ _ _ W). unfold lift. cbn [rc_instrument_of_val]. rewrite back_instrument. reflexivity.
    Qed.
  End Instrument.

  (** ** Writing an instrument *)

  Lemma named_calendar (c : calendar T) : named (val_of_calendar c).
  Proof.
    induction c as [| |name hols|name inner IH w]; cbn [val_of_calendar named every].
    - split; [discriminate | exact I].
    - split; [discriminate | exact I].
    - split; [discriminate|]. split; [exact I|]. split; [|exact I]. apply every_map, Forall_forall. intros; exact I.
    - split; [discriminate|]. auto.
  Qed.
  Lemma named_rule (r : date_rule T) : named (val_of_rule r).
  Proof. destruct r as [|c st sl|c]; cbn [val_of_rule named every]; (split; [discriminate|]); repeat split; apply named_calendar. Qed.
  Lemma named_currency (c : currency T) : named (val_of_currency c).
  Proof. cbn [val_of_currency named every]. repeat split. apply named_rule. Qed.
  Lemma named_instrument (i : instrument T) : named (val_of_instrument i).
  Proof.
    induction i as [c|id cur s|id cr cur s|id cr cur ex pay s|id cr cur s ms IH|v k IH|v f d x IH]
      using instrument_nested_ind; cbn [val_of_instrument named]; (split; [discriminate|]).
    - apply named_currency.
    - cbn [every val_of_rc_currency named]. repeat split; [apply named_currency | apply named_rule].
    - cbn [every val_of_rc_currency named]. repeat split; [apply named_currency | apply named_rule].
    - cbn [every val_of_rc_currency named]. repeat split; [apply named_currency | apply named_rule].
    - cbn [every val_of_rc_currency named]. repeat split; [apply named_currency | apply named_rule |].
      apply every_map. apply Forall_forall. intros [w u] I. cbn [named every]. rewrite Forall_forall in IH. specialize (IH _ I).
      repeat split. exact IH.
    - cbn [every val_of_vanilla app named val_of_datetime val_of_ddf]. repeat split; [exact IH | apply named_rule].
    - cbn [every val_of_vanilla app named val_of_datetime val_of_ddf]. repeat split; [exact IH | apply named_rule].
  Qed.

  Lemma instrument_written i cd cs ic is s :
    (cd = ErrorIfMissing -> supplied cur_id (currencies_in i) cs) ->
    (ic = ErrorIfMissing -> supplied instrument_id (parts i) is) ->
    exists j, instrument_to_json finite i cd cs ic is s = (Ok j, s).
  Proof.
    intros Hc Hi.
    destruct (writes_all finite (val_of_rc_instrument i)
      (mkTls (mkDedup cd (dedup_map_from_slice (map val_of_currency cs)))
             (mkDedup ic (dedup_map_from_slice (map val_of_instrument is)))) (named_instrument i)) as (j & s' & E & _).
    - intros k u I C. apply rc_parts in I. destruct k; cbn [slot tls_currency tls_instrument dd_control dd_map part_of] in *.
      + destruct I as (c & Ic & ->). apply slice_contains. rewrite map_map. apply (Hc C c Ic).
      + destruct I as (p & Ip & ->). apply slice_contains. rewrite map_map, id_of_instrument.
        rewrite (map_ext _ instrument_id) by apply id_of_instrument. apply (Hi C p Ip).
    - exists j. unfold instrument_to_json.
      rewrite <- (nested_after (mkDedup cd (dedup_map_from_slice (map val_of_currency cs))) s s') at 2.
      apply with_dedup_ok, with_dedup_ok. rewrite nested_inside. exact E.
  Qed.

  (** ** Everything that shares nothing: any control, any table, and the state is left alone. *)

  Lemma write_plain (v : val T) : sharing v = [] -> forall s, snd (write finite v s) = s.
  Proof.
    assert (B : forall A B (m : act T A) (f : A -> act T B) s, snd (m s) = s -> (forall a, snd (f a s) = s) ->
                  snd (bind_act m f s) = s).
    { intros A B m f s Hm Hf. unfold bind_act. destruct (m s) as [[a|e|e] s1]; cbn [snd] in Hm; subst; auto. }
    induction v as [s0|x|z|b|d|n|n u IH|fs IH|l IH|l IH|m IH|tr id u IH|k u IH] using val_induction; cbn [sharing write];
      intros S s; try reflexivity.
    - apply B; auto.
    - apply B; [|auto]. induction IH as [|[n u] l Hu _ IHl]; cbn [flat_map each] in *; [reflexivity|].
      apply app_eq_nil in S. destruct S as [S1 S2]. apply B; [apply B; auto|]. intros a. apply B; [apply IHl, S2 | auto].
    - apply B; [|auto]. induction IH as [|u l Hu _ IHl]; cbn [flat_map each] in *; [reflexivity|].
      apply app_eq_nil in S. destruct S as [S1 S2]. apply B; [auto|]. intros a. apply B; [apply IHl, S2 | auto].
    - apply B; [|auto]. induction IH as [|u l Hu _ IHl]; cbn [flat_map each] in *; [reflexivity|].
      apply app_eq_nil in S. destruct S as [S1 S2]. apply B; [auto|]. intros a. apply B; [apply IHl, S2 | auto].
    - apply B; [|auto]. induction IH as [|[n u] l Hu _ IHl]; cbn [flat_map each] in *; [reflexivity|].
      apply app_eq_nil in S. destruct S as [S1 S2]. apply B; [apply B; auto|]. intros a. apply B; [apply IHl, S2 | auto].
    - destruct id as [tag|]; [|reflexivity]. apply B; auto.
    - discriminate.
  Qed.

  Lemma plain_round_trip t (v : val T) s : conforms finite v t -> sharing v = [] -> named v ->
    exists j r, write finite v s = (Ok j, s) /\ read j t s = (Ok (loaded v), r) /\ same_state s r.
  Proof.
    intros C S Nm. destruct (writes_all finite v s Nm) as (j & s' & E & _).
    { rewrite S. intros k u []. }
    pose proof (write_plain v S s) as W. rewrite E in W. cbn [snd] in W. subst s'.
    destruct (serde_round_trip finite t v s j s C) as (r & R & SS); [rewrite S; intros ? ? [] | | exact E |].
    - intros k u u' _ I. rewrite S in I. destruct I.
    - exists j, r. auto.
  Qed.

  Lemma plain_read {A} t (v : val T) (f : val T -> res A) a s : conforms finite v t -> sharing v = [] -> named v ->
    f (loaded v) = Ok a ->
    exists j r, write finite v s = (Ok j, s) /\ (let! u := read j t in lift (f u)) s = (Ok a, r) /\ same_state s r.
  Proof.
    intros C S Nm F. destruct (plain_round_trip t v s C S Nm) as (j & r & W & R & SS). exists j, r.
    split; [exact W|]. split; [|exact SS]. rewrite (bind_act_run _ _ _ _ _ R). unfold lift. rewrite F. reflexivity.
  Qed.

  Lemma named_points {X} (f : X -> val T) lx rx l : (forall x, named (f x)) -> named (val_of_points f lx rx l).
  Proof.
    intros H. unfold val_of_points. cbn [named every]. split; [exact I|]. split; [exact I|]. split; [|exact I].
    apply every_map, Forall_forall. intros [x y] _. cbn [named every]. auto.
  Qed.
  Lemma named_curve (c : curve T) : named (val_of_curve c).
  Proof.
    induction c as [base|base l|c IH b|c IH b|c IH b]; cbn [val_of_curve named every]; (split; [discriminate|]); auto.
    split; [exact I|]. split; [|exact I]. apply named_points. intros; exact I.
  Qed.
  Lemma named_vol (v : vol_surface T) : named (val_of_vol v).
  Proof.
    induction v as [vol cal base|p|b IH x base|b IH x base|b IH x|b IH x f|b IH fwd]; cbn [val_of_vol named every];
      (split; [discriminate|]); auto.
    - split; [exact I|]. split; [apply named_calendar|]. repeat split.
    - split; [apply every_map, Forall_forall; intros [d m] _; cbn [named every]; repeat split|].
      + destruct m; unfold val_of_smile; cbn [named every]; [repeat split|]. split; [|exact I]. apply named_points. intros; exact I.
      + split; [apply named_calendar|]. split; [repeat split|]. split; [apply named_points; intros; exact I|].
        split; [apply named_points; intros; exact I|]. repeat split.
    - split; [exact IH|]. repeat split.
    - split; [exact IH|]. repeat split.
  Qed.
  Lemma named_map {A} (f : A -> val T) m : (forall a, named (f a)) -> named (val_of_map f m).
  Proof. intros H. unfold val_of_map. cbn [named]. apply every_map, Forall_forall. intros [n a] _. apply H. Qed.
  Lemma named_stream (s : div_stream T) : named (val_of_stream s).
  Proof.
    unfold val_of_stream. cbn [named every]. split; [apply every_map, Forall_forall; intros [] _; repeat split|].
    split; [apply named_curve | repeat split].
  Qed.
  Lemma named_market (md : market_data T) : named (val_of_market md).
  Proof.
    unfold val_of_market. cbn [named every]. split; [exact I|]. split; [apply named_map; intros; exact I|].
    split; [apply named_map, named_curve|]. split; [apply named_map, named_curve|]. split; [apply named_map, named_stream|].
    split; [apply named_map, named_vol | exact I].
  Qed.
  Lemma named_fixing_table (t : fixing_table T) : named (val_of_fixing_table t).
  Proof.
    unfold val_of_fixing_table. cbn [named every]. split; [exact I|]. split; [|exact I].
    apply named_map. intros f. unfold val_of_fixings. cbn [named every]. split; [|exact I].
    apply every_map, Forall_forall. intros [d x] _. repeat split.
  Qed.
  Lemma named_report (r : report T) : named (val_of_report r).
  Proof.
    induction r as [x m|x m|p th l IH] using report_nested_ind; cbn [val_of_report named every]; (split; [discriminate|]).
    - split; [exact I|]. split; [apply named_map; intros; repeat split | exact I].
    - split; [exact I|]. split; [apply named_map; intros; repeat split | exact I].
    - split; [exact I|]. split; [exact I|]. split; [apply every_map; exact IH | exact I].
  Qed.
  Lemma named_generator (g : generator T) : named (val_of_generator g).
  Proof.
    induction g as [x|b|b l IH] using generator_nested_ind; cbn [val_of_generator named every]; (split; [discriminate|]).
    - repeat split.
    - destruct b; repeat split.
    - split; [repeat split|]. split; [apply every_map; exact IH | exact I].
  Qed.

  Lemma market_round_trip md s : storable_market finite nan md ->
    exists j s', write finite (val_of_market md) s = (Ok j, s) /\ market_data_from_json nan j s = (Ok md, s') /\ same_state s s'.
  Proof.
    intros H. destruct (stored_market finite nan md H) as [C S].
    exact (plain_read _ _ (market_of_val nan) md s C S (named_market md) (back_market finite nan md H)).
  Qed.
  Lemma fixings_round_trip t s : storable_table finite t ->
    exists j s', write finite (val_of_fixing_table t) s = (Ok j, s) /\ fixing_table_from_json j s = (Ok t, s') /\ same_state s s'.
  Proof.
    intros H. destruct (fits_fixing_table finite t H) as (C & S & L).
    apply (plain_read _ _ fixing_table_of_val t s C S (named_fixing_table t)).
    rewrite L. exact (back_fixing_table finite t H).
  Qed.
  Lemma generator_round_trip g s : storable_generator finite g ->
    exists j s', write finite (val_of_generator g) s = (Ok j, s) /\ report_generator_from_json j s = (Ok g, s') /\ same_state s s'.
  Proof.
    intros H. destruct (fits_generator finite g H) as (C & S & L).
    apply (plain_read _ _ generator_of_val g s C S (named_generator g)). rewrite L. apply back_generator.
  Qed.
  Lemma reports_round_trip rs s : Forall (storable_report finite) rs ->
    exists j s', write finite (VVec (map val_of_report rs)) s = (Ok j, s) /\ reports_from_json j s = (Ok rs, s') /\ same_state s s'.
  Proof.
    intros H. rewrite Forall_forall in H.
    assert (F : fits finite (VVec (map val_of_report rs)) (TVec (TTagged TrReport))).
    { apply fits_vec. intros r I. apply fits_report, H, I. }
    destruct F as (C & S & L).
    apply (plain_read _ _ (fun v => match v with VVec l => mapM report_of_val l | _ => ill end) rs s C S).
    - cbn [named]. apply every_map, Forall_forall. intros r _. apply named_report.
    - rewrite L. apply mapM_back. intros r _. apply back_report.
  Qed.
End RoundTrips.
