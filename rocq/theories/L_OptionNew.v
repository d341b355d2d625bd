(** Making options. *)
From Coq Require Import ZArith List String Bool Reals Lra.
From Coq.Floats Require Import SpecFloat.
From Verif Require Import Prelude Num M_Dates M_Calendar M_Fixings M_Instruments S_Options S_Double L_Num L_Instruments L_Pricing L_PricingAny L_Double.
Import ListNotations.
Open Scope list_scope.

Section Any.
  Context {T : Type} {N : Num T}.

  Lemma time_is (u : instrument T) d t : time_to_day_fraction u d = Ok t -> has_volatility u /\ t = mkDDF (dt_date d) (time_in_day (dt_tod d)).
  Proof.
    unfold time_to_day_fraction, ddf_new. intros E. assert (H : has_volatility u) by (destruct u; exact I || discriminate). split; [exact H|].
    destruct u; try contradiction; (destruct assert_; cbn [bind] in E; [|discriminate..]); injection E as <-; unfold time_in_day; destruct (dt_tod d); reflexivity.
  Qed.

  Lemma vanilla_is id cr (u : instrument T) s e pc cp v : vanilla_new id cr u s e pc cp = Ok v -> exists pay, apply_rule s (dt_date e) = Ok pay /\ has_volatility u /\
    v = mkVanilla id cr u s e pc cp (mkDDF (dt_date e) (time_in_day (dt_tod e))) pay.
  Proof.
    unfold vanilla_new. destruct (apply_rule s (dt_date e)) as [pay| |] eqn:A; cbn [bind]; try discriminate.
    destruct (time_to_day_fraction u e) as [t| |] eqn:B; cbn [bind]; try discriminate. apply time_is in B. destruct B as (H & ->). intros E. injection E as <-. eauto.
  Qed.

  Lemma spot_is id cr (u : instrument T) s e k pc cp i : spot_european_new id cr u s e k pc cp = Ok i -> exists pay, apply_rule s (dt_date e) = Ok pay /\ has_volatility u /\
    nltb k n0 = false /\ i = ISpotEuropean (mkVanilla id cr u s e pc cp (mkDDF (dt_date e) (time_in_day (dt_tod e))) pay) k.
  Proof.
    unfold spot_european_new. destruct (nltb k n0); [discriminate|]. destruct (vanilla_new id cr u s e pc cp) as [v| |] eqn:A; cbn [bind]; try discriminate.
    intros E. injection E as <-. destruct (vanilla_is _ _ _ _ _ _ _ _ A) as (pay & P & H & ->). exists pay. auto.
  Qed.

  Lemma forward_is id cr (u : instrument T) s e f d pc cp i : forward_european_new id cr u s e f d pc cp = Ok i -> exists pay, apply_rule s (dt_date e) = Ok pay /\ has_volatility u /\
    nleb f n0 = false /\ i = IForwardEuropean (mkVanilla id cr u s e pc cp (mkDDF (dt_date e) (time_in_day (dt_tod e))) pay) f d (mkDDF (dt_date d) (time_in_day (dt_tod d))).
  Proof.
    unfold forward_european_new. destruct (nleb f n0); [discriminate|]. destruct (time_to_day_fraction u d) as [t| |] eqn:B; cbn [bind]; try discriminate.
    destruct (vanilla_new id cr u s e pc cp) as [v| |] eqn:A; cbn [bind]; try discriminate.
    intros E. injection E as <-. destruct (vanilla_is _ _ _ _ _ _ _ _ A) as (pay & P & H & ->). apply time_is in B. destruct B as (_ & ->). exists pay. auto.
  Qed.

  (** Where four fifths are less than one, that is all that is asked. *)
  Hypothesis Proper : forall tod, nleb n0 (time_in_day tod) && nltb (time_in_day tod) n1 = true.

  Lemma time_made (u : instrument T) d : has_volatility u -> time_to_day_fraction u d = Ok (mkDDF (dt_date d) (time_in_day (dt_tod d))).
  Proof.
    intros H. pose proof (Proper (dt_tod d)) as P. unfold time_to_day_fraction, ddf_new. destruct u; try contradiction; unfold time_in_day in *; destruct (dt_tod d); rewrite P; reflexivity.
  Qed.
  Lemma vanilla_made id cr (u : instrument T) s e pc cp pay : apply_rule s (dt_date e) = Ok pay -> has_volatility u ->
    vanilla_new id cr u s e pc cp = Ok (mkVanilla id cr u s e pc cp (mkDDF (dt_date e) (time_in_day (dt_tod e))) pay).
  Proof. intros A H. unfold vanilla_new. rewrite A, (time_made u e H). reflexivity. Qed.
  Lemma spot_made id cr (u : instrument T) s e k pc cp pay : apply_rule s (dt_date e) = Ok pay -> has_volatility u -> nltb k n0 = false ->
    spot_european_new id cr u s e k pc cp = Ok (ISpotEuropean (mkVanilla id cr u s e pc cp (mkDDF (dt_date e) (time_in_day (dt_tod e))) pay) k).
  Proof. intros A H K. unfold spot_european_new. rewrite K, (vanilla_made _ _ _ _ _ _ _ _ A H). reflexivity. Qed.
  Lemma forward_made id cr (u : instrument T) s e f d pc cp pay : apply_rule s (dt_date e) = Ok pay -> has_volatility u -> nleb f n0 = false ->
    forward_european_new id cr u s e f d pc cp =
      Ok (IForwardEuropean (mkVanilla id cr u s e pc cp (mkDDF (dt_date e) (time_in_day (dt_tod e))) pay) f d (mkDDF (dt_date d) (time_in_day (dt_tod d)))).
  Proof. intros A H K. unfold forward_european_new. rewrite K, (time_made u d H), (vanilla_made _ _ _ _ _ _ _ _ A H). reflexivity. Qed.

  Lemma spot_iff id cr (u : instrument T) s e k pc cp i : spot_european_new id cr u s e k pc cp = Ok i <-> exists pay, apply_rule s (dt_date e) = Ok pay /\ has_volatility u /\
    nltb k n0 = false /\ i = ISpotEuropean (mkVanilla id cr u s e pc cp (mkDDF (dt_date e) (time_in_day (dt_tod e))) pay) k.
  Proof. split; [apply spot_is|]. intros (pay & A & H & K & ->). now apply spot_made. Qed.
  Lemma forward_iff id cr (u : instrument T) s e f d pc cp i : forward_european_new id cr u s e f d pc cp = Ok i <-> exists pay, apply_rule s (dt_date e) = Ok pay /\ has_volatility u /\
    nleb f n0 = false /\ i = IForwardEuropean (mkVanilla id cr u s e pc cp (mkDDF (dt_date e) (time_in_day (dt_tod e))) pay) f d (mkDDF (dt_date d) (time_in_day (dt_tod d))).
  Proof. split; [apply forward_is|]. intros (pay & A & H & K & ->). now apply forward_made. Qed.
End Any.

Lemma proper_R tod : nleb n0 (time_in_day (T := R) tod) && nltb (time_in_day (T := R) tod) n1 = true.
Proof.
  assert (H : forall x : R, (0 <= x < 1)%R -> nleb n0 x && nltb x n1 = true).
  { intros x H. rnum. destruct (Rleb_spec 0 x); [|lra]. destruct (Rltb_spec x 1); [reflexivity|lra]. }
  apply H. unfold time_in_day. destruct tod; rnum; lra.
Qed.
Lemma proper_F tod : nleb n0 (time_in_day (T := F64) tod) && nltb (time_in_day (T := F64) tod) n1 = true.
Proof. destruct tod; vm_compute; reflexivity. Qed.

Open Scope R_scope.
Lemma spot_iff_R id cr (u : instrument R) s e k pc cp i : spot_european_new id cr u s e k pc cp = Ok i <-> exists pay, apply_rule s (dt_date e) = Ok pay /\ has_volatility u /\
  0 <= k /\ i = ISpotEuropean (mkVanilla id cr u s e pc cp (mkDDF (dt_date e) (time_in_day (dt_tod e))) pay) k.
Proof.
  rewrite (spot_iff proper_R). assert (K : nltb k n0 = false <-> 0 <= k) by (rnum; destruct (Rltb_spec k 0); split; intros; try lra; try discriminate; reflexivity).
  split; intros (pay & A & H & L & E); exists pay; repeat split; try assumption; now apply K.
Qed.
Lemma forward_iff_R id cr (u : instrument R) s e f d pc cp i : forward_european_new id cr u s e f d pc cp = Ok i <-> exists pay, apply_rule s (dt_date e) = Ok pay /\ has_volatility u /\
  0 < f /\ i = IForwardEuropean (mkVanilla id cr u s e pc cp (mkDDF (dt_date e) (time_in_day (dt_tod e))) pay) f d (mkDDF (dt_date d) (time_in_day (dt_tod d))).
Proof.
  rewrite (forward_iff proper_R). assert (K : nleb f n0 = false <-> 0 < f) by (rnum; destruct (Rleb_spec f 0); split; intros; try lra; try discriminate; reflexivity).
  split; intros (pay & A & H & L & E); exists pay; repeat split; try assumption; now apply K.
Qed.

Lemma not_below (x : F64) : nltb x n0 = false <-> x = F_nan \/ nleb n0 x = true.
Proof. destruct x as [[]|[]| |[] m e]; cbn; split; try (intros; discriminate); auto; intros [?|?]; discriminate. Qed.
Lemma not_under (x : F64) : nleb x n0 = false <-> x = F_nan \/ nltb n0 x = true.
Proof. destruct x as [[]|[]| |[] m e]; cbn; split; try (intros; discriminate); auto; intros [?|?]; discriminate. Qed.

Lemma spot_iff_F id cr (u : instrument F64) s e k pc cp i : spot_european_new id cr u s e k pc cp = Ok i <-> exists pay, apply_rule s (dt_date e) = Ok pay /\ has_volatility u /\
  (k = F_nan \/ nleb n0 k = true) /\ i = ISpotEuropean (mkVanilla id cr u s e pc cp (mkDDF (dt_date e) (time_in_day (dt_tod e))) pay) k.
Proof. rewrite (spot_iff proper_F). split; intros (pay & A & H & L & E); exists pay; repeat split; try assumption; now apply not_below. Qed.
Lemma forward_iff_F id cr (u : instrument F64) s e f d pc cp i : forward_european_new id cr u s e f d pc cp = Ok i <-> exists pay, apply_rule s (dt_date e) = Ok pay /\ has_volatility u /\
  (f = F_nan \/ nltb n0 f = true) /\ i = IForwardEuropean (mkVanilla id cr u s e pc cp (mkDDF (dt_date e) (time_in_day (dt_tod e))) pay) f d (mkDDF (dt_date d) (time_in_day (dt_tod d))).
Proof. rewrite (forward_iff proper_F). split; intros (pay & A & H & L & E); exists pay; repeat split; try assumption; now apply not_under. Qed.
Lemma made_F id cr (u : instrument F64) s e x d pc cp i :
  (spot_european_new id cr u s e x pc cp = Ok i <->
    exists pay, apply_rule s (dt_date e) = Ok pay /\ has_volatility u /\ (x = F_nan \/ nleb n0 x = true) /\
      i = ISpotEuropean (mkVanilla id cr u s e pc cp (mkDDF (dt_date e) (time_in_day (dt_tod e))) pay) x) /\
  (forward_european_new id cr u s e x d pc cp = Ok i <->
    exists pay, apply_rule s (dt_date e) = Ok pay /\ has_volatility u /\ (x = F_nan \/ nltb n0 x = true) /\
      i = IForwardEuropean (mkVanilla id cr u s e pc cp (mkDDF (dt_date e) (time_in_day (dt_tod e))) pay) x d (mkDDF (dt_date d) (time_in_day (dt_tod d)))).
Proof. split; [apply spot_iff_F|apply forward_iff_F]. Qed.

Lemma nan_made : exists i j, let u := IEquity "BP" "BP-CR" (mkCurrency "USD" NullRule) NullRule in
  spot_european_new "OPT" "OPT-CR" u NullRule (mkDT 365%Z Close_) F_nan Call CashSettled = Ok i /\
  forward_european_new "OPT" "OPT-CR" u NullRule (mkDT 365%Z Close_) F_nan (mkDT 100%Z Open_) Call CashSettled = Ok j.
Proof. eexists _, _. cbv zeta. split; vm_compute; reflexivity. Qed.

Lemma late_strike T (N : Num T) (TR : Trans T) id cr (u : instrument T) s e f d pc cp i :
  forward_european_new id cr u s e f d pc cp = Ok i -> dt_ltb e d = true ->
  (forall t, get_optional t (instrument_id u) d = None -> (known_until t <= dt_date d)%Z -> fix_instrument t i = Ok None) /\
  (forall (nan : T) cdf c day l, dt_ltb e day = true -> prices nan cdf c i [day] = Ok l -> l = [n0]).
Proof.
  intros E _. destruct (forward_is _ _ _ _ _ _ _ _ _ _ E) as (pay & _ & _ & _ & ->). split.
  - intros t G K. exact (proj1 (fix_forward_unknown t (mkVanilla id cr u s e pc cp (mkDDF (dt_date e) (time_in_day (dt_tod e))) pay) f d _ G) K).
  - intros nan cdf c day l L P. set (v := mkVanilla _ _ _ _ _ _ _ _ _) in *.
    assert (Hd : dt_leb day (van_expiry v) = false) by (unfold dt_leb; cbn [van_expiry v]; now rewrite L).
    pose proof (expired_any nan cdf c _ v [day] l (or_intror (ex_intro _ f (ex_intro _ d (ex_intro _ _ eq_refl)))) P 0%nat day eq_refl Hd) as X.
    pose proof (prices_length nan cdf c _ [day] l P) as Y.
    destruct l as [|x [|]]; try discriminate. cbn in X. now injection X as ->.
Qed.

Lemma late_strike_case : exists i, forward_european_new "OPT" "OPT-CR" (IEquity "BP" "BP-CR" (mkCurrency "USD" NullRule) NullRule) NullRule
  (mkDT 10%Z Open_) 1 (mkDT 20%Z Open_) Call CashSettled = Ok i /\ dt_ltb (mkDT 10%Z Open_) (mkDT 20%Z Open_) = true.
Proof.
  eexists. split; [|reflexivity]. apply forward_iff_R. exists 10%Z. split; [reflexivity|]. split; [exact I|]. split; [lra|reflexivity].
Qed.
