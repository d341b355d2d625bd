(** What a dependency collector knows. *)
From Coq Require Import ZArith List String Bool Lia.
From Verif Require Import Prelude Num M_Dates M_Calendar M_Curves M_Forward M_Vol M_Instruments M_Deps S_Deps
  L_Num L_Fixings L_Instruments.
Import ListNotations.
Open Scope list_scope.

Section Deps.
  Context {T : Type} {N : Num T}.
  Implicit Types i u : instrument T.
  Implicit Types s : collector T.

  Definition step (s : collector T) (a : ask T) : collector T :=
    match a with
    | Discount cr d => col_yield cr d s
    | SpotOf u => add_spot u s
    | ForwardOf u d =>
        mkCollector (col_spot_date s) (col_spots s) (col_yield_curves s)
          (set_hwm u d (col_forward_curves s)) (col_vol_surfaces s) (col_instruments s)
          (push_entry (credit_id u) (instrument_id u) (col_forward_ids s)) (col_fixings s)
    | VolOf u d => col_vol u d s
    | FixingOf id dt => col_fixing id dt s
    end.
  Definition steps (l : list (ask T)) s := fold_left step l s.

  Lemma steps_app l l' s : steps (l ++ l') s = steps l' (steps l s).
  Proof. apply fold_left_app. Qed.

  Lemma step_date a s : col_spot_date (step s a) = col_spot_date s.
  Proof. destruct a; reflexivity. Qed.

  Lemma steps_date l s : col_spot_date (steps l s) = col_spot_date s.
  Proof. revert s. induction l as [|a l IH]; intros s; [reflexivity|]. cbn. fold (steps l (step s a)). now rewrite IH, step_date. Qed.

  Definition req i : spot_requirement := if has_a_spot i then Required else NotRequired.

  (** Declaring is the steps of what is declared. *)
  Definition as_declared i : Prop := forall s s' r,
    dependencies i s = Ok (s', r) <-> exists l, declares (col_spot_date s) i l /\ s' = steps l s /\ r = req i.

  Lemma col_spot_declared u s s' : as_declared u ->
    (col_spot (dependencies u) u s = Ok s' <-> exists l, declares (col_spot_date s) u l /\ s' = steps (l ++ its_spot u) s).
  Proof.
    intros D. unfold col_spot. split.
    - destruct (dependencies u s) as [(s1, r)|e|e] eqn:E; try discriminate. cbn [bind]. apply D in E. destruct E as (l & L & -> & ->).
      intros E. injection E as <-. exists l. split; [exact L|]. rewrite steps_app. unfold its_spot, req. destruct (has_a_spot u); reflexivity.
    - intros (l & L & ->). assert (E : dependencies u s = Ok (steps l s, req u)) by (apply D; eauto). rewrite E. cbn [bind].
      f_equal. rewrite steps_app. unfold its_spot, req. destruct (has_a_spot u); reflexivity.
  Qed.

  Lemma col_forward_declared u d s s' : as_declared u ->
    (col_forward (dependencies u) u d s = Ok s' <-> exists l, declares (col_spot_date s) u l /\ s' = steps (its_forward u d l) s).
  Proof.
    intros D. unfold col_forward. rewrite (col_spot_declared u _ s' D). reflexivity.
  Qed.

  Lemma vanilla_declared v s s' r : as_declared (van_underlying v) ->
    (vanilla_deps (dependencies (van_underlying v)) v s = Ok (s', r) <->
     exists l, declares (col_spot_date s) (van_underlying v) l /\ s' = steps (option_asks v l) s /\ r = NotRequired).
  Proof.
    intros D. unfold vanilla_deps. split.
    - destruct (col_forward _ _ _ _) as [s1|e|e] eqn:E; try discriminate. cbn [bind]. apply (col_forward_declared _ _ _ _ D) in E.
      destruct E as (l & L & ->). intros E. injection E as <- <-. exists l. split; [exact L|]. split; [|reflexivity].
      unfold option_asks, its_forward. cbn zeta. rewrite !steps_app. reflexivity.
    - intros (l & L & -> & ->). set (s0 := col_yield _ _ (col_fixing _ _ s)).
      assert (E : col_forward (dependencies (van_underlying v)) (van_underlying v) (dt_date (van_expiry v)) s0 =
        Ok (steps (its_forward (van_underlying v) (dt_date (van_expiry v)) l) s0)) by (apply col_forward_declared; eauto).
      rewrite E. cbn [bind]. f_equal. f_equal. unfold option_asks, its_forward. cbn zeta. rewrite !steps_app. reflexivity.
  Qed.

  Lemma declared i : as_declared i.
  Proof.
    induction i as [c|id cur s0|id cr cur s0|id cr cur ex pay s0|id cr cur s0 ms IH|v k IH|v f d0 x0 IH] using instrument_nested_ind;
      intros s s' r; cbn [dependencies].
    - unfold spot_discount. cbn [settlement credit_id]. split.
      + destruct (apply_rule _ _) as [p|e|e] eqn:E; try discriminate. cbn [bind]. intros X. injection X as <- <-.
        eexists. split; [constructor; exact E|]. split; reflexivity.
      + intros (l & D & -> & ->). inversion D; subst. match goal with A : apply_rule _ _ = _ |- _ => rewrite A end. reflexivity.
    - unfold spot_discount. cbn [settlement credit_id]. split.
      + destruct (apply_rule _ _) as [p|e|e] eqn:E; try discriminate. cbn [bind]. intros X. injection X as <- <-.
        eexists. split; [constructor; exact E|]. split; reflexivity.
      + intros (l & D & -> & ->). inversion D; subst. match goal with A : apply_rule _ _ = _ |- _ => rewrite A end. reflexivity.
    - unfold spot_discount. cbn [settlement credit_id]. split.
      + destruct (apply_rule _ _) as [p|e|e] eqn:E; try discriminate. cbn [bind]. intros X. injection X as <- <-.
        eexists. split; [constructor; exact E|]. split; reflexivity.
      + intros (l & D & -> & ->). inversion D; subst. match goal with A : apply_rule _ _ = _ |- _ => rewrite A end. reflexivity.
    - split.
      + intros X. injection X as <- <-. eexists. split; [constructor|]. split; reflexivity.
      + intros (l & D & -> & ->). inversion D; subst. reflexivity.
    - assert (B : forall s s', basket_deps dependencies ms s = Ok s' <-> exists l, declares_all (col_spot_date s) ms l /\ s' = steps l s).
      { clear s s' r. induction IH as [|(w, u) ms H IH IHl]; intros s s'; cbn [basket_deps].
        - split; [intros X; injection X as <-; exists []; split; [constructor|reflexivity]|]. intros (l & D & ->). inversion D; subst. reflexivity.
        - cbn [snd] in H. split.
          + destruct (dependencies u s) as [(s1, r1)|e|e] eqn:E; try discriminate. apply H in E. destruct E as (l & L & -> & ->).
            unfold req. destruct (has_a_spot u) eqn:HS.
            * destruct (col_spot _ _ _) as [s2|e|e] eqn:E2; try discriminate. apply (col_spot_declared _ _ _ H) in E2.
              destruct E2 as (l2 & L2 & ->). rewrite steps_date in L2. intros X. apply IHl in X. destruct X as (l3 & L3 & ->).
              rewrite !steps_date in L3.
              assert (l2 = l) as ->.
              { assert (E1 : dependencies u s = Ok (steps l s, req u)) by (apply H; eauto).
                destruct u; try discriminate HS. inversion L; inversion L2; subst. congruence. }
              exists ((l ++ l ++ [SpotOf u]) ++ l3). split.
              -- pose proof (dec_cons (col_spot_date s) w u ms l l3 L L3) as Q. now rewrite HS in Q.
              -- rewrite !steps_app. unfold its_spot. rewrite HS. reflexivity.
            * intros X. apply IHl in X. destruct X as (l3 & L3 & ->). rewrite steps_date in L3. exists (l ++ l3). split.
              -- pose proof (dec_cons (col_spot_date s) w u ms l l3 L L3) as Q. now rewrite HS in Q.
              -- now rewrite steps_app.
          + intros (l0 & D & ->). inversion D; subst.
            match goal with L : declares _ u ?l, L3 : declares_all _ ms ?l' |- _ => rename L into L1; rename L3 into L2 end.
            match type of L1 with declares _ _ ?l => assert (E : dependencies u s = Ok (steps l s, req u)) by (apply H; eauto) end.
            rewrite E. unfold req. destruct (has_a_spot u) eqn:HS.
            * match type of L1 with declares _ _ ?l =>
                assert (E2 : col_spot (dependencies u) u (steps l s) = Ok (steps (l ++ its_spot u) (steps l s))) by
                  (apply (col_spot_declared _ _ _ H); exists l; rewrite steps_date; auto) end.
              rewrite E2. apply IHl. eexists. split; [rewrite !steps_date; exact L2|]. rewrite !steps_app. unfold its_spot. rewrite HS. reflexivity.
            * apply IHl. eexists. split; [rewrite steps_date; exact L2|]. now rewrite steps_app. }
      split.
      + destruct (basket_deps _ _ _) as [s1|e|e] eqn:E; try discriminate. cbn [bind]. intros X. injection X as <- <-.
        apply B in E. destruct E as (l & L & ->). exists l. split; [now constructor|]. split; reflexivity.
      + intros (l & D & -> & ->). inversion D; subst.
        assert (E : basket_deps dependencies ms s = Ok (steps l s)) by (apply B; eauto). rewrite E. reflexivity.
    - rewrite (vanilla_declared v s s' r IH). split.
      + intros (l & L & -> & ->). eexists. split; [constructor; exact L|]. split; reflexivity.
      + intros (l & D & -> & ->). inversion D; subst. eauto.
    - rewrite (vanilla_declared v _ s' r IH). split.
      + intros (l & L & -> & ->). eexists. split; [constructor; exact L|]. split; reflexivity.
      + intros (l & D & -> & ->). inversion D; subst. eauto.
  Qed.

  Lemma collect_declared r s s' : collect r s = Ok s' <-> exists l, comes_to (col_spot_date s) r l /\ s' = steps l s.
  Proof.
    destruct r as [cr d|u|u d|u d|id dt]; cbn [collect].
    - split; [intros X; injection X as <-; eexists; split; [constructor|reflexivity]|]. intros (l & C & ->). inversion C; subst. reflexivity.
    - unfold collect_spot. rewrite (col_spot_declared u s s' (declared u)). split.
      + intros (l & L & ->). eexists. split; [constructor; exact L|reflexivity].
      + intros (l & C & ->). inversion C; subst. eauto.
    - unfold collect_forward. rewrite (col_forward_declared u d s s' (declared u)). split.
      + intros (l & L & ->). eexists. split; [constructor; exact L|reflexivity].
      + intros (l & C & ->). inversion C; subst. eauto.
    - split; [intros X; injection X as <-; eexists; split; [constructor|reflexivity]|]. intros (l & C & ->). inversion C; subst. reflexivity.
    - split; [intros X; injection X as <-; eexists; split; [constructor|reflexivity]|]. intros (l & C & ->). inversion C; subst. reflexivity.
  Qed.

  Lemma collect_all_declared today rs s : collect_all today rs = Ok s <->
    exists l, all_come_to today rs l /\ s = steps l (collector_new today).
  Proof.
    unfold collect_all. assert (G : forall s0, col_spot_date s0 = today -> (foldM (fun s r => collect r s) s0 rs = Ok s <->
      exists l, all_come_to today rs l /\ s = steps l s0)).
    { induction rs as [|r rs IH]; intros s0 D; cbn [foldM].
      - split; [intros X; injection X as <-; exists []; split; [constructor|reflexivity]|]. intros (l & C & ->). inversion C; subst. reflexivity.
      - split.
        + destruct (collect r s0) as [s1|e|e] eqn:E; try discriminate. cbn [bind]. apply collect_declared in E. rewrite D in E.
          destruct E as (l & C & ->). intros X. apply IH in X; [|now rewrite steps_date]. destruct X as (l' & C' & ->).
          exists (l ++ l'). split; [now constructor|]. now rewrite steps_app.
        + intros (l0 & C & ->). inversion C; subst.
          match goal with C1 : comes_to _ r ?l |- _ =>
            assert (E : collect r s0 = Ok (steps l s0)) by (apply collect_declared; eauto) end.
          rewrite E. cbn [bind]. apply IH; [now rewrite steps_date|]. eexists. split; [eassumption|]. now rewrite steps_app. }
    apply G. reflexivity.
  Qed.

  (** ** What the steps record *)
  Lemma latest_snoc ds o d : latest ds o ->
    latest (ds ++ [d]) (match o with None => Some d | Some old => if (old <? d)%Z then Some d else Some old end).
  Proof.
    destruct o as [old|]; cbn [latest].
    - intros (I & A). destruct (Z.ltb_spec old d); cbn [latest]; (split; [apply in_or_app; cbn; auto|]); apply Forall_app; split.
      + eapply Forall_impl; [|exact A]. cbn beta. intros. lia.
      + repeat constructor. lia.
      + exact A.
      + repeat constructor. lia.
    - intros ->. cbn. auto using Z.le_refl.
  Qed.

  Lemma get_hwm_str cr cr' d m : get cr (set_hwm_by_str cr' d m) =
    if String.eqb cr' cr then match get cr m with None => Some d | Some old => if (old <? d)%Z then Some d else Some old end else get cr m.
  Proof.
    unfold set_hwm_by_str. destruct (String.eqb_spec cr' cr) as [->|NE].
    - destruct (get cr m) as [old|] eqn:G; [|apply get_put_same]. destruct (old <? d)%Z; [apply get_put_same|exact G].
    - destruct (get cr' m) as [old|]; [|now apply get_put_other]. destruct (old <? d)%Z; [now apply get_put_other|reflexivity].
  Qed.

  Lemma get_hwm id u d m : option_map snd (get id (set_hwm u d m)) =
    if String.eqb (instrument_id u) id
    then match option_map snd (get id m) with None => Some d | Some old => if (old <? d)%Z then Some d else Some old end
    else option_map snd (get id m).
  Proof.
    unfold set_hwm. destruct (String.eqb_spec (instrument_id u) id) as [<-|NE].
    - destruct (get (instrument_id u) m) as [(key, old)|] eqn:G; cbn [option_map snd]; [|now rewrite get_put_same].
      destruct (old <? d)%Z; [now rewrite get_put_same|now rewrite G].
    - destruct (get (instrument_id u) m) as [(key, old)|]; [|now rewrite get_put_other].
      destruct (old <? d)%Z; [now rewrite get_put_other|reflexivity].
  Qed.

  Lemma get_push {A} id id' (x : A) m : match get id (push_entry id' x m) with Some l => l | None => [] end =
    (match get id m with Some l => l | None => [] end) ++ (if String.eqb id' id then [x] else []).
  Proof.
    unfold push_entry. destruct (String.eqb_spec id' id) as [->|NE].
    - destruct (get id m) eqn:G; rewrite get_put_same; reflexivity.
    - rewrite app_nil_r. destruct (get id' m); rewrite get_put_other by exact NE; reflexivity.
  Qed.

  Lemma keys_put {A} k (x : A) m : NoDup (keys m) -> NoDup (keys (put k x m)) /\ forall k', In k' (keys (put k x m)) -> k' = k \/ In k' (keys m).
  Proof.
    unfold keys. induction m as [|(k0, v0) m IH]; cbn [put map fst]; intros ND.
    - split; [repeat constructor; auto|]. cbn. intuition.
    - destruct (String.eqb_spec k k0) as [->|NE]; cbn [map fst].
      + split; [exact ND|]. cbn. auto.
      + inversion ND as [|? ? H1 H2]; subst. destruct (IH H2) as (A1 & B). split.
        * constructor; [|exact A1]. intros I. apply B in I. destruct I; [congruence|auto].
        * intros k' [<-|I]; [right; now left|]. apply B in I. cbn. tauto.
  Qed.

  Record knows (l : list (ask T)) s : Prop := {
    kn_yield : forall cr, latest (discounts_to cr l) (yield_curve_hwm cr s);
    kn_forward : forall u, latest (forwards_to (instrument_id u) l) (forward_curve_hwm u s);
    kn_vol : forall u, latest (vols_to (instrument_id u) l) (vol_surface_hwm u s);
    kn_spot : forall u, has_spot u s = true <-> spot_asked (instrument_id u) l;
    kn_fixings : forall id, fixings_of id s = fixings_asked id l;
    kn_forward_ids : forall cr, forward_ids_of cr s = forwards_on cr l;
    kn_instrument : forall id u, instrument_by_id id s = Some u -> instrument_id u = id /\ (In (SpotOf u) l \/ exists d, In (VolOf u d) l);
    kn_instrument_known : forall u, In (SpotOf u) l \/ (exists d, In (VolOf u d) l) -> instrument_by_id (instrument_id u) s <> None;
    kn_once : NoDup (keys (col_yield_curves s)) /\ NoDup (keys (col_forward_curves s)) /\ NoDup (keys (col_vol_surfaces s)) /\ NoDup (keys (col_spots s))
  }.

  Lemma knows_new today : knows [] (collector_new today).
  Proof.
    constructor; try reflexivity.
    - split; [discriminate|]. intros (x & [] & _).
    - discriminate.
    - intros u [[]|(d & [])].
    - repeat split; constructor.
  Qed.

  Lemma nodup_hwm_str cr d m : NoDup (keys m) -> NoDup (keys (set_hwm_by_str cr d m)).
  Proof. intros ND. unfold set_hwm_by_str. destruct (get cr m); [destruct (_ <? _)%Z|]; auto; now apply keys_put. Qed.
  Lemma nodup_hwm u d m : NoDup (keys m) -> NoDup (keys (set_hwm u d m)).
  Proof. intros ND. unfold set_hwm. destruct (get _ m) as [(key, old)|]; [destruct (_ <? _)%Z|]; auto; now apply keys_put. Qed.

  Lemma in_snoc {A} (x a : A) l : In x (l ++ [a]) <-> In x l \/ a = x.
  Proof. rewrite in_app_iff. cbn. tauto. Qed.

  Lemma knows_step l s a : knows l s -> knows (l ++ [a]) (step s a).
  Proof.
    intros [Y F V S X FI I IK (N1 & N2 & N3 & N4)].
    assert (FM : forall (B : Type) (g : ask T -> list B), flat_map g (l ++ [a]) = flat_map g l ++ g a).
    { intros B g. rewrite flat_map_app. cbn. now rewrite app_nil_r. }
    constructor.
    - intros cr. unfold discounts_to. rewrite FM. fold (discounts_to cr l). specialize (Y cr). unfold yield_curve_hwm in *.
      destruct a; cbn [step col_yield add_spot add_instrument col_vol col_fixing col_yield_curves]; try (rewrite app_nil_r; exact Y).
      rewrite get_hwm_str. destruct (String.eqb credit cr); [|now rewrite app_nil_r]. now apply latest_snoc.
    - intros u. unfold forwards_to. rewrite FM. fold (forwards_to (instrument_id u) l). specialize (F u). unfold forward_curve_hwm in *.
      destruct a; cbn [step col_yield add_spot add_instrument col_vol col_fixing col_forward_curves]; try (rewrite app_nil_r; exact F).
      rewrite get_hwm. destruct (String.eqb _ _); [|now rewrite app_nil_r]. now apply latest_snoc.
    - intros u. unfold vols_to. rewrite FM. fold (vols_to (instrument_id u) l). specialize (V u). unfold vol_surface_hwm in *.
      destruct a; cbn [step col_yield add_spot add_instrument col_vol col_fixing col_vol_surfaces]; try (rewrite app_nil_r; exact V).
      rewrite get_hwm. destruct (String.eqb _ _); [|now rewrite app_nil_r]. now apply latest_snoc.
    - intros u. specialize (S u). unfold has_spot, spot_asked, contains in *.
      destruct a as [cr d|v|v d|v d|id dt]; cbn [step col_yield add_spot add_instrument col_vol col_fixing col_spots];
        try (rewrite S; split; intros (x & J & E); exists x; rewrite in_snoc in *; (split; [|exact E]); destruct J as [J|J]; auto; discriminate || auto);
        try (rewrite S; split; [intros (x & J & E); exists x; rewrite in_snoc; auto|intros (x & J & E); rewrite in_snoc in J; destruct J as [J|J]; [eauto|discriminate]]).
      assert (Q : (exists w, In (SpotOf w) (l ++ [SpotOf v]) /\ instrument_id w = instrument_id u) <->
        (exists w, In (SpotOf w) l /\ instrument_id w = instrument_id u) \/ instrument_id v = instrument_id u).
      { split.
        - intros (w & J & E). rewrite in_snoc in J. destruct J as [J|J]; [left; eauto|]. injection J as ->. auto.
        - intros [(w & J & E)|E]; [exists w|exists v]; rewrite in_snoc; auto. }
      rewrite Q. destruct (get (instrument_id v) (col_spots s)) eqn:G.
      + rewrite S. split; [auto|]. intros [A|E]; [exact A|]. apply S. rewrite <- E, G. reflexivity.
      + destruct (String.eqb_spec (instrument_id v) (instrument_id u)) as [E|NE].
        * rewrite E, get_put_same. tauto.
        * rewrite get_put_other by exact NE. rewrite S. tauto.
    - intros id. unfold fixings_asked. rewrite FM. fold (fixings_asked id l). specialize (X id). unfold fixings_of in *.
      destruct a; cbn [step col_yield add_spot add_instrument col_vol col_fixing col_fixings]; try (rewrite app_nil_r; exact X).
      rewrite get_push. now rewrite X.
    - intros cr. unfold forwards_on. rewrite FM. fold (forwards_on cr l). specialize (FI cr). unfold forward_ids_of in *.
      destruct a; cbn [step col_yield add_spot add_instrument col_vol col_fixing col_forward_ids]; try (rewrite app_nil_r; exact FI).
      rewrite get_push. now rewrite FI.
    - intros id u. specialize (I id u). unfold instrument_by_id in *.
      assert (MONO : (instrument_id u = id /\ (In (SpotOf u) l \/ exists d, In (VolOf u d) l)) ->
        instrument_id u = id /\ (In (SpotOf u) (l ++ [a]) \/ exists d, In (VolOf u d) (l ++ [a]))).
      { intros (E & [J|(d & J)]); (split; [exact E|]); [left|right; exists d]; rewrite in_snoc; auto. }
      destruct a as [cr d|v|v d|v d|id' dt]; cbn [step col_yield add_spot add_instrument col_vol col_fixing col_instruments]; try (intros G; apply MONO; auto; fail).
      + destruct (String.eqb_spec (instrument_id v) id) as [E|NE].
        * rewrite <- E, get_put_same. intros Q. injection Q as <-. split; [reflexivity|]. left. rewrite in_snoc. auto.
        * rewrite get_put_other by exact NE. auto.
      + destruct (String.eqb_spec (instrument_id v) id) as [E|NE].
        * rewrite <- E, get_put_same. intros Q. injection Q as <-. split; [reflexivity|]. right. exists d. rewrite in_snoc. auto.
        * rewrite get_put_other by exact NE. auto.
    - intros u. specialize (IK u). unfold instrument_by_id in *.
      destruct a as [cr d|v|v d|v d|id' dt]; cbn [step col_yield add_spot add_instrument col_vol col_fixing col_instruments];
        try (intros [J|(d1 & J)]; rewrite in_snoc in J; (destruct J as [J|J]; [apply IK; eauto|discriminate]); fail).
      + destruct (String.eqb_spec (instrument_id v) (instrument_id u)) as [E|NE].
        * intros _. rewrite E, get_put_same. discriminate.
        * rewrite get_put_other by exact NE. intros [J|(d1 & J)]; rewrite in_snoc in J; (destruct J as [J|J]; [apply IK; eauto|congruence]).
      + destruct (String.eqb_spec (instrument_id v) (instrument_id u)) as [E|NE].
        * intros _. rewrite E, get_put_same. discriminate.
        * rewrite get_put_other by exact NE. intros [J|(d1 & J)]; rewrite in_snoc in J; (destruct J as [J|J]; [apply IK; eauto|congruence]).
    - destruct a as [cr d|v|v d|v d|id' dt];
        cbn [step col_yield add_spot add_instrument col_vol col_fixing col_yield_curves col_forward_curves col_vol_surfaces col_spots];
        (repeat split); auto using nodup_hwm_str, nodup_hwm.
      destruct (get _ (col_spots s)); [exact N4|]. now apply keys_put.
  Qed.

  Lemma knows_steps l : forall l0 s, knows l0 s -> knows (l0 ++ l) (steps l s).
  Proof.
    induction l as [|a l IH]; intros l0 s K; [now rewrite app_nil_r|]. cbn. fold (steps l (step s a)).
    replace (l0 ++ a :: l) with ((l0 ++ [a]) ++ l) by now rewrite <- app_assoc. apply IH. now apply knows_step.
  Qed.

  Lemma collect_knows today rs s : collect_all today rs = Ok s -> exists l, all_come_to today rs l /\ knows l s.
  Proof.
    intros E. apply collect_all_declared in E. destruct E as (l & C & ->). exists l. split; [exact C|].
    apply (knows_steps l [] (collector_new today)). apply knows_new.
  Qed.

  Lemma collect_total today rs : (exists s, collect_all today rs = Ok s) <-> exists l, all_come_to today rs l.
  Proof.
    split.
    - intros (s & E). apply collect_all_declared in E. destruct E as (l & C & _). eauto.
    - intros (l & C). eexists. apply collect_all_declared. eauto.
  Qed.

  (** What requests come to is determined. *)
  Scheme declares_mut := Induction for declares Sort Prop with declares_all_mut := Induction for declares_all Sort Prop.
  Lemma declares_fun today i l : declares today i l -> forall l', declares today i l' -> l = l'.
  Proof.
    intros D. induction D using declares_mut with (P0 := fun ms l _ => forall l', declares_all today ms l' -> l = l'); intros l2 D2.
    - inversion D2; subst. congruence.
    - inversion D2; subst. congruence.
    - inversion D2; subst. congruence.
    - inversion D2; subst. reflexivity.
    - inversion D2; subst. auto.
    - inversion D2; subst. f_equal. auto.
    - inversion D2; subst. do 2 f_equal. auto.
    - inversion D2; subst. reflexivity.
    - inversion D2; subst. match goal with A : declares _ u ?m, B : declares_all _ ms ?m' |- _ => rewrite (IHD _ A), (IHD0 _ B) end. reflexivity.
  Qed.

  Lemma comes_to_one today r l l' : comes_to today r l -> comes_to today r l' -> l = l'.
  Proof.
    intros A B. destruct A; inversion B; subst; try reflexivity;
      match goal with X : declares _ ?u ?a, Y : declares _ ?u ?b |- ?f = ?g => now rewrite (declares_fun _ _ _ X _ Y) || now rewrite (declares_fun _ _ _ Y _ X) end.
  Qed.

  Lemma comes_to_fun today rs l l' : all_come_to today rs l -> all_come_to today rs l' -> l = l'.
  Proof.
    intros C. revert l'. induction C as [|r rs l m H C IH]; intros l' C'; inversion C'; subst; [reflexivity|].
    f_equal; [eauto using comes_to_one|auto].
  Qed.
End Deps.

Section Collected.
  Context {T : Type} {N : Num T}.
  Variables (today : date) (rs : list (request T)) (s : collector T).

  Lemma collected l : collect_all today rs = Ok s -> all_come_to today rs l -> knows l s.
  Proof. intros E C. apply collect_knows in E. destruct E as (l' & C' & K). now rewrite (comes_to_fun _ _ _ _ C C'). Qed.

  Lemma collected_hwm l : collect_all today rs = Ok s -> all_come_to today rs l ->
    (forall cr, latest (discounts_to cr l) (yield_curve_hwm cr s)) /\
    (forall u, latest (forwards_to (instrument_id u) l) (forward_curve_hwm u s)) /\
    (forall u, latest (vols_to (instrument_id u) l) (vol_surface_hwm u s)).
  Proof. intros E C. destruct (collected l E C). auto. Qed.

  Lemma collected_once : collect_all today rs = Ok s ->
    NoDup (keys (col_yield_curves s)) /\ NoDup (keys (col_forward_curves s)) /\ NoDup (keys (col_vol_surfaces s)) /\ NoDup (keys (col_spots s)).
  Proof. intros E. apply collect_knows in E. destruct E as (l & _ & K). apply K. Qed.

  Lemma collected_spots l : collect_all today rs = Ok s -> all_come_to today rs l ->
    forall u, has_spot u s = true <-> spot_asked (instrument_id u) l.
  Proof. intros E C. apply (collected l E C). Qed.

  Lemma collected_fixings l : collect_all today rs = Ok s -> all_come_to today rs l -> forall id, fixings_of id s = fixings_asked id l.
  Proof. intros E C. apply (collected l E C). Qed.

  Lemma collected_forward_ids l : collect_all today rs = Ok s -> all_come_to today rs l -> forall cr, forward_ids_of cr s = forwards_on cr l.
  Proof. intros E C. apply (collected l E C). Qed.

  Lemma collected_instruments l : collect_all today rs = Ok s -> all_come_to today rs l ->
    (forall id u, instrument_by_id id s = Some u -> instrument_id u = id /\ (In (SpotOf u) l \/ exists d, In (VolOf u d) l)) /\
    (forall u, In (SpotOf u) l \/ (exists d, In (VolOf u d) l) -> instrument_by_id (instrument_id u) s <> None).
  Proof. intros E C. destruct (collected l E C). auto. Qed.
End Collected.
