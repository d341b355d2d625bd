(** Prices of portfolios as parts of larger ones. *)
From Coq Require Import ZArith List String Bool Lia.
From Verif Require Import Prelude Num M_Dates M_Search M_Calendar M_Interp M_Curves M_Fixings M_Forward M_Vol M_Instruments M_Deps M_Risk M_Reports
  S_Data S_Deps S_Risk S_Portfolio L_Num L_Fixings L_Forward L_Deps L_Risk L_Prefetch L_PrefetchTop L_Instruments L_Vol L_Pricing L_DepsPricing L_SelfReports L_Portfolio.
Import ListNotations.
Open Scope list_scope.

Section Contexts.
  Context {T : Type} {N : Num T} {TR : Trans T}.
  Variables (nan : T) (cdf : T -> T).

  (** The second context answers whatever the first does, and the same but for forwards that may go further. *)
  Record carries (c1 c2 : pricing_context T) : Prop := {
    ca_date : ctx_spot_date c1 = ctx_spot_date c2;
    ca_yield : forall cr d y, ctx_yield_curve c1 cr d = Ok y -> ctx_yield_curve c2 cr d = Ok y;
    ca_forward : forall u e f1, ctx_forward_curve c1 u e = Ok f1 ->
      exists f2, ctx_forward_curve c2 u e = Ok f2 /\ forall d x, forward_at nan f1 d = Ok x -> forward_at nan f2 d = Ok x;
    ca_vol : forall u e g v, ctx_vol_surface c1 u e g = Ok v -> forall g', ctx_vol_surface c2 u e g' = Ok v
  }.

  Lemma mapM_kept {A B} (f g : A -> res B) l r : (forall a b, f a = Ok b -> g a = Ok b) -> mapM f l = Ok r -> mapM g l = Ok r.
  Proof. intros K E. apply mapM_forall2 in E. apply mapM_forall2. induction E; constructor; auto. Qed.

  Lemma vanilla_kept c1 c2 v dates from sf sf' l : carries c1 c2 -> (forall x, sf = Ok x -> sf' = Ok x) ->
    vanilla_prices nan cdf c1 v dates from sf = Ok l -> vanilla_prices nan cdf c2 v dates from sf' = Ok l.
  Proof.
    intros [C1 C2 C3 C4] K E. unfold vanilla_prices in *. destruct dates as [|d dates]; [exact E|].
    inv_bind E. rewrite (C2 _ _ _ E0). cbn [bind]. inv_bind E. rewrite (C4 _ _ _ _ E1 _). cbn [bind]. inv_bind E. rewrite (K _ E2). cbn [bind].
    exact E.
  Qed.

  Lemma prices_kept c1 c2 : carries c1 c2 -> forall i, (forall id s, share_in id i -> ctx_spot c1 id = Ok s -> ctx_spot c2 id = Ok s) ->
    forall dates l, prices nan cdf c1 i dates = Ok l -> prices nan cdf c2 i dates = Ok l.
  Proof.
    intros CA i. pose proof CA as [C1 C2 C3 C4].
    induction i as [c|id cur s|id cr cur s|id cr cur ex pay s|id cr cur s ms IH|v k IH|v f d0 x0 IH] using instrument_nested_ind; intros SP dates l E; try exact E.
    - cbn [prices] in *. destruct dates as [|d rest]; [exact E|]. rewrite <- C1. destruct (match rest with [] => _ | _ => false end).
      + inv_bind E. rewrite (SP id _ (share_itself id cr cur s) E0). exact E.
      + inv_bind E. destruct (C3 _ _ _ E0) as (f2 & F2 & K). rewrite F2. cbn [bind]. eapply mapM_kept; [|exact E]. intros y z. apply K.
    - cbn [prices] in *. inv_bind E. rewrite (C2 _ _ _ E0). exact E.
    - cbn [prices] in *. revert E. generalize (map (fun _ : datetime => n0) dates).
      assert (K : forall w u, In (w, u) ms -> forall l, prices nan cdf c1 u dates = Ok l -> prices nan cdf c2 u dates = Ok l).
      { intros w u I l0 E. rewrite Forall_forall in IH. apply (IH (w, u) I); [|exact E]. intros id' x S. apply SP. econstructor; eassumption. }
      clear IH SP. induction ms as [|(w, u) ms IH]; intros out E; [exact E|]. cbn [basket_loop] in *.
      destruct (prices nan cdf c1 u dates) as [t| |] eqn:P; try discriminate. rewrite (K w u ltac:(now left) _ P).
      apply IH; [|exact E]. intros w' u' I. apply (K w'). now right.
    - cbn [prices] in *. eapply vanilla_kept; [exact CA| |exact E]. intros x X. inv_bind X. unfold first_price in E0 |- *. inv_bind E0.
      erewrite IH; [|intros id' y S; apply SP; now constructor|exact E1]. cbn [bind]. rewrite E0. exact X.
    - cbn [prices] in *. rewrite <- C1. destruct (_ <? _)%Z; [exact E|]. eapply vanilla_kept; [exact CA| |exact E]. intros x X. inv_bind X.
      erewrite IH; [|intros id' y S; apply SP; now constructor|eassumption]. exact X.
  Qed.

  (** ** Two caches *)
  Variables (today : date) (rs1 rs : list (request T)) (a1 a : list (ask T)) (deps1 deps : collector T) (md1 md : market_data T) (p1 p : prefetch T).
  Hypothesis C1 : collect_all today rs1 = Ok deps1.
  Hypothesis D1 : all_come_to today rs1 a1.
  Hypothesis C : collect_all today rs = Ok deps.
  Hypothesis D : all_come_to today rs a.
  Hypothesis Part : incl a1 a.
  Hypothesis One : one_per_id a.
  Hypothesis Date : md_spot_date md1 = md_spot_date md.
  Hypothesis Yields : md_yields md1 = md_yields md.
  Hypothesis Same : forall u d, In (ForwardOf u d) a1 -> inputs md u = inputs md1 u /\ look md (VolFor (instrument_id u)) = look md1 (VolFor (instrument_id u)).
  Hypothesis Clear : dividends_clear md1 a1.
  Hypothesis P1 : prefetch_new nan md1 deps1 = Ok p1.
  Hypothesis P : prefetch_new nan md deps = Ok p.

  Lemma one_part : one_per_id a1.
  Proof.
    assert (K : forall u, named u a1 -> named u a).
    { intros u [A|[(d & A)|(d & A)]]; apply Part in A; unfold named; eauto. }
    intros u u' A B. apply One; auto.
  Qed.

  Lemma in_forwards_to u d (l : list (ask T)) : In (ForwardOf u d) l -> In d (forwards_to (instrument_id u) l).
  Proof. intros I. unfold forwards_to. apply in_flat_map. exists (ForwardOf u d). split; [exact I|]. rewrite String.eqb_refl. now left. Qed.

  (** What is cached, and for which instruments. *)
  Lemma cached_forward id f : get id (pf_forwards p1) = Some f -> exists u h, instrument_id u = id /\
    forward_curve_hwm u deps1 = Some h /\ md_forward_curve nan md1 u h = Ok f /\ In (ForwardOf u h) a1.
  Proof.
    intros G. pose proof (proj1 (new_spec nan md1 deps1 p1 (deps_tidy today rs1 a1 deps1 C1 D1 one_part)) P1) as (_ & _ & UF & _).
    assert (X : exists x, In x (col_forward_curves deps1) /\ forward_entry nan md1 x (id, f)).
    { clear - UF G. induction UF as [|x [k g] l m E _ IH]; [discriminate|]. cbn [get] in G. destruct (String.eqb_spec id k) as [->|ne].
      - injection G as <-. exists x. split; [now left|exact E].
      - destruct (IH G) as (y & I & Y). exists y. split; [now right|exact Y]. }
    destruct X as ([k [u h]] & I & E1 & E2). cbn [fst snd] in *. subst k.
    destruct (collected_forwards today rs1 a1 deps1 C1 D1 _ _ _ I) as (A & d & B).
    assert (G' : get id (col_forward_curves deps1) = Some (u, h)).
    { apply in_get; [|exact I]. apply (collected_once today rs1 deps1 C1). }
    exists u, h. split; [exact A|]. assert (H : forward_curve_hwm u deps1 = Some h) by (unfold forward_curve_hwm; now rewrite A, G').
    split; [exact H|]. split; [exact E2|].
    pose proof (proj1 (proj2 (collected_hwm today rs1 deps1 a1 C1 D1)) u) as L. rewrite H in L. destruct L as (L & _).
    unfold forwards_to in L. apply in_flat_map in L as ([cr d'|u'|u' d'|u' d'|i' dt] & L1 & L2); try contradiction.
    destruct (String.eqb_spec (instrument_id u') (instrument_id u)) as [Q|]; [|contradiction]. destruct L2 as [->|[]].
    rewrite (one_part u u'); [exact L1|right; left; eauto|right; left; eauto|congruence].
  Qed.

  Lemma hwm_further u h : forward_curve_hwm u deps1 = Some h -> In (ForwardOf u h) a1 -> exists h', forward_curve_hwm u deps = Some h' /\ (h <= h')%Z.
  Proof.
    intros _ I. pose proof (proj1 (proj2 (collected_hwm today rs deps a C D)) u) as L. pose proof (in_forwards_to u h a (Part _ I)) as J.
    destruct (forward_curve_hwm u deps) as [h'|]; cbn [latest] in L.
    - exists h'. split; [reflexivity|]. destruct L as (_ & L). rewrite Forall_forall in L. now apply L.
    - rewrite L in J. destruct J.
  Qed.

  Lemma forward_kept u h h' f f' : In (ForwardOf u h) a1 -> (h <= h')%Z -> md_forward_curve nan md1 u h = Ok f -> md_forward_curve nan md1 u h' = Ok f' ->
    forall d x, forward_at nan f d = Ok x -> forward_at nan f' d = Ok x.
  Proof.
    intros I L F F' d x E. unfold md_forward_curve, find_data in *.
    destruct (get (instrument_id u) (md_spots md1)) as [sp|]; cbn [bind] in F, F'; [|discriminate].
    destruct (get (instrument_id u) (md_divs md1)) as [dv|] eqn:ED; cbn [bind] in F, F'; [|discriminate].
    destruct (get (instrument_id u) (md_borrows md1)) as [bo|]; cbn [bind] in F, F'; [|discriminate].
    destruct (get (credit_id u) (md_yields md1)) as [y|]; cbn [bind] in F, F'; [|discriminate].
    destruct (forward_longer nan _ _ _ _ _ _ _ _ _ L (Clear u h dv I ED) F') as (f0 & F0 & S & O). assert (f0 = f) by congruence. subst f0.
    destruct (Z.le_gt_cases d (reach dv h)) as [U|U]; [now rewrite <- (S d U)|]. destruct (O d ltac:(lia)) as (m & M). congruence.
  Qed.

  Lemma caches_carry : carries (prefetch_context nan p1) (prefetch_context nan p).
  Proof.
    pose proof (proj1 (new_spec nan md1 deps1 p1 (deps_tidy today rs1 a1 deps1 C1 D1 one_part)) P1) as (PD1 & _ & _ & UV).
    pose proof (proj1 (new_spec nan md deps p (deps_tidy today rs a deps C D One)) P) as (PD & _ & _ & _).
    destruct (cache_answers nan today rs a deps C D One md p P) as (CF & CV).
    constructor; cbn [prefetch_context ctx_spot_date ctx_yield_curve md_context ctx_forward_curve ctx_vol_surface].
    - now rewrite PD1, PD.
    - intros cr d y. now rewrite PD1, PD, Yields.
    - intros u e f1 F. apply find_ok in F. destruct (cached_forward _ _ F) as (u' & h & ID & H & MF & I).
      destruct (CF u' h (Part _ I)) as (h' & f' & H' & MF' & K). exists f'. specialize (K e). cbn [prefetch_context ctx_forward_curve] in K. rewrite ID in K.
      split; [exact K|]. destruct (hwm_further u' h H I) as (h2 & H2 & L). assert (h2 = h') by congruence. subst h2.
      apply (forward_kept u' h h' f1 f' I L MF). rewrite <- (forward_inputs nan md1 md u' h'); [exact MF'|now rewrite Date|apply (Same u' h I)].
    - intros u e g v V g'. apply find_ok in V.
      assert (X : exists k u' h0, In (k, (u', h0)) (col_forward_curves deps1) /\ vol_entry nan md1 deps1 (k, (u', h0)) (instrument_id u, v)).
      { clear - UV V. assert (W : exists x, In x (filter (has_vol deps1) (col_forward_curves deps1)) /\ vol_entry nan md1 deps1 x (instrument_id u, v)).
        { induction UV as [|x [k w] l m E _ IH]; [discriminate|]. cbn [get] in V. destruct (String.eqb_spec (instrument_id u) k) as [<-|ne].
          - injection V as <-. exists x. split; [now left|exact E].
          - destruct (IH V) as (y & I & Y). exists y. split; [now right|exact Y]. }
        destruct W as ([k [u' h0]] & I & E). apply filter_In in I as (I & _). exists k, u', h0. auto. }
      destruct X as (k & u' & h0 & I & E1 & vh & VH & VE). cbn [fst snd] in *. subst k.
      destruct (collected_forwards today rs1 a1 deps1 C1 D1 _ _ _ I) as (ID & d & FO).
      assert (VI : exists d', In (VolOf u' d') a1).
      { pose proof (proj2 (proj2 (collected_hwm today rs1 deps1 a1 C1 D1)) u') as L. rewrite VH in L. destruct L as (L & _).
        unfold vols_to in L. apply in_flat_map in L as ([cr d'|u2|u2 d'|u2 d'|i' dt] & L1 & L2); try contradiction.
        destruct (String.eqb_spec (instrument_id u2) (instrument_id u')) as [Q|]; [|contradiction].
        exists d'. rewrite (one_part u' u2); [exact L1|right; left; eauto|right; right; eauto|congruence]. }
      destruct VI as (d' & VI). destruct (CV u' d d' (Part _ FO) (Part _ VI)) as (h2 & v2 & _ & MV & K).
      specialize (K e g'). cbn [prefetch_context ctx_vol_surface] in K. rewrite ID in K. rewrite K. f_equal.
      specialize (MV (Err ""%string)). rewrite (vol_inputs nan md1 md u' h2) in MV; [|now rewrite Date|apply (Same u' d FO)].
      assert (Q : md_vol_surface nan md1 u' vh (Err ""%string) = md_vol_surface nan md1 u' h2 (Err ""%string)) by reflexivity. congruence.
  Qed.
End Contexts.
