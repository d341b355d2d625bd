(** The cache as its users see it. *)
From Coq Require Import ZArith List String Bool.
From Verif Require Import Prelude Num M_Dates M_Calendar M_Curves M_Fixings M_Forward M_Vol M_Instruments M_Deps M_Risk M_Reports
  S_Deps S_Risk L_Num L_Fixings L_Deps L_Risk L_Prefetch.
Import ListNotations.
Open Scope list_scope.

Lemma forall2_get {A B} (R : string * A -> string * B -> Prop) (l : smap A) (m : smap B) k a :
  (forall x y, R x y -> fst y = fst x) -> Forall2 R l m -> get k l = Some a -> exists b, get k m = Some b /\ R (k, a) (k, b).
Proof.
  intros K F. induction F as [|[k1 a1] [k2 b2] l m RAB F IH]; [discriminate|]. pose proof (K _ _ RAB) as E. cbn in E. subst k2.
  cbn [get]. destruct (String.eqb_spec k k1) as [->|D]; [|exact IH]. intros [= ->]. eauto.
Qed.

Section Top.
  Context {T : Type} {N : Num T} {TR : Trans T}.
  Variable nan : T.
  Implicit Types md : market_data T.
  Implicit Types p : prefetch T.
  Implicit Types u : instrument T.
  Implicit Types deps : collector T.

  Variables (today : date) (rs : list (request T)) (l : list (ask T)) (deps : collector T).
  Hypothesis Collected : collect_all today rs = Ok deps.
  Hypothesis Declared : all_come_to today rs l.
  Hypothesis One : one_per_id l.

  Lemma deps_tidy : tidy deps.
  Proof. exact (collected_tidy today rs l deps Collected Declared One). Qed.

  Lemma asked_in u d : In (ForwardOf u d) l -> exists h, forward_curve_hwm u deps = Some h /\ get (instrument_id u) (col_forward_curves deps) = Some (u, h).
  Proof.
    intros I. pose proof (kn_forward _ _ (collected today rs deps l Collected Declared) u) as L. unfold forward_curve_hwm in *.
    destruct (get (instrument_id u) (col_forward_curves deps)) as [[u0 h]|] eqn:G; cbn [option_map latest] in L.
    - exists h. split; [reflexivity|]. do 2 f_equal. apply get_in in G.
      destruct (collected_forwards today rs l deps Collected Declared _ _ _ G) as (A & d' & B).
      apply One; [right; left; eauto|right; left; eauto|exact A].
    - exfalso. assert (J : In d (forwards_to (instrument_id u) l)); [|rewrite L in J; destruct J].
      unfold forwards_to. apply in_flat_map. exists (ForwardOf u d). split; [exact I|]. rewrite String.eqb_refl. now left.
  Qed.

  Lemma asked_vol u d : In (VolOf u d) l -> exists h, vol_surface_hwm u deps = Some h.
  Proof.
    intros I. pose proof (kn_vol _ _ (collected today rs deps l Collected Declared) u) as L.
    destruct (vol_surface_hwm u deps) as [h|]; [eauto|]. exfalso. cbn [latest] in L.
    assert (J : In d (vols_to (instrument_id u) l)); [|rewrite L in J; destruct J].
    unfold vols_to. apply in_flat_map. exists (VolOf u d). split; [exact I|]. rewrite String.eqb_refl. now left.
  Qed.

  Lemma cache_answers md p : prefetch_new nan md deps = Ok p ->
    (forall u d, In (ForwardOf u d) l -> exists h f, forward_curve_hwm u deps = Some h /\
       md_forward_curve nan md u h = Ok f /\ forall e, ctx_forward_curve (prefetch_context nan p) u e = Ok f) /\
    (forall u d d', In (ForwardOf u d) l -> In (VolOf u d') l -> exists h v, vol_surface_hwm u deps = Some h /\
       (forall g, md_vol_surface nan md u h g = Ok v) /\ forall e g, ctx_vol_surface (prefetch_context nan p) u e g = Ok v).
  Proof.
    intros E. apply (new_spec nan _ _ _ deps_tidy) in E. destruct E as (_ & _ & UF & UV). split.
    - intros u d I. destruct (asked_in u d I) as (h & H & G).
      destruct (forall2_get _ _ _ _ _ (fun a b (X : forward_entry nan md a b) => proj1 X) UF G) as (f & GF & _ & FE).
      exists h, f. split; [exact H|]. split; [exact FE|]. intros e. cbn [ctx_forward_curve prefetch_context]. unfold find_data. now rewrite GF.
    - intros u d d' I I'. destruct (asked_in u d I) as (h & H & G). destruct (asked_vol u d' I') as (vh & V).
      assert (G' : get (instrument_id u) (filter (has_vol deps) (col_forward_curves deps)) = Some (u, h)).
      { apply in_get; [apply nodup_filter, deps_tidy|]. apply filter_In. split; [now apply get_in|]. unfold has_vol. cbn [fst snd]. now rewrite V. }
      destruct (forall2_get _ _ _ _ _ (fun a b (X : vol_entry nan md deps a b) => proj1 X) UV G') as (v & GV & _ & h' & VH & VE).
      cbn [fst snd] in *. assert (h' = vh) as -> by congruence. exists vh, v. split; [exact V|]. split; [intros g; exact VE|].
      intros e g. cbn [ctx_vol_surface prefetch_context]. unfold find_data. now rewrite GV.
  Qed.

  Lemma cache_fresh md p p' : prefetch_new nan md deps = Ok p -> bumps_to nan p p' -> prefetch_new nan (pf_data p') deps = Ok p'.
  Proof.
    intros E B. apply (fresh_bumps nan p p' deps deps_tidy B). pose proof (proj1 (new_spec nan _ _ _ deps_tidy) E) as (D & _). now rewrite D.
  Qed.
End Top.

Section Portfolio.
  Context {T : Type} {N : Num T} {TR : Trans T}.
  Variable nan : T.

  Lemma portfolio_collects (instruments : holdings T) today :
    portfolio_dependencies instruments today = collect_all today (map (fun h => WantSpot (snd h)) instruments).
  Proof.
    unfold portfolio_dependencies, collect_all. generalize (collector_new (T := T) today).
    induction instruments as [|h rest IH]; intros s; [reflexivity|]. cbn [map foldM collect].
    destruct (collect_spot (snd h) s); cbn [bind]; auto.
  Qed.

  (** Bumps that keep the date leave what a new pricer on the bumped data would be. *)
  Lemma pricer_fresh instruments md l sp p' :
    self_pricer_new nan instruments md = Ok sp ->
    all_come_to (md_spot_date md) (map (fun h => WantSpot (snd h)) instruments) l -> one_per_id l ->
    bumps_to nan (sp_context sp) p' -> md_spot_date (pf_data p') = md_spot_date md ->
    self_pricer_new nan instruments (pf_data p') = Ok (mkSelfPricer instruments p').
  Proof.
    intros E D O B S. unfold self_pricer_new in *. rewrite S. inv_bind E. inv_bind E. injection E as <-. cbn [sp_context] in B.
    match goal with H : portfolio_dependencies _ _ = Ok ?deps, H' : prefetch_new _ _ _ = Ok ?p |- _ =>
      rewrite H; cbn [bind]; rewrite portfolio_collects in H;
      rewrite (cache_fresh nan _ _ l deps H D O md p p' H' B) end. reflexivity.
  Qed.
End Portfolio.
