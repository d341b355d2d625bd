(** Lemmas about volatility surfaces: one strike at a time, times, decorators. *)
From Coq Require Import ZArith List String Bool Lia Reals Lra.
From Verif Require Import Prelude Num L_Num M_Dates M_Search L_Search M_Calendar S_Calendar L_Calendar L_CalendarCount
  L_CalendarCases M_Interp M_Forward M_Vol S_Vol.
Import ListNotations.
Open Scope list_scope.

Lemma mapM_forall2 {A B} (f : A -> res B) l r : mapM f l = Ok r <-> Forall2 (fun a b => f a = Ok b) l r.
Proof.
  split.
  - revert r. induction l as [|a l IH]; cbn; intros r E.
    + injection E as <-. constructor.
    + inv_bind E. inv_bind E. injection E as <-. constructor; auto.
  - induction 1 as [|a b l r E F IH]; cbn; [reflexivity|]. now rewrite E, IH.
Qed.

Lemma mapM_length {A B} (f : A -> res B) l r : mapM f l = Ok r -> List.length r = List.length l.
Proof. intros E. apply mapM_forall2 in E. induction E; cbn; congruence. Qed.

Lemma mapM_map {A B C} (g : A -> B) (f : B -> res C) l : mapM f (map g l) = mapM (fun a => f (g a)) l.
Proof. induction l as [|a l IH]; cbn; [reflexivity|]. destruct (f (g a)); cbn; [|reflexivity|reflexivity]. now rewrite IH. Qed.

Lemma forall2_map_r {A B C} (P : A -> C -> Prop) (g : B -> C) l r :
  Forall2 P l (map g r) <-> Forall2 (fun a b => P a (g b)) l r.
Proof.
  split.
  - revert l. induction r as [|b r IH]; intros l F; inversion F; subst; constructor; auto.
  - induction 1; cbn; constructor; auto.
Qed.

Lemma forall2_impl {A B} (P Q : A -> B -> Prop) l r : (forall a b, P a b -> Q a b) -> Forall2 P l r -> Forall2 Q l r.
Proof. intros I. induction 1; constructor; auto. Qed.

Lemma at_ok {A} (l : list A) i a : at_ l i = Ok a <-> nth_error l i = Some a.
Proof. unfold at_. destruct (nth_error l i); split; intros E; inversion E; reflexivity. Qed.

Section Any.
  Context {T : Type} {N : Num T} {TR : Trans T}.
  Variable nan : T.
  Implicit Type s : vol_surface T.

  (** A computation over strikes that works one strike at a time. *)
  Definition pointwise (V : list T -> res (list T * T)) : Prop := forall ks vols t,
    V ks = Ok (vols, t) <-> V [] = Ok ([], t) /\ Forall2 (fun k v => V [k] = Ok ([v], t)) ks vols.

  Lemma mapM_one {A B} (g : A -> res B) k v : mapM g [k] = Ok [v] <-> g k = Ok v.
  Proof.
    cbn. split; intros E.
    - inv_bind E. injection E as ->. exact E0.
    - now rewrite E.
  Qed.

  (** The shape of all implementations: a time, something common (which need not exist for no strikes), then each strike. *)
  Lemma pointwise_shape {P} (tm : res T) (pre : T -> res P) (g : T -> P -> T -> res T) (V : list T -> res (list T * T)) :
    (forall vols t, V [] = Ok (vols, t) <-> vols = [] /\ tm = Ok t) ->
    (forall ks vols t, ks <> [] -> (V ks = Ok (vols, t) <-> exists p, tm = Ok t /\ pre t = Ok p /\ mapM (g t p) ks = Ok vols)) ->
    pointwise V.
  Proof.
    intros V0 V1 ks vols t. destruct ks as [|k ks].
    - rewrite V0. split.
      + intros (-> & E). split; [|constructor]. apply V0. auto.
      + intros (E & F). inversion_clear F. apply V0 in E. tauto.
    - rewrite V1 by discriminate. split.
      + intros (p & E & Q & M). split; [apply V0; auto|]. apply mapM_forall2 in M. revert M. apply forall2_impl.
        intros a b G. apply V1; [discriminate|]. exists p. rewrite mapM_one. auto.
      + intros (E & F). apply V0 in E. destruct E as (_ & E). destruct vols as [|b r]; [inversion F|]. assert (E1 : V [k] = Ok ([b], t)) by now inversion F.
        apply V1 in E1; [|discriminate]. destruct E1 as (p & _ & Q & _). exists p. split; [exact E|]. split; [exact Q|].
        apply mapM_forall2. revert F. apply forall2_impl. intros a c E2. apply V1 in E2; [|discriminate].
        destruct E2 as (p' & _ & Q' & M). assert (p' = p) by congruence. subst p'. exact (proj1 (mapM_one _ _ _) M).
  Qed.

  Definition one_var (f t : T) (l r : T) : res T :=
    if nltb r l then Err "Negative forward variance" else Ok (nsqrt (ndiv (lerp l r f) t)).

  Lemma interpolate_vars_one f t (a b : T -> res T) (h1 h2 : T -> T) ks out :
    (let* l := mapM a ks in let* r := mapM b ks in interpolate_vars f t (map h1 l) (map h2 r)) = Ok out <->
    mapM (fun k => let* l := a k in let* r := b k in one_var f t (h1 l) (h2 r)) ks = Ok out.
  Proof.
    revert out. induction ks as [|k ks IH]; intros out; cbn [mapM].
    - reflexivity.
    - destruct (a k) as [l0|e|e]; cbn [bind]; [|split; discriminate..].
      destruct (b k) as [r0|e|e]; cbn [bind].
      + destruct (mapM a ks) as [ls|e|e] eqn:A; cbn [bind] in *.
        * destruct (mapM b ks) as [rs|e|e] eqn:B; cbn [bind] in *.
          -- cbn [map interpolate_vars]. unfold one_var at 1. destruct (nltb (h2 r0) (h1 l0)); cbn [bind]; [split; discriminate|].
             split; intros E; inv_bind E; injection E as <-; apply IH in E0; rewrite E0; reflexivity.
          -- split; [discriminate|]. intros E. inv_bind E. inv_bind E. apply IH in E1. discriminate E1.
          -- split; [discriminate|]. intros E. inv_bind E. inv_bind E. apply IH in E1. discriminate E1.
        * split; [discriminate|]. intros E. inv_bind E. inv_bind E. apply IH in E1. discriminate E1.
        * split; [discriminate|]. intros E. inv_bind E. inv_bind E. apply IH in E1. discriminate E1.
      + split; [|discriminate]. destruct (mapM a ks); discriminate.
      + split; [|discriminate]. destruct (mapM a ks); discriminate.
  Qed.

  Lemma extrapolate_pointwise (v : vol_by_probability T) i dt : pointwise (vbp_extrapolate nan v i dt).
  Proof.
    apply (pointwise_shape (year_fraction (vbp_calendar v) (vbp_base v) dt)
      (fun t => let* fwd := linear_at nan (vbp_forward v) (ddf_date dt) in
                let* pt := at_ (vbp_times v) i in let* pf := at_ (vbp_forwards v) i in
                let* p := at_ (vbp_smiles v) i in Ok (fwd, pt, pf, snd p))
      (fun t '(fwd, pt, pf, sm) k => smile_at nan sm (to_strike pf (nsqrt pt) (to_normalised fwd (nsqrt t) k)))).
    - intros vols t. unfold vbp_extrapolate. destruct (year_fraction _ _ _) as [t0|e|e]; cbn [bind];
        [|split; [discriminate|intros (_ & [=])]..].
      split; [intros [= <- <-]; auto|intros (-> & [= ->]); reflexivity].
    - intros ks vols t K. unfold vbp_extrapolate. destruct (year_fraction _ _ _) as [t0|e|e]; cbn [bind];
        [|split; [discriminate|intros (p & [=] & _)]..].
      destruct ks as [|k ks]; [contradiction|].
      destruct (linear_at nan (vbp_forward v) (ddf_date dt)) as [f|e|e]; cbn [bind]; [|split; [discriminate|intros (p & _ & [=] & _)]..].
      destruct (at_ (vbp_times v) i) as [pt|e|e]; cbn [bind]; [|split; [discriminate|intros (p & _ & [=] & _)]..].
      destruct (at_ (vbp_forwards v) i) as [pf|e|e]; cbn [bind]; [|split; [discriminate|intros (p & _ & [=] & _)]..].
      destruct (at_ (vbp_smiles v) i) as [sm|e|e]; cbn [bind]; [|split; [discriminate|intros (p & _ & [=] & _)]..].
      unfold smile_volatilities. rewrite !mapM_map. split.
      + intros E. inv_bind E. injection E as <- <-. eexists. split; [reflexivity|]. split; [reflexivity|]. exact E0.
      + intros (p & [= <-] & [= <-] & E). rewrite E. reflexivity.
  Qed.

  Lemma interpolate_pointwise (v : vol_by_probability T) i j dt : pointwise (vbp_interpolate nan v i j dt).
  Proof.
    apply (pointwise_shape (year_fraction (vbp_calendar v) (vbp_base v) dt)
      (fun t => let* lt := at_ (vbp_times v) i in let* rt := at_ (vbp_times v) j in
                let* fwd := linear_at nan (vbp_forward v) (ddf_date dt) in
                let* ls := at_ (vbp_sqrt_vars v) i in let* rs := at_ (vbp_sqrt_vars v) j in
                let* lf := at_ (vbp_forwards v) i in let* rf := at_ (vbp_forwards v) j in
                let* lp := at_ (vbp_smiles v) i in let* rp := at_ (vbp_smiles v) j in
                Ok (lt, rt, fwd, ls, rs, lf, rf, (snd lp, snd rp)))
      (fun t '(lt, rt, fwd, ls, rs, lf, rf, (lsm, rsm)) k =>
         let fraction := ndiv (nsub t lt) (nsub rt lt) in
         let x := to_normalised fwd (nsqrt (lerp (nmul ls ls) (nmul rs rs) fraction)) k in
         let* l := smile_at nan lsm (to_strike lf ls x) in
         let* r := smile_at nan rsm (to_strike rf rs x) in
         one_var fraction t (nmul (nmul l l) lt) (nmul (nmul r r) rt))).
    - intros vols t. unfold vbp_interpolate. destruct (year_fraction _ _ _) as [t0|e|e]; cbn [bind];
        [|split; [discriminate|intros (_ & [=])]..].
      split; [intros [= <- <-]; auto|intros (-> & [= ->]); reflexivity].
    - intros ks vols t K. unfold vbp_interpolate. destruct (year_fraction _ _ _) as [t0|e|e]; cbn [bind];
        [|split; [discriminate|intros (p & [=] & _)]..].
      destruct ks as [|k ks]; [contradiction|].
      destruct (at_ (vbp_times v) i) as [lt|e|e]; cbn [bind]; [|split; [discriminate|intros (p & _ & [=] & _)]..].
      destruct (at_ (vbp_times v) j) as [rt|e|e]; cbn [bind]; [|split; [discriminate|intros (p & _ & [=] & _)]..].
      destruct (linear_at nan (vbp_forward v) (ddf_date dt)) as [f|e|e]; cbn [bind]; [|split; [discriminate|intros (p & _ & [=] & _)]..].
      destruct (at_ (vbp_sqrt_vars v) i) as [ls|e|e]; cbn [bind]; [|split; [discriminate|intros (p & _ & [=] & _)]..].
      destruct (at_ (vbp_sqrt_vars v) j) as [rs|e|e]; cbn [bind]; [|split; [discriminate|intros (p & _ & [=] & _)]..].
      destruct (at_ (vbp_forwards v) i) as [lf|e|e]; cbn [bind]; [|split; [discriminate|intros (p & _ & [=] & _)]..].
      unfold pillar_variances, smile_volatilities.
      destruct (at_ (vbp_smiles v) i) as [lp|e|e]; cbn [bind];
        [|split; [discriminate|destruct (at_ (vbp_forwards v) j); intros (p & _ & [=] & _)]..].
      rewrite !mapM_map.
      destruct (mapM _ (k :: ks)) as [lv|e|e] eqn:L; cbn [bind].
      + destruct (at_ (vbp_forwards v) j) as [rf|e|e]; cbn [bind]; [|split; [discriminate|intros (p & _ & [=] & _)]..].
        destruct (at_ (vbp_smiles v) j) as [rp|e|e]; cbn [bind]; [|split; [discriminate|intros (p & _ & [=] & _)]..].
        rewrite !mapM_map. split.
        * intros E. inv_bind E. inv_bind E. injection E as <- <-. eexists. split; [reflexivity|]. split; [reflexivity|].
          cbn beta iota zeta. inv_bind E0. injection E0 as <-.
          apply (interpolate_vars_one _ _ _ _ (fun x => nmul (nmul x x) lt) (fun x => nmul (nmul x x) rt)).
          rewrite L. cbn [bind]. rewrite E. exact E1.
        * intros (p & [= <-] & [= <-] & E). cbn beta iota zeta in E.
          apply (interpolate_vars_one _ _ _ _ (fun x => nmul (nmul x x) lt) (fun x => nmul (nmul x x) rt)) in E.
          rewrite L in E. cbn [bind] in E. inv_bind E. rewrite E0. cbn [bind]. rewrite E. reflexivity.
      + split; [discriminate|]. destruct (at_ (vbp_forwards v) j) as [rf|e'|e']; [|intros (p & _ & [=] & _)..]. cbn [bind].
        destruct (at_ (vbp_smiles v) j) as [rp|e'|e']; [|intros (p & _ & [=] & _)..]. cbn [bind].
        intros (p & [= <-] & [= <-] & E). cbn beta iota zeta in E.
        apply (interpolate_vars_one _ _ _ _ (fun x => nmul (nmul x x) lt) (fun x => nmul (nmul x x) rt)) in E.
        rewrite L in E. discriminate E.
      + split; [discriminate|]. destruct (at_ (vbp_forwards v) j) as [rf|e'|e']; [|intros (p & _ & [=] & _)..]. cbn [bind].
        destruct (at_ (vbp_smiles v) j) as [rp|e'|e']; [|intros (p & _ & [=] & _)..]. cbn [bind].
        intros (p & [= <-] & [= <-] & E). cbn beta iota zeta in E.
        apply (interpolate_vars_one _ _ _ _ (fun x => nmul (nmul x x) lt) (fun x => nmul (nmul x x) rt)) in E.
        rewrite L in E. discriminate E.
  Qed.

  Lemma vbp_pointwise (v : vol_by_probability T) dt : pointwise (vbp_volatilities nan v dt).
  Proof.
    intros ks vols t. unfold vbp_volatilities. destruct (binary_search_by _ _) as [i|i].
    - revert ks vols t. change (pointwise (fun ks => let* p := at_ (vbp_smiles v) i in
        let* vols := smile_volatilities nan (snd p) ks in let* t := at_ (vbp_times v) i in Ok (vols, t))).
      apply (pointwise_shape (let* p := at_ (vbp_smiles v) i in at_ (vbp_times v) i)
        (fun _ => at_ (vbp_smiles v) i) (fun _ p k => smile_at nan (snd p) k)).
      + intros vols t. destruct (at_ (vbp_smiles v) i) as [p|e|e]; cbn; [|split; [discriminate|intros (_ & [=])]..].
        destruct (at_ (vbp_times v) i) as [t0|e|e]; cbn; [|split; [discriminate|intros (_ & [=])]..].
        split; [intros [= <- <-]; auto|intros (-> & [= ->]); reflexivity].
      + intros ks vols t _. destruct (at_ (vbp_smiles v) i) as [p|e|e]; cbn [bind]; [|split; [discriminate|intros (p & [=] & _)]..].
        unfold smile_volatilities. split.
        * intros E. inv_bind E. inv_bind E. injection E as <- <-. exists p. auto.
        * intros (q & E & [= <-] & M). change (mapM (smile_at nan (snd p)) ks = Ok vols) in M. rewrite M, E. reflexivity.
    - destruct (Nat.eqb i 0); [apply extrapolate_pointwise|].
      destruct (Nat.leb _ i); [apply extrapolate_pointwise|apply interpolate_pointwise].
  Qed.

  (** Decorators that change each volatility in a way depending on the time, and the time. *)
  Lemma pointwise_after (V : list T -> res (list T * T)) (g : T -> T -> T) (h : T -> T) : pointwise V ->
    pointwise (fun ks => let* (vols, t) := V ks in Ok (map (g t) vols, h t)).
  Proof.
    intros PV ks vols t. split.
    - intros E. inv_bind E. destruct a as (vs, t0). injection E as <- <-. apply PV in E0. destruct E0 as (E0 & F).
      rewrite E0. split; [reflexivity|]. apply forall2_map_r. revert F. apply forall2_impl. intros k v0 Ek. rewrite Ek. reflexivity.
    - intros (E & F). inv_bind E. destruct a as (vs, t0). injection E as E1 <-.
      destruct vs; [|discriminate E1].
      assert (Q : exists vs, vols = map (g t0) vs /\ Forall2 (fun k v => V [k] = Ok ([v], t0)) ks vs).
      { induction F as [|k v0 ks vols Ek F IH].
        - exists []. split; [reflexivity|constructor].
        - destruct IH as (vs & -> & G). inv_bind Ek. destruct a as (l, t1). injection Ek as Ek _.
          pose proof E as E'. apply PV in E'. destruct E' as (E' & L). assert (t1 = t0) by congruence. subst t1.
          inversion L as [|? w ? r Ew Lr]; subst. inversion Lr; subst. cbn in Ek. injection Ek as <-.
          exists (w :: vs). split; [reflexivity|]. constructor; assumption. }
      destruct Q as (vs & -> & G).
      assert (Q : V ks = Ok (vs, t0)) by now apply PV.
      rewrite Q. reflexivity.
  Qed.

  Lemma pointwise_ext (V V' : list T -> res (list T * T)) : (forall l, V l = V' l) -> pointwise V -> pointwise V'.
  Proof.
    intros X PV ks vols t. rewrite <- !X, (PV ks vols t). split; intros (E & F); (split; [exact E|]); revert F;
      apply forall2_impl; intros k v; rewrite X; auto.
  Qed.

  Lemma pointwise_time (V : list T -> res (list T * T)) (h : T -> T) : pointwise V ->
    pointwise (fun ks => let* (vols, t) := V ks in Ok (vols, h t)).
  Proof.
    intros PV. apply (pointwise_ext (fun ks => let* (vols, t) := V ks in Ok (map (fun x => x) vols, h t))).
    - intros l. destruct (V l) as [(a, b)|e|e]; cbn; [now rewrite map_id|reflexivity..].
    - exact (pointwise_after V (fun _ x => x) h PV).
  Qed.

  Lemma volatilities_pointwise s : forall dt, pointwise (volatilities nan s dt).
  Proof.
    induction s as [vol cal base|v|s IH off base|s IH off base|s IH b|s IH b fl|s IH f]; intros dt; cbn [volatilities].
    - apply (pointwise_shape (year_fraction cal base dt) (fun _ => Ok tt) (fun _ _ _ => Ok vol)).
      + intros vols t. destruct (year_fraction cal base dt) as [t0|e|e]; cbn; [|split; [discriminate|intros (_ & [=])]..].
        split; [intros [= <- <-]; auto|intros (-> & [= ->]); reflexivity].
      + intros ks vols t _. destruct (year_fraction cal base dt) as [t0|e|e]; cbn [bind];
          [|split; [discriminate|intros (p & [=] & _)]..].
        assert (M : mapM (fun _ => Ok vol) ks = Ok (map (fun _ => vol) ks)) by (induction ks as [|k ks IH]; cbn; [|rewrite IH]; reflexivity).
        split.
        * intros [= <- <-]. exists tt. auto.
        * intros (p & [= <-] & _ & E). rewrite M in E. injection E as <-. reflexivity.
    - apply vbp_pointwise.
    - exact (pointwise_time _ (fun t => nmax (nsub t off) n0) (IH dt)).
    - destruct (step_partial _ _ _ _) as [adj|e|e]; cbn [bind]; [|intros ks vols t; split; [discriminate|intros ([=] & _)]..].
      destruct (ddf_new _ _) as [rolled|e|e]; cbn [bind]; [|intros ks vols t; split; [discriminate|intros ([=] & _)]..].
      exact (pointwise_time _ (fun t => nmax t n0) (IH rolled)).
    - apply (pointwise_after _ (fun _ x => nmax (nadd x b) n0) (fun t => t) (IH dt)).
    - apply (pointwise_after _ (fun t x => nmax (nadd x (ndiv b (nsqrt (nmax t fl)))) n0) (fun t => t) (IH dt)).
    - intros ks vols t. destruct (vs_forward s) as [fwd|].
      2: { destruct ks as [|k ks]; [apply (IH dt [])|]. apply (IH dt (k :: ks)). }
      destruct ks as [|k ks]; [split|].
      + intros E. apply (IH dt []) in E. destruct E as (E & F). inversion F. subst. auto using Forall2.
      + intros (E & F). inversion F. subst. exact E.
      + destruct (forward_at nan f (ddf_date dt)) as [nf|e|e]; cbn [bind];
          [|split; [discriminate|intros (_ & F); inversion F; discriminate]..].
        destruct (forward_at nan fwd (ddf_date dt)) as [of|e|e]; cbn [bind];
          [|split; [discriminate|intros (_ & F); inversion F; discriminate]..].
        rewrite (IH dt _ vols t). split; intros (E & F); (split; [exact E|]).
        * clear E. remember (map (fun k0 => nmul k0 (ndiv of nf)) (k :: ks)) as l eqn:L. revert F L. generalize (k :: ks). intros l' F. revert l'.
          induction F as [|x y l r Ex F IH']; intros [|a l']; try discriminate; [constructor|].
          cbn [map]. intros [= -> ->]. constructor; [exact Ex|auto].
        * clear E. revert F. generalize (k :: ks). intros l F. induction F as [|a b l r Ea F IH']; constructor; auto.
  Qed.

  Lemma volatilities_time s dt ks vols t : volatilities nan s dt ks = Ok (vols, t) -> vol_time nan s dt = Ok t.
  Proof. intros E. apply volatilities_pointwise in E. destruct E as (E & _). unfold vol_time. now rewrite E. Qed.

  Lemma vol_time_inv s dt t : vol_time nan s dt = Ok t -> volatilities nan s dt [] = Ok ([], t).
  Proof.
    unfold vol_time. intros E. inv_bind E. destruct a as (l, t0). injection E as <-.
    apply volatilities_pointwise in E0. tauto.
  Qed.

  Lemma volatilities_each s dt ks vols t :
    volatilities nan s dt ks = Ok (vols, t) <->
    vol_time nan s dt = Ok t /\ Forall2 (fun k v => volatility_is nan s dt k v t) ks vols.
  Proof.
    rewrite (volatilities_pointwise s dt ks vols t). split; intros (E & F); (split; [|exact F]).
    - unfold vol_time. now rewrite E.
    - now apply vol_time_inv.
  Qed.

  Lemma variance_one s dt k vol t : volatility_is nan s dt k vol t -> variance nan s dt k = Ok (nmul (nmul t vol) vol).
  Proof. unfold volatility_is, variance, variances. intros ->. reflexivity. Qed.

  Lemma variance_inv s dt k x : variance nan s dt k = Ok x ->
    exists vol t, volatility_is nan s dt k vol t /\ x = nmul (nmul t vol) vol.
  Proof.
    unfold variance, variances. intros E. inv_bind E. inv_bind E0. destruct a0 as (vols, t). injection E0 as <-.
    pose proof E1 as E2. apply volatilities_pointwise in E2. destruct E2 as (_ & F). inversion F as [|? v ? r Ev Fr]; subst.
    inversion Fr; subst. cbn in E. injection E as <-. exists v, t. auto.
  Qed.

  Lemma variances_each s dt ks vars : variances nan s dt ks = Ok vars -> Forall2 (fun k x => variance nan s dt k = Ok x) ks vars.
  Proof.
    unfold variances at 1. intros E. inv_bind E. destruct a as (vols, t). injection E as <-. apply volatilities_pointwise in E0.
    destruct E0 as (_ & F). apply forall2_map_r. revert F. apply forall2_impl. intros k v Ek. now apply variance_one.
  Qed.

  Lemma variances_all s dt ks vars t : vol_time nan s dt = Ok t ->
    Forall2 (fun k x => variance nan s dt k = Ok x) ks vars -> variances nan s dt ks = Ok vars.
  Proof.
    intros Et F.
    assert (Q : exists vols, vars = map (fun vol => nmul (nmul t vol) vol) vols /\ Forall2 (fun k v => volatility_is nan s dt k v t) ks vols).
    { induction F as [|k x ks vars Ex F IH].
      - exists []. split; [reflexivity|constructor].
      - destruct IH as (vols & -> & G). apply variance_inv in Ex. destruct Ex as (vol & t' & V & ->).
        pose proof (volatilities_time _ _ _ _ _ V) as V'. assert (t' = t) by congruence. subst t'.
        exists (vol :: vols). split; [reflexivity|]. constructor; assumption. }
    destruct Q as (vols & -> & G). unfold variances.
    assert (E : volatilities nan s dt ks = Ok (vols, t)) by (apply volatilities_each; auto).
    now rewrite E.
  Qed.
End Any.
