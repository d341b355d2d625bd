(** Interpolation in any arithmetic: which points are consulted. *)
From Coq Require Import ZArith List String Bool Lia Reals Lra.
From Flocq Require Import Core.
From Verif Require Import Prelude Num M_Search L_Search M_Interp S_Interp L_Interp.
Import ListNotations.
Open Scope list_scope.
Open Scope R_scope.

Section Any.
  Context {T : Type} {NT : Num T} {X : Type} {I : Interpolable X T}.
  Variable ok : X -> Prop.
  Variable pos : X -> R.
  Hypothesis CO : forall a b, ok a -> ok b -> interp_ord a b = true /\ interp_cmp a b = Rcompare (pos a) (pos b).
  Let C a b (A : ok a) (B : ok b) := proj2 (CO a b A B).
  Variable nan : T.
  Variable pts : list (X * T).
  Hypothesis K : forall p, In p pts -> ok (fst p).
  Hypothesis M : forall i p q, nth_error pts i = Some p -> nth_error pts (S i) = Some q -> pos (fst p) < pos (fst q).

  Lemma any_lt : forall j i p q, (i < j)%nat ->
    nth_error pts i = Some p -> nth_error pts j = Some q -> pos (fst p) < pos (fst q).
  Proof.
    induction j as [|j IH]; intros i p q Hij Hi Hj; [lia|].
    destruct (nth_error pts j) as [r|] eqn:E.
    - pose proof (M j r q E Hj) as Mj. destruct (Nat.eq_dec i j) as [->|].
      + replace p with r by congruence. exact Mj.
      + assert (pos (fst p) < pos (fst r)) by (apply (IH i p r); auto; lia). lra.
    - apply nth_error_None in E. assert (Hn : nth_error pts (S j) <> None) by congruence.
      apply nth_error_Some in Hn. lia.
  Qed.

  Lemma any_probe x : ok x -> probe_sorted pts (fun p => interp_cmp (fst p) x).
  Proof.
    intros Kx i j a b Hij Hi Hj. pose proof (any_lt j i a b Hij Hi Hj) as L.
    assert (Ka : ok (fst a)) by (apply K, (nth_error_In _ _ Hi)). assert (Kb : ok (fst b)) by (apply K, (nth_error_In _ _ Hj)).
    rewrite (C _ _ Ka Kx), (C _ _ Kb Kx). split; intros E.
    - destruct (Rcompare_spec (pos (fst b)) (pos x)); [apply Rcompare_Lt; lra..|now destruct E].
    - destruct (Rcompare_spec (pos (fst a)) (pos x)); [now destruct E|apply Rcompare_Gt; lra..].
  Qed.

  Lemma any_search x : ok x ->
    match binary_search_by pts (fun p => interp_cmp (fst p) x) with
    | Found i => exists p, nth_error pts i = Some p /\ pos (fst p) = pos x
    | Missing i => (i <= List.length pts)%nat /\
        (forall j p, nth_error pts j = Some p -> (j < i)%nat -> pos (fst p) < pos x) /\
        (forall j p, nth_error pts j = Some p -> (i <= j)%nat -> pos x < pos (fst p))
    end.
  Proof.
    intros Kx. pose proof (binary_search_spec pts _ (any_probe x Kx)) as B. destruct (binary_search_by _ _).
    - destruct B as (p & A & E). exists p. split; [exact A|].
      rewrite C in E; [now apply Rcompare_Eq_inv|apply K, (nth_error_In _ _ A)|exact Kx].
    - destruct B as (A & B & D). split; [exact A|]. split; intros j p N L.
      + specialize (B j p N L). rewrite C in B; [now apply Rcompare_Lt_inv|apply K, (nth_error_In _ _ N)|exact Kx].
      + specialize (D j p N L). rewrite C in D; [now apply Rcompare_Gt_inv|apply K, (nth_error_In _ _ N)|exact Kx].
  Qed.

  Lemma any_find x : ok x -> find pts x = Ok (binary_search_by pts (fun p => interp_cmp (fst p) x)).
  Proof. intros Kx. apply find_ordered. intros p Ip. exact (proj1 (CO _ _ (K p Ip) Kx)). Qed.

  Lemma any_found x i p : ok x -> nth_error pts i = Some p -> pos (fst p) = pos x ->
    find pts x = Ok (Found i).
  Proof.
    intros Kx N E. rewrite (any_find x Kx). f_equal. pose proof (any_search x Kx) as B. destruct (binary_search_by _ _) as [j|j].
    - destruct B as (q & A & F). f_equal. destruct (lt_eq_lt_dec i j) as [[L| ->]|L]; [|reflexivity|].
      + pose proof (any_lt j i p q L N A). lra.
      + pose proof (any_lt i j q p L A N). lra.
    - exfalso. destruct B as (_ & B & D). destruct (le_lt_dec j i) as [L|L].
      + specialize (D i p N L). lra.
      + specialize (B i p N L). lra.
  Qed.

  Lemma any_inside x i p q : ok x -> nth_error pts i = Some p -> nth_error pts (S i) = Some q ->
    pos (fst p) < pos x < pos (fst q) -> find pts x = Ok (Missing (S i)).
  Proof.
    intros Kx Np Nq E. rewrite (any_find x Kx). f_equal. pose proof (any_search x Kx) as B. destruct (binary_search_by _ _) as [j|j].
    - destruct B as (r & A & F). exfalso. destruct (le_lt_dec j i) as [L|L].
      + apply Nat.lt_eq_cases in L. destruct L as [L| ->].
        * pose proof (any_lt i j r p L A Np). lra.
        * replace r with p in * by congruence. lra.
      + apply Nat.le_succ_l, Nat.lt_eq_cases in L. destruct L as [L|L].
        * pose proof (any_lt j (S i) q r L Nq A). lra.
        * subst j. replace r with q in * by congruence. lra.
    - destruct B as (_ & B & D). f_equal. destruct (lt_eq_lt_dec j (S i)) as [[L| ->]|L]; [|reflexivity|].
      + assert (pos x < pos (fst p)) by (apply (D i p Np); lia). lra.
      + assert (pos (fst q) < pos x) by (apply (B (S i) q Nq); lia). lra.
  Qed.

  Lemma any_left x p : ok x -> nth_error pts 0 = Some p -> pos x < pos (fst p) ->
    find pts x = Ok (Missing 0).
  Proof.
    intros Kx Np E. rewrite (any_find x Kx). f_equal. pose proof (any_search x Kx) as B. destruct (binary_search_by _ _) as [j|j].
    - destruct B as (r & A & F). exfalso. destruct j as [|j].
      + replace r with p in * by congruence. lra.
      + assert (pos (fst p) < pos (fst r)) by (eapply (any_lt (S j) 0); eauto; lia). lra.
    - destruct j; [reflexivity|]. destruct B as (_ & B & _).
      assert (pos (fst p) < pos x) by (eapply (B O); eauto; lia). lra.
  Qed.

  Lemma any_right x p : ok x -> nth_error pts (List.length pts - 1) = Some p -> pos (fst p) < pos x ->
    find pts x = Ok (Missing (List.length pts)).
  Proof.
    intros Kx Np E. rewrite (any_find x Kx). f_equal. pose proof (any_search x Kx) as B.
    assert (List.length pts <> 0%nat) by (intros Z; rewrite Z in Np; destruct pts; discriminate).
    destruct (binary_search_by _ _) as [j|j].
    - destruct B as (r & A & F). exfalso.
      assert (j < List.length pts)%nat by (apply nth_error_Some; congruence).
      destruct (Nat.eq_dec j (List.length pts - 1)) as [->|].
      + replace r with p in * by congruence. lra.
      + assert (pos (fst r) < pos (fst p)) by (eapply (any_lt (List.length pts - 1) j); eauto; lia). lra.
    - destruct B as (A & B & D). f_equal.
      destruct (Nat.eq_dec j (List.length pts)); [assumption|].
      assert (pos x < pos (fst p)) by (eapply (D (List.length pts - 1)%nat); eauto; lia). lra.
  Qed.

  (** The four cases of [linear_interpolate_extrapolate]. *)
  Variables l r : extrap.
  Notation value x := (linear_interpolate_extrapolate nan x pts l r).

  Lemma some_length i p : nth_error pts i = Some p -> Nat.eqb (List.length pts) 0 = false.
  Proof. intros N. destruct pts; [destruct i; discriminate|reflexivity]. Qed.

  Lemma any_at x i p : ok x -> nth_error pts i = Some p -> pos (fst p) = pos x -> value x = Ok (snd p).
  Proof.
    intros Kx N E. unfold linear_interpolate_extrapolate. rewrite (some_length i p N), (any_found x i p Kx N E). cbn [bind].
    now rewrite (at_some _ _ _ N).
  Qed.

  Lemma any_between x i p q : ok x -> nth_error pts i = Some p -> nth_error pts (S i) = Some q ->
    pos (fst p) < pos x < pos (fst q) -> value x = linear_interpolate p q x.
  Proof.
    intros Kx Np Nq E. unfold linear_interpolate_extrapolate. rewrite (some_length i p Np), (any_inside x i p q Kx Np Nq E). cbn [bind].
    cbn [Nat.eqb]. replace (Nat.leb (List.length pts) (S i)) with false.
    - replace (S i - 1)%nat with i by lia. rewrite (at_some _ _ _ Np). cbn [bind]. rewrite (at_some _ _ _ Nq). reflexivity.
    - symmetry. apply Nat.leb_gt. apply nth_error_Some. congruence.
  Qed.

  Lemma any_below x p : ok x -> nth_error pts 0 = Some p -> pos x < pos (fst p) -> l <> Natural ->
    value x = extrapolate nan l (snd p).
  Proof.
    intros Kx Np E L. unfold linear_interpolate_extrapolate. rewrite (some_length 0 p Np), (any_left x p Kx Np E). cbn [bind].
    cbn [Nat.eqb]. rewrite (at_some _ _ _ Np). cbn [bind]. destruct l; try reflexivity. now destruct L.
  Qed.

  Lemma any_above x p : ok x -> nth_error pts (List.length pts - 1) = Some p -> pos (fst p) < pos x -> l <> Natural ->
    value x = extrapolate nan r (snd p).
  Proof.
    intros Kx Np E L. unfold linear_interpolate_extrapolate. rewrite (some_length _ p Np), (any_right x p Kx Np E). cbn [bind].
    rewrite (some_length _ p Np), Nat.leb_refl. rewrite (at_some _ _ _ Np). cbn [bind]. destruct l; try reflexivity. now destruct L.
  Qed.

  (** The same cases of [spline_at]. *)
  Variable second : list T.
  Notation curve x := (spline_at nan (mkSpline l r pts second) x).

  Lemma any_spline_at x i p : ok x -> nth_error pts i = Some p -> pos (fst p) = pos x -> curve x = Ok (snd p).
  Proof.
    intros Kx N E. unfold spline_at. cbn [sp_points sp_left sp_right sp_second]. rewrite (some_length i p N), (any_found x i p Kx N E). cbn [bind].
    now rewrite (at_some _ _ _ N).
  Qed.

  Lemma any_spline_below x p : ok x -> nth_error pts 0 = Some p -> pos x < pos (fst p) -> l <> Natural ->
    curve x = extrapolate nan l (snd p).
  Proof.
    intros Kx Np E L. unfold spline_at. cbn [sp_points sp_left sp_right sp_second]. rewrite (some_length 0 p Np), (any_left x p Kx Np E). cbn [bind].
    cbn [Nat.eqb]. rewrite (at_some _ _ _ Np). destruct l; try reflexivity. now destruct L.
  Qed.

  Lemma any_spline_above x p : ok x -> nth_error pts (List.length pts - 1) = Some p -> pos (fst p) < pos x -> l <> Natural ->
    curve x = extrapolate nan r (snd p).
  Proof.
    intros Kx Np E L. unfold spline_at. cbn [sp_points sp_left sp_right sp_second]. rewrite (some_length _ p Np), (any_right x p Kx Np E). cbn [bind].
    rewrite (some_length _ p Np), Nat.leb_refl. rewrite (at_some _ _ _ Np). destruct l; try reflexivity. now destruct L.
  Qed.
End Any.

Lemma spline_is_linear {T} {NT : Num T} {X} {I : Interpolable X T} (pts : list (X * T)) l r s : spline_new pts l r = Ok s ->
  linear_new pts l r = Ok (mkLinear l r pts) /\ exists second, s = mkSpline l r pts second.
Proof.
  unfold spline_new, linear_new. intros E. destruct (validate_abscissae pts) as [[]|m|m]; try discriminate. cbn [bind] in *.
  split; [reflexivity|]. destruct (nr_spline pts _ _) as [second|m|m]; try discriminate. injection E as <-. now exists second.
Qed.

Lemma any_obeys {T} {NT : Num T} (nan : T) e y : obeys nan e y (extrapolate nan e y).
Proof. destruct e; cbn; eauto. Qed.
