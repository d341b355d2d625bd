(** Lemmas about surfaces interpolated along lines of constant probability. *)
From Coq Require Import ZArith List String Bool Lia Reals Lra Psatz.
From Verif Require Import Prelude Num L_Num M_Dates M_Search L_Search M_Calendar S_Calendar L_Calendar L_CalendarCount
  L_CalendarCases M_Interp M_Forward M_Vol S_Vol L_Vol L_VolTime.
Import ListNotations.
Open Scope list_scope.
Open Scope R_scope.

(** ** Order of dates *)

Lemma cmp_eq (a b : ddf R) : ddf_cmp a b = Eq <-> a = b.
Proof.
  unfold ddf_cmp. rnum. destruct a as (da, fa), b as (db, fb). cbn [ddf_date ddf_frac].
  destruct (Z.compare_spec da db).
  - destruct (Rltb_spec fa fb); [split; [discriminate|intros [= _ ->]; lra]|]. destruct (Rltb_spec fb fa).
    + split; [discriminate|intros [= _ ->]; lra].
    + split; [intros _; f_equal; [lia|lra]|reflexivity].
  - split; [discriminate|intros [= -> _]; lia].
  - split; [discriminate|intros [= -> _]; lia].
Qed.

Lemma cmp_lt (a b : ddf R) : ddf_cmp a b = Lt <-> before a b.
Proof.
  unfold ddf_cmp, before. rnum. destruct a as (da, fa), b as (db, fb). cbn [ddf_date ddf_frac].
  destruct (Z.compare_spec da db).
  - destruct (Rltb_spec fa fb); [split; auto|]. destruct (Rltb_spec fb fa).
    + split; [discriminate|intros [?|[? ?]]; [lia|lra]].
    + split; [discriminate|intros [?|[? ?]]; [lia|lra]].
  - split; auto.
  - split; [discriminate|intros [?|[? ?]]; lia].
Qed.

Lemma cmp_gt (a b : ddf R) : ddf_cmp a b = Gt <-> before b a.
Proof. rewrite <- ddf_leb_before. unfold ddf_leb. destruct (ddf_cmp a b); split; intros; congruence. Qed.

Lemma before_trans a b c : before a b -> before b c -> before a c.
Proof. unfold before. intros [?|[? ?]] [?|[? ?]]; [left; lia|left; lia|left; lia|right; split; [lia|lra]]. Qed.
Lemma before_irrefl a : ~ before a a.
Proof. unfold before. intros [?|[? ?]]; [lia|lra]. Qed.
Lemma before_total a b : before a b \/ a = b \/ before b a.
Proof. rewrite <- !cmp_lt, <- cmp_eq, (cmp_lt b a), <- cmp_gt. destruct (ddf_cmp a b); auto. Qed.

Lemma ordered_nth l : ordered_pillars l -> forall i j p q, (i < j)%nat -> nth_error l i = Some p -> nth_error l j = Some q ->
  before (fst p) (fst q).
Proof.
  induction l as [|a l IH]; intros O i j p q L Hi Hj; [destruct i; discriminate Hi|]. destruct O as (O1 & O2).
  destruct j as [|j]; [lia|]. cbn in Hj. destruct i as [|i].
  - cbn in Hi. injection Hi as <-. apply O1. eapply nth_error_In. exact Hj.
  - cbn in Hi. apply (IH O2 i j); [lia|assumption..].
Qed.

Lemma ordered_probe l d : ordered_pillars l -> probe_sorted l (fun p : ddf R * smile R => ddf_cmp (fst p) d).
Proof.
  intros O i j a b L Hi Hj. pose proof (ordered_nth l O i j a b L Hi Hj) as B. split; intros N.
  - apply cmp_lt. destruct (ddf_cmp (fst b) d) eqn:C; [|apply cmp_lt in C; eapply before_trans; eassumption|contradiction].
    apply cmp_eq in C. now rewrite <- C.
  - apply cmp_gt. destruct (ddf_cmp (fst a) d) eqn:C; [|contradiction|apply cmp_gt in C; eapply before_trans; eassumption].
    apply cmp_eq in C. now rewrite <- C.
Qed.

Section Search.
  Variable l : list (ddf R * smile R).
  Hypothesis O : ordered_pillars l.

  Lemma search_found i p : nth_error l i = Some p -> binary_search_by l (fun q => ddf_cmp (fst q) (fst p)) = Found i.
  Proof.
    intros Hi. pose proof (binary_search_spec l _ (ordered_probe l (fst p) O)) as S. destruct (binary_search_by l _) as [j|j].
    - destruct S as (a & Hj & C). apply cmp_eq in C. f_equal. destruct (Nat.lt_trichotomy i j) as [L|[L|L]].
      + pose proof (ordered_nth l O i j _ _ L Hi Hj) as B. rewrite C in B. now apply before_irrefl in B.
      + congruence.
      + pose proof (ordered_nth l O j i _ _ L Hj Hi) as B. rewrite C in B. now apply before_irrefl in B.
    - destruct S as (_ & S1 & S2). assert (E : ddf_cmp (fst p) (fst p) = Eq) by now apply cmp_eq.
      destruct (Nat.lt_ge_cases i j) as [L|L]; [rewrite (S1 i p Hi L) in E|rewrite (S2 i p Hi L) in E]; discriminate E.
  Qed.

  Lemma search_missing d j : (j <= List.length l)%nat ->
    (forall i p, nth_error l i = Some p -> (i < j)%nat -> before (fst p) d) ->
    (forall i p, nth_error l i = Some p -> (j <= i)%nat -> before d (fst p)) ->
    binary_search_by l (fun q => ddf_cmp (fst q) d) = Missing j.
  Proof.
    intros Lj A B. pose proof (binary_search_spec l _ (ordered_probe l d O)) as S. destruct (binary_search_by l _) as [i|i].
    - destruct S as (a & Hi & C). apply cmp_eq in C. destruct (Nat.lt_ge_cases i j) as [L|L].
      + specialize (A i a Hi L). rewrite C in A. now apply before_irrefl in A.
      + specialize (B i a Hi L). rewrite C in B. now apply before_irrefl in B.
    - destruct S as (Li & S1 & S2). f_equal. destruct (Nat.lt_trichotomy i j) as [L|[L|L]]; [|exact L|].
      + destruct (nth_error l i) as [a|] eqn:Hi; [|apply nth_error_None in Hi; lia].
        specialize (A i a Hi L). apply cmp_lt in A. rewrite (S2 i a Hi (Nat.le_refl i)) in A. discriminate A.
      + destruct (nth_error l j) as [a|] eqn:Hj; [|apply nth_error_None in Hj; lia].
        specialize (B j a Hj (Nat.le_refl j)). apply cmp_gt in B. rewrite (S1 j a Hj L) in B. discriminate B.
  Qed.

  Lemma search_between i p q d : nth_error l i = Some p -> nth_error l (S i) = Some q -> before (fst p) d -> before d (fst q) ->
    binary_search_by l (fun q => ddf_cmp (fst q) d) = Missing (S i).
  Proof.
    intros Hi Hj A B. apply search_missing.
    - apply Nat.lt_le_incl, nth_error_Some. now rewrite Hj.
    - intros k r Hk L. destruct (Nat.eq_dec k i) as [->|N].
      + assert (r = p) by congruence. now subst.
      + eapply before_trans; [|exact A]. apply (ordered_nth l O k i); [lia|assumption..].
    - intros k r Hk L. destruct (Nat.eq_dec k (S i)) as [->|N].
      + assert (r = q) by congruence. now subst.
      + eapply before_trans; [exact B|]. apply (ordered_nth l O (S i) k); [lia|assumption..].
  Qed.

  Lemma search_first p d : nth_error l 0 = Some p -> before d (fst p) -> binary_search_by l (fun q => ddf_cmp (fst q) d) = Missing 0.
  Proof.
    intros H0 B. apply search_missing; [lia|lia|]. intros k r Hk _. destruct (Nat.eq_dec k 0) as [->|N].
    - assert (r = p) by congruence. now subst.
    - eapply before_trans; [exact B|]. apply (ordered_nth l O 0 k); [lia|assumption..].
  Qed.

  Lemma search_last p d : nth_error l (List.length l - 1) = Some p -> before (fst p) d ->
    binary_search_by l (fun q => ddf_cmp (fst q) d) = Missing (List.length l).
  Proof.
    intros Hn B. apply search_missing; [lia| |].
    - intros k r Hk L. destruct (Nat.eq_dec k (List.length l - 1)) as [->|N].
      + assert (r = p) by congruence. now subst.
      + eapply before_trans; [|exact B]. apply (ordered_nth l O k (List.length l - 1)); [lia|assumption..].
    - intros k r Hk L. assert (k < List.length l)%nat by (apply nth_error_Some; now rewrite Hk). lia.
  Qed.
End Search.

(** ** Construction *)

Section Build.
  Variables (nan : R) (cal : calendar R) (base : ddf R) (fwd : linear R date).
  Notation pil := (pillar nan cal base fwd).

  Definition pdata := (R * R * R)%type.
  Definition d_fwd (x : pdata) := fst (fst x).
  Definition d_vol (x : pdata) := snd (fst x).
  Definition d_time (x : pdata) := snd x.
  Definition d_var (x : pdata) := d_time x * d_vol x ^ 2.
  Definition is_data (p : ddf R * smile R) (x : pdata) : Prop := pil p (d_fwd x) (d_vol x) (d_time x).

  Lemma loop_sound smiles : forall prev fs ss ts r, foldM (vbp_pillar nan cal base fwd) (prev, (fs, ss, ts)) smiles = Ok r ->
    exists xs, Forall2 is_data smiles xs /\ rising prev (map d_var xs) /\
      snd r = (fs ++ map d_fwd xs, ss ++ map (fun x => sqrt (d_var x)) xs, ts ++ map d_time xs).
  Proof.
    induction smiles as [|p smiles IH]; intros prev fs ss ts r E; cbn [foldM] in E.
    - injection E as <-. exists []. split; [constructor|]. split; [exact I|]. cbn. now rewrite !app_nil_r.
    - inv_bind E. unfold vbp_pillar in E0. inv_bind E0. inv_bind E0. inv_bind E0. rnum.
      destruct (Rltb_spec (a2 * a1 * a1) prev); [discriminate E0|]. injection E0 as <-.
      apply IH in E. destruct E as (xs & F & G & Q). exists ((a0, a1, a2) :: xs).
      assert (X : d_var (a0, a1, a2) = a2 * a1 * a1) by (unfold d_var, d_time, d_vol; cbn; ring).
      split; [constructor; [constructor; assumption|exact F]|]. split; [cbn; rewrite X; auto|].
      rewrite Q. cbn [map]. rewrite X, <- !app_assoc. reflexivity.
  Qed.

  Lemma loop_complete smiles xs : Forall2 is_data smiles xs -> forall prev fs ss ts, rising prev (map d_var xs) ->
    exists r, foldM (vbp_pillar nan cal base fwd) (prev, (fs, ss, ts)) smiles = Ok r.
  Proof.
    induction 1 as [|p x smiles xs D F IH]; intros prev fs ss ts G; cbn [foldM]; [eauto|].
    destruct G as (G1 & G2). destruct D as [D1 D2 D3]. unfold vbp_pillar at 1. rewrite D1. cbn [bind]. rewrite D2. cbn [bind].
    rewrite D3. cbn [bind]. rnum. assert (X : d_time x * d_vol x * d_vol x = d_var x) by (unfold d_var; ring). rewrite X.
    destruct (Rltb_spec (d_var x) prev); [lra|]. cbn [bind]. apply IH, G2.
  Qed.

  Lemma new_inv smiles divs da v : vbp_new nan smiles cal base fwd divs da = Ok v ->
    smiles <> [] /\ exists xs, Forall2 is_data smiles xs /\ rising 0 (map d_var xs) /\
      v = mkVBP smiles cal base fwd divs da (map d_fwd xs) (map (fun x => sqrt (d_var x)) xs) (map d_time xs).
  Proof.
    unfold vbp_new. destruct smiles as [|p smiles]; [discriminate|]. intros E. inv_bind E.
    destruct a as (last, ((fs, ss), ts)). injection E as <-. split; [discriminate|].
    apply loop_sound in E0. destruct E0 as (xs & F & G & Q). exists xs. split; [exact F|]. split; [exact G|].
    cbn [snd app] in Q. injection Q as -> -> ->. reflexivity.
  Qed.

  Lemma data_vars smiles vars : atm_variances nan cal base fwd smiles vars <-> exists xs, Forall2 is_data smiles xs /\ map d_var xs = vars.
  Proof.
    unfold atm_variances. split.
    - induction 1 as [|p x smiles vars (f & vol & t & D & ->) F IH]; [exists []; split; [constructor|reflexivity]|].
      destruct IH as (xs & G & <-). exists ((f, vol, t) :: xs). split; [constructor; [exact D|exact G]|reflexivity].
    - intros (xs & F & <-). induction F as [|p x smiles xs D F IH]; cbn; constructor; [|exact IH].
      exists (d_fwd x), (d_vol x), (d_time x). split; [exact D|reflexivity].
  Qed.

  Lemma new_iff smiles divs da : (exists v, vbp_new nan smiles cal base fwd divs da = Ok v) <->
    smiles <> [] /\ exists vars, atm_variances nan cal base fwd smiles vars /\ rising 0 vars.
  Proof.
    split.
    - intros (v & E). apply new_inv in E. destruct E as (N & xs & F & G & _). split; [exact N|].
      exists (map d_var xs). split; [apply data_vars; eauto|exact G].
    - intros (N & vars & A & G). apply data_vars in A. destruct A as (xs & F & <-). unfold vbp_new.
      destruct smiles as [|p smiles]; [contradiction|].
      destruct (loop_complete _ xs F 0 [] [] [] G) as ((last & ((fs & ss) & ts)) & E). rnum. rewrite E. cbn [bind]. eauto.
  Qed.

  Lemma forall2_nth {A B} (P : A -> B -> Prop) l r : Forall2 P l r -> forall i a, nth_error l i = Some a ->
    exists b, nth_error r i = Some b /\ P a b.
  Proof. induction 1 as [|a b l r H F IH]; intros [|i] a' E; cbn in *; try discriminate; [injection E as <-; eauto|auto]. Qed.

  Lemma rising_nth lo l : rising lo l -> forall i x, nth_error l i = Some x -> lo <= x.
  Proof.
    revert lo. induction l as [|a l IH]; intros lo G [|i] x E; cbn in *; try discriminate.
    - injection E as <-. tauto.
    - destruct G as (G1 & G2). specialize (IH a G2 i x E). lra.
  Qed.

  Lemma rising_le l : forall lo, rising lo l -> forall i j x y, (i <= j)%nat -> nth_error l i = Some x -> nth_error l j = Some y -> x <= y.
  Proof.
    induction l as [|a l IH]; intros lo G i j x y L Ei Ej; [destruct i; discriminate Ei|].
    destruct G as (G1 & G2). destruct i as [|i].
    - cbn in Ei. injection Ei as <-. destruct j as [|j]; [injection Ej as <-; lra|]. exact (rising_nth a l G2 j y Ej).
    - destruct j as [|j]; [lia|]. cbn in Ei, Ej. apply (IH a G2 i j); [lia|assumption..].
  Qed.

  Lemma data_fun p x y : is_data p x -> is_data p y -> x = y.
  Proof.
    destruct x as ((f, v), t), y as ((f', v'), t'). intros [A B C] [A' B' C']. cbn in *.
    assert (f' = f) by congruence. subst. assert (v' = v) by congruence. assert (t' = t) by congruence. now subst.
  Qed.

  Lemma is_data_of p f vol t : pil p f vol t -> is_data p (f, vol, t).
  Proof. intros D. exact D. Qed.

  (** ** What the surface answers *)

  Variables (smiles : list (ddf R * smile R)) (divs : linear R date) (da : div_assumptions) (v : vol_by_probability R).
  Hypothesis new : vbp_new nan smiles cal base fwd divs da = Ok v.
  Hypothesis ord : ordered_pillars smiles.

  Lemma v_fields : exists xs, Forall2 is_data smiles xs /\ rising 0 (map d_var xs) /\
      v = mkVBP smiles cal base fwd divs da (map d_fwd xs) (map (fun x => sqrt (d_var x)) xs) (map d_time xs).
  Proof. pose proof new as E. apply new_inv in E. tauto. Qed.

  Lemma at_data i p : nth_error smiles i = Some p -> exists x, is_data p x /\ 0 <= d_var x /\
    at_ (vbp_smiles v) i = Ok p /\ at_ (vbp_times v) i = Ok (d_time x) /\ at_ (vbp_forwards v) i = Ok (d_fwd x) /\
    at_ (vbp_sqrt_vars v) i = Ok (sqrt (d_var x)).
  Proof.
    intros E. destruct v_fields as (xs & F & G & ->). destruct (forall2_nth _ _ _ F i p E) as (x & Ex & D). exists x.
    cbn [vbp_smiles vbp_times vbp_forwards vbp_sqrt_vars]. split; [exact D|]. split.
    - apply (rising_nth 0 _ G i). rewrite nth_error_map, Ex. reflexivity.
    - rewrite !at_ok, !nth_error_map, Ex. auto.
  Qed.

  Lemma data_le i j p q x y : (i <= j)%nat -> nth_error smiles i = Some p -> nth_error smiles j = Some q ->
    is_data p x -> is_data q y -> d_var x <= d_var y.
  Proof.
    intros L Ei Ej X Y. destruct v_fields as (xs & F & G & _).
    destruct (forall2_nth _ _ _ F i p Ei) as (x' & Ex & X'). destruct (forall2_nth _ _ _ F j q Ej) as (y' & Ey & Y').
    rewrite (data_fun _ _ _ X X'), (data_fun _ _ _ Y Y').
    apply (rising_le _ 0 G i j); [exact L|rewrite nth_error_map, Ex; reflexivity|rewrite nth_error_map, Ey; reflexivity].
  Qed.

  Lemma at_pillar p f vol t k w : In p smiles -> pil p f vol t -> smile_at nan (snd p) k = Ok w ->
    volatility_is nan (VolByProbability v) (fst p) k w t.
  Proof.
    intros I D S. apply In_nth_error in I. destruct I as (i & Hi). destruct (at_data i p Hi) as (x & X & _ & A1 & A2 & _).
    rewrite (data_fun _ _ _ X (is_data_of _ _ _ _ D)) in A2. unfold volatility_is. cbn [volatilities]. unfold vbp_volatilities.
    destruct v_fields as (xs & _ & _ & V). assert (Q : vbp_smiles v = smiles) by now rewrite V.
    rewrite Q at 1. rewrite (search_found smiles ord i p Hi), A1. cbn [bind]. unfold smile_volatilities. cbn [mapM]. rewrite S.
    cbn [bind]. rewrite A2. reflexivity.
  Qed.

  Lemma normalised_away f a x : 0 < f -> 0 < a -> to_normalised f (sqrt a) (away f a x) = x.
  Proof.
    intros Hf Ha. unfold to_normalised, away. rnum. replace (f * exp (x * sqrt a) / f) with (exp (x * sqrt a)) by (field; lra).
    rewrite ln_exp. field. apply Rgt_not_eq. now apply sqrt_lt_R0.
  Qed.

  Lemma strike_away f a x : to_strike f (sqrt a) x = away f a x.
  Proof. unfold to_strike, away. rnum. ring. Qed.

  Lemma between_pillars p q d f0 v0 t0 f1 v1 t1 f t : adjacent smiles p q -> before (fst p) d -> before d (fst q) ->
    pil p f0 v0 t0 -> pil q f1 v1 t1 ->
    linear_at nan fwd (ddf_date d) = Ok f -> year_fraction cal base d = Ok t ->
    0 < f -> 0 < t -> t0 <= t <= t1 -> t0 < t1 ->
    let share := (t - t0) / (t1 - t0) in
    let atm := between (t0 * v0 ^ 2) (t1 * v1 ^ 2) share in
    0 < atm ->
    forall x w0 w1, smile_at nan (snd p) (away f0 (t0 * v0 ^ 2) x) = Ok w0 -> smile_at nan (snd q) (away f1 (t1 * v1 ^ 2) x) = Ok w1 ->
    0 <= t0 ->
    (t0 * w0 ^ 2 <= t1 * w1 ^ 2 ->
       variance nan (VolByProbability v) d (away f atm x) = Ok (between (t0 * w0 ^ 2) (t1 * w1 ^ 2) share)) /\
    (t1 * w1 ^ 2 < t0 * w0 ^ 2 -> exists e, variance nan (VolByProbability v) d (away f atm x) = Err e).
  Proof.
    intros (i & Hi & Hj) B1 B2 D0 D1 Ff Ft Pf Pt T01 Tlt share atm Patm x w0 w1 S0 S1 T0.
    destruct (at_data i p Hi) as (y0 & Y0 & P0 & A1 & A2 & A3 & A4).
    destruct (at_data (S i) q Hj) as (y1 & Y1 & P1 & C1 & C2 & C3 & C4).
    pose proof (data_fun _ _ _ Y0 (is_data_of _ _ _ _ D0)). subst y0.
    pose proof (data_fun _ _ _ Y1 (is_data_of _ _ _ _ D1)). subst y1.
    unfold d_var, d_time, d_vol, d_fwd in *. cbn [fst snd] in *.
    destruct v_fields as (xs & _ & _ & V).
    assert (Qs : vbp_smiles v = smiles) by now rewrite V. assert (Qc : vbp_calendar v = cal) by now rewrite V.
    assert (Qb : vbp_base v = base) by now rewrite V. assert (Qf : vbp_forward v = fwd) by now rewrite V.
    assert (Ln : (Nat.leb (List.length smiles) (S i)) = false).
    { apply Nat.leb_gt, nth_error_Some. now rewrite Hj. }
    assert (E : forall k, volatilities nan (VolByProbability v) d [k] = vbp_interpolate nan v i (S i) d [k]).
    { intros k. cbn [volatilities]. unfold vbp_volatilities. rewrite Qs, (search_between smiles ord i p q d Hi Hj B1 B2), Ln.
      cbn [Nat.eqb Nat.sub]. now rewrite Nat.sub_0_r. }
    assert (Sh : 0 <= share <= 1).
    { unfold share. split; [apply Rmult_le_pos; [lra|apply Rlt_le, Rinv_0_lt_compat; lra]|].
      apply (Rmult_le_reg_r (t1 - t0)); [lra|]. unfold Rdiv. rewrite Rmult_assoc, Rinv_l by lra. lra. }
    assert (Lerp : forall a b, lerp a b share = between a b share) by (intros; unfold lerp, between; rnum; ring).
    assert (Body : vbp_interpolate nan v i (S i) d [away f atm x] =
      let* out := interpolate_vars share t [t0 * w0 ^ 2] [t1 * w1 ^ 2] in Ok (out, t)).
    { unfold vbp_interpolate. rewrite Qc, Qb, Qf, Ft, Ff, A2, C2, A3, A4, C3, C4. cbn [bind map].
      unfold pillar_variances. rewrite A1, C1. cbn [bind].
      rnum. fold share. rewrite !sqrt_sqrt by lra. rewrite Lerp. fold atm. rewrite normalised_away by assumption.
      rewrite !strike_away. unfold smile_volatilities. cbn [mapM]. rewrite S0, S1. cbn [bind map]. rnum.
      replace (w0 * w0 * t0) with (t0 * w0 ^ 2) by ring. replace (w1 * w1 * t1) with (t1 * w1 ^ 2) by ring. reflexivity. }
    unfold variance, variances. rewrite E, Body. cbn [interpolate_vars]. rnum.
    split; intros L.
    - destruct (Rltb_spec (t1 * w1 ^ 2) (t0 * w0 ^ 2)); [lra|]. cbn [bind map]. rnum. rewrite Lerp.
      set (z := between (t0 * w0 ^ 2) (t1 * w1 ^ 2) share).
      assert (0 <= z). { unfold z, between. assert (0 <= t0 * w0 ^ 2) by (apply Rmult_le_pos; [lra|nra]). nra. }
      replace (t * sqrt (z / t) * sqrt (z / t)) with z; [reflexivity|].
      rewrite Rmult_assoc, sqrt_sqrt; [field; lra|]. apply Rmult_le_pos; [assumption|apply Rlt_le, Rinv_0_lt_compat; lra].
    - destruct (Rltb_spec (t1 * w1 ^ 2) (t0 * w0 ^ 2)); [|lra]. cbn [bind]. eexists; reflexivity.
  Qed.

  Lemma away_0 f a : away f a 0 = f.
  Proof. unfold away. rewrite Rmult_0_l, exp_0. ring. Qed.

  Lemma between_atm p q d f0 v0 t0 f1 v1 t1 f t : adjacent smiles p q -> before (fst p) d -> before d (fst q) ->
    pil p f0 v0 t0 -> pil q f1 v1 t1 ->
    linear_at nan fwd (ddf_date d) = Ok f -> year_fraction cal base d = Ok t ->
    0 < f -> 0 < t -> t0 <= t <= t1 -> t0 < t1 -> 0 <= t0 ->
    let atm := between (t0 * v0 ^ 2) (t1 * v1 ^ 2) ((t - t0) / (t1 - t0)) in
    0 < atm -> atm_variance nan v d atm.
  Proof.
    intros A B1 B2 D0 D1 Ff Ft Pf Pt T01 Tlt T0 atm Patm.
    destruct v_fields as (xs & _ & _ & V). exists f. split; [now rewrite V|].
    pose proof (between_pillars p q d f0 v0 t0 f1 v1 t1 f t A B1 B2 D0 D1 Ff Ft Pf Pt T01 Tlt Patm 0 v0 v1) as K.
    rewrite !away_0 in K. destruct K as (K & _); [exact (pil_vol _ _ _ _ _ _ _ _ D0)|exact (pil_vol _ _ _ _ _ _ _ _ D1)|exact T0|].
    apply K. destruct A as (i & Hi & Hj).
    exact (data_le i (S i) p q _ _ (Nat.le_succ_diag_r i) Hi Hj (is_data_of _ _ _ _ D0) (is_data_of _ _ _ _ D1)).
  Qed.

  Lemma outside p d f0 v0 t0 f t : (nth_error smiles 0 = Some p /\ before d (fst p)) \/
      (nth_error smiles (List.length smiles - 1) = Some p /\ before (fst p) d) ->
    pil p f0 v0 t0 -> linear_at nan fwd (ddf_date d) = Ok f -> year_fraction cal base d = Ok t -> 0 < f -> 0 < t ->
    forall x w, smile_at nan (snd p) (away f0 t0 x) = Ok w -> volatility_is nan (VolByProbability v) d (away f t x) w t.
  Proof.
    intros Pos D0 Ff Ft Pf Pt x w S. destruct v_fields as (xs & _ & _ & V).
    assert (Qs : vbp_smiles v = smiles) by now rewrite V. assert (Qc : vbp_calendar v = cal) by now rewrite V.
    assert (Qb : vbp_base v = base) by now rewrite V. assert (Qf : vbp_forward v = fwd) by now rewrite V.
    assert (E : exists i, nth_error smiles i = Some p /\
      forall k, volatilities nan (VolByProbability v) d [k] = vbp_extrapolate nan v i d [k]).
    { destruct Pos as [(H0 & B)|(Hn & B)].
      - exists 0%nat. split; [exact H0|]. intros k. cbn [volatilities]. unfold vbp_volatilities.
        rewrite Qs, (search_first smiles ord p d H0 B). reflexivity.
      - exists (List.length smiles - 1)%nat. split; [exact Hn|]. intros k. cbn [volatilities]. unfold vbp_volatilities.
        rewrite Qs, (search_last smiles ord p d Hn B), Nat.leb_refl.
        destruct smiles; [discriminate Hn|reflexivity]. }
    destruct E as (i & Hi & E). destruct (at_data i p Hi) as (y0 & Y0 & _ & A1 & A2 & A3 & _).
    pose proof (data_fun _ _ _ Y0 (is_data_of _ _ _ _ D0)). subst y0. unfold d_var, d_time, d_vol, d_fwd in *. cbn [fst snd] in *.
    unfold volatility_is. rewrite E. unfold vbp_extrapolate. rewrite Qc, Qb, Qf, Ft, Ff, A1, A2, A3. cbn [bind map]. rnum.
    rewrite normalised_away by assumption. rewrite strike_away. unfold smile_volatilities. cbn [mapM]. rewrite S. reflexivity.
  Qed.

  (** ** No calendar arbitrage at the money *)

  Hypothesis prop : proper cal.
  Hypothesis spr : spread nan cal base fwd smiles.

  (** Where a date can be. *)
  Inductive place (d : ddf R) : Prop :=
  | on_pillar p : In p smiles -> fst p = d -> place d
  | in_between p q : adjacent smiles p q -> before (fst p) d -> before d (fst q) -> place d
  | ahead p : nth_error smiles 0 = Some p -> before d (fst p) -> place d
  | past p : nth_error smiles (List.length smiles - 1) = Some p -> before (fst p) d -> place d.

  Lemma placed d : place d.
  Proof.
    destruct v_fields as (xs & F & _ & _). pose proof new as E. apply new_inv in E. destruct E as (N & _).
    pose proof (binary_search_spec smiles _ (ordered_probe smiles d ord)) as S. destruct (binary_search_by _ _) as [i|i].
    - destruct S as (p & Hi & C). apply cmp_eq in C. apply (on_pillar d p); [eapply nth_error_In; exact Hi|exact C].
    - destruct S as (L & S1 & S2). destruct i as [|i].
      + destruct smiles as [|p l] eqn:Q; [contradiction|]. apply (ahead d p); [now rewrite Q|]. apply cmp_gt. apply (S2 0%nat); [reflexivity|lia].
      + destruct (nth_error smiles i) as [p|] eqn:Hi; [|apply nth_error_None in Hi; lia].
        destruct (Nat.eq_dec (S i) (List.length smiles)) as [Q|Q].
        * apply (past d p); [rewrite <- Q; cbn; rewrite Nat.sub_0_r; exact Hi|]. apply cmp_lt. apply (S1 i); [exact Hi|lia].
        * destruct (nth_error smiles (S i)) as [q|] eqn:Hj; [|apply nth_error_None in Hj; lia].
          apply (in_between d p q); [exists i; auto| |].
          -- apply cmp_lt. apply (S1 i); [exact Hi|lia].
          -- apply cmp_gt. apply (S2 (S i)); [exact Hj|lia].
  Qed.

  Lemma data_at p : In p smiles -> exists x, is_data p x /\ 0 < d_time x /\ 0 < d_vol x /\ 0 < d_var x.
  Proof.
    intros I. pose proof I as I'. apply In_nth_error in I. destruct I as (i & Hi). destruct (at_data i p Hi) as (x & X & _).
    destruct (sp_positive _ _ _ _ _ spr p _ _ _ I' X) as (A & B). exists x. repeat (split; [assumption|]). unfold d_var.
    apply Rmult_lt_0_compat; [assumption|]. nra.
  Qed.

  Lemma pillar_upto p q x y : In p smiles -> In q smiles -> upto (fst p) (fst q) -> is_data p x -> is_data q y -> d_var x <= d_var y.
  Proof.
    intros Ip Iq U X Y. apply In_nth_error in Ip, Iq. destruct Ip as (i & Hi), Iq as (j & Hj).
    destruct (Nat.le_gt_cases i j) as [L|L]; [exact (data_le i j p q x y L Hi Hj X Y)|].
    pose proof (ordered_nth smiles ord j i q p L Hj Hi) as B. destruct U as [U|U].
    - exfalso. exact (before_irrefl _ (before_trans _ _ _ B U)).
    - rewrite U in B. now apply before_irrefl in B.
  Qed.

  Lemma atm_fun d x y : atm_variance nan v d x -> atm_variance nan v d y -> x = y.
  Proof. intros (f & F & V) (f' & F' & V'). assert (f' = f) by congruence. subst. congruence. Qed.

  Lemma atm_on p x : In p smiles -> is_data p x -> atm_variance nan v (fst p) (d_var x).
  Proof.
    intros I X. destruct v_fields as (xs & _ & _ & V). exists (d_fwd x).
    split; [rewrite V; exact (pil_forward _ _ _ _ _ _ _ _ X)|].
    apply variance_real. exact (at_pillar p _ _ _ _ _ I X (pil_vol _ _ _ _ _ _ _ _ X)).
  Qed.

  (** The time of a date is known when its variance is. *)
  Lemma atm_inv d x : atm_variance nan v d x -> (forall p, In p smiles -> fst p <> d) ->
    exists f t, linear_at nan fwd (ddf_date d) = Ok f /\ 0 < f /\ year_fraction cal base d = Ok t.
  Proof.
    intros (f & F & E) N. destruct v_fields as (xs & _ & _ & V). assert (Qf : vbp_forward v = fwd) by now rewrite V. rewrite Qf in F.
    exists f. apply variance_real_inv in E. destruct E as (w & t & W & _). exists t. split; [exact F|].
    split; [exact (sp_forwards _ _ _ _ _ spr _ _ F)|].
    unfold volatility_is in W. cbn [volatilities] in W. unfold vbp_volatilities in W.
    assert (Qs : vbp_smiles v = smiles) by now rewrite V. assert (Qc : vbp_calendar v = cal) by now rewrite V.
    assert (Qb : vbp_base v = base) by now rewrite V.
    rewrite Qs in W.
    pose proof (binary_search_spec smiles _ (ordered_probe smiles d ord)) as S. destruct (binary_search_by smiles _) as [i|i].
    - destruct S as (p & Hi & C). apply cmp_eq in C. elim (N p); [eapply nth_error_In; exact Hi|exact C].
    - assert (Z : forall j, vbp_extrapolate nan v j d [f] = Ok ([w], t) -> year_fraction cal base d = Ok t).
      { intros j Y. unfold vbp_extrapolate in Y. rewrite Qc, Qb in Y. inv_bind Y. repeat inv_bind Y. injection Y as _ <-. exact E. }
      destruct (Nat.eqb i 0); [exact (Z _ W)|]. destruct (Nat.leb _ i); [exact (Z _ W)|].
      unfold vbp_interpolate in W. rewrite Qc, Qb in W. inv_bind W. repeat inv_bind W. injection W as _ <-. exact E.
  Qed.

  Lemma not_on d p q : adjacent smiles p q -> before (fst p) d -> before d (fst q) -> forall r, In r smiles -> fst r <> d.
  Proof.
    intros (i & Hi & Hj) B1 B2 r I Q. apply In_nth_error in I. destruct I as (k & Hk). rewrite <- Q in B1, B2.
    destruct (Nat.le_gt_cases k i) as [L|L].
    - destruct (Nat.eq_dec k i) as [->|Ne].
      + assert (r = p) by congruence. subst r. now apply before_irrefl in B1.
      + apply (before_irrefl (fst p)). eapply before_trans; [exact B1|]. apply (ordered_nth smiles ord k i); [lia|assumption..].
    - destruct (Nat.eq_dec k (S i)) as [->|Ne].
      + assert (r = q) by congruence. subst r. now apply before_irrefl in B2.
      + apply (before_irrefl (fst q)). eapply before_trans; [|exact B2]. apply (ordered_nth smiles ord (S i) k); [lia|assumption..].
  Qed.

  Lemma not_ahead d p : nth_error smiles 0 = Some p -> before d (fst p) -> forall r, In r smiles -> before d (fst r).
  Proof.
    intros H0 B r I. apply In_nth_error in I. destruct I as (k & Hk). destruct (Nat.eq_dec k 0) as [->|Ne].
    - assert (r = p) by congruence. now subst.
    - eapply before_trans; [exact B|]. apply (ordered_nth smiles ord 0 k); [lia|assumption..].
  Qed.

  Lemma not_past d p : nth_error smiles (List.length smiles - 1) = Some p -> before (fst p) d -> forall r, In r smiles -> before (fst r) d.
  Proof.
    intros Hn B r I. apply In_nth_error in I. destruct I as (k & Hk).
    assert (k < List.length smiles)%nat by (apply nth_error_Some; now rewrite Hk).
    destruct (Nat.eq_dec k (List.length smiles - 1)) as [->|Ne].
    - assert (r = p) by congruence. now subst.
    - eapply before_trans; [|exact B]. apply (ordered_nth smiles ord k (List.length smiles - 1)); [lia|assumption..].
  Qed.

  Lemma nth_in i (p : ddf R * smile R) : nth_error smiles i = Some p -> In p smiles.
  Proof. apply nth_error_In. Qed.

  Lemma before_ne d d' : before d d' -> d <> d'.
  Proof. intros B ->. now apply before_irrefl in B. Qed.

  Lemma years_between a b t u : of_day a -> of_day b -> before base a -> before a b ->
    year_fraction cal base a = Ok t -> year_fraction cal base b = Ok u -> t <= u.
  Proof. intros A B C D. exact (years_mono cal base a b t u prop A B (or_introl C) (or_introl D)). Qed.

  (** The value between two pillars. *)
  Lemma atm_between p q d x : of_day d -> before base d -> adjacent smiles p q -> before (fst p) d -> before d (fst q) -> atm_variance nan v d x ->
    exists a b t, is_data p a /\ is_data q b /\ year_fraction cal base d = Ok t /\ d_time a <= t <= d_time b /\ d_time a < d_time b /\
      x = between (d_var a) (d_var b) ((t - d_time a) / (d_time b - d_time a)).
  Proof.
    intros Dd Bd A B1 B2 X. destruct (atm_inv d x X (not_on d p q A B1 B2)) as (f & t & Ff & Pf & Ft).
    pose proof A as (i & Hi & Hj). apply nth_in in Hi as Ip. apply nth_in in Hj as Iq.
    destruct (data_at p Ip) as (a & Da & Ta & Va & _), (data_at q Iq) as (b & Db & Tb & Vb & _).
    destruct (sp_day _ _ _ _ _ spr p Ip) as (P1 & P2), (sp_day _ _ _ _ _ spr q Iq) as (Q1 & Q2).
    pose proof (years_between _ _ _ _ P1 Dd P2 B1 (pil_time _ _ _ _ _ _ _ _ Da) Ft) as L1.
    pose proof (years_between _ _ _ _ Dd Q1 Bd B2 Ft (pil_time _ _ _ _ _ _ _ _ Db)) as L2.
    pose proof (sp_times _ _ _ _ _ spr p q _ _ A (pil_time _ _ _ _ _ _ _ _ Da) (pil_time _ _ _ _ _ _ _ _ Db)) as L3.
    exists a, b, t. repeat (split; [assumption || lra|]). apply (atm_fun d); [exact X|].
    pose proof (data_le i (S i) p q a b (Nat.le_succ_diag_r i) Hi Hj Da Db) as L4.
    assert (0 < d_var a) by (unfold d_var; apply Rmult_lt_0_compat; [assumption|nra]).
    apply (between_atm p q d (d_fwd a) (d_vol a) (d_time a) (d_fwd b) (d_vol b) (d_time b) f t); auto; try lra.
    unfold between. fold (d_var a) (d_var b).
    assert (0 <= (t - d_time a) / (d_time b - d_time a)).
    { apply Rmult_le_pos; [lra|apply Rlt_le, Rinv_0_lt_compat; lra]. }
    nra.
  Qed.

  Lemma atm_outside p d x : of_day d -> before base d -> (nth_error smiles 0 = Some p /\ before d (fst p)) \/
      (nth_error smiles (List.length smiles - 1) = Some p /\ before (fst p) d) -> atm_variance nan v d x ->
    (exists t, year_fraction cal base d = Ok t /\ 0 < t) ->
    exists a t, is_data p a /\ year_fraction cal base d = Ok t /\ x = t * d_vol a ^ 2.
  Proof.
    intros Dd Bd Pos X (t' & Ft' & Pt').
    assert (N : forall r, In r smiles -> fst r <> d).
    { intros r I. destruct Pos as [(H0 & B)|(Hn & B)].
      - apply not_eq_sym, before_ne, (not_ahead d p H0 B r I).
      - apply before_ne, (not_past d p Hn B r I). }
    destruct (atm_inv d x X N) as (f & t & Ff & Pf & Ft). assert (t' = t) by congruence. subst t'.
    assert (Ip : In p smiles) by (destruct Pos as [(H0 & _)|(Hn & _)]; eapply nth_in; eassumption).
    destruct (data_at p Ip) as (a & Da & Ta & Va & _). exists a, t. split; [exact Da|]. split; [exact Ft|].
    apply (atm_fun d); [exact X|]. destruct v_fields as (xs & _ & _ & V). exists f. split; [now rewrite V|]. apply variance_real.
    pose proof (outside p d _ _ _ f t Pos Da Ff Ft Pf Pt' 0 (d_vol a)) as K. rewrite !away_0 in K. apply K.
    exact (pil_vol _ _ _ _ _ _ _ _ Da).
  Qed.

  Section Two.
    Variable d : ddf R.
    Hypothesis Dd : of_day d.
    Hypothesis Bd : before base d.
    Hypothesis Pd : exists t, year_fraction cal base d = Ok t /\ 0 < t.

    Lemma share_bounds a b t : a <= t <= b -> a < b -> 0 <= (t - a) / (b - a) <= 1.
    Proof.
      intros L1 L2. split; [apply Rmult_le_pos; [lra|apply Rlt_le, Rinv_0_lt_compat; lra]|].
      apply (Rmult_le_reg_r (b - a)); [lra|]. unfold Rdiv. rewrite Rmult_assoc, Rinv_l by lra. lra.
    Qed.

    Lemma below p x a : In p smiles -> upto d (fst p) -> is_data p a -> atm_variance nan v d x -> x <= d_var a.
    Proof.
      intros Ip U Da X. destruct (placed d) as [r Ir <-|r q A B1 B2|r H0 B|r Hn B].
      - destruct (data_at r Ir) as (b & Db & _). rewrite (atm_fun _ _ _ X (atm_on r b Ir Db)). exact (pillar_upto r p b a Ir Ip U Db Da).
      - destruct (atm_between r q d x Dd Bd A B1 B2 X) as (a0 & b0 & t & D1 & D2 & Ft & L1 & L2 & ->).
        pose proof A as (i & Hi & Hj). apply (Rle_trans _ (d_var b0)).
        + pose proof (data_le i (S i) r q a0 b0 (Nat.le_succ_diag_r i) Hi Hj D1 D2).
          destruct (share_bounds _ _ _ L1 L2). unfold between. nra.
        + apply (pillar_upto q p); [eapply nth_in; exact Hj|exact Ip| |exact D2|exact Da].
          destruct (before_total (fst q) (fst p)) as [W|[W|W]]; [left; exact W|right; exact W|exfalso].
          apply In_nth_error in Ip. destruct Ip as (k & Hk).
          destruct (Nat.le_gt_cases (S i) k) as [L|L].
          * destruct (Nat.eq_dec k (S i)) as [->|Ne]; [assert (p = q) by congruence; subst; now apply before_irrefl in W|].
            apply (before_irrefl (fst p)). eapply before_trans; [exact W|]. apply (ordered_nth smiles ord (S i) k); [lia|assumption..].
          * assert (Q : upto (fst p) (fst r)).
            { destruct (Nat.eq_dec k i) as [->|Ne]; [right; f_equal; congruence|]. left. apply (ordered_nth smiles ord k i); [lia|assumption..]. }
            assert (Z : before (fst p) d) by (destruct Q as [Q|Q]; [eapply before_trans; eassumption|now rewrite Q]).
            destruct U as [U|U]; [exact (before_irrefl _ (before_trans _ _ _ Z U))|rewrite <- U in Z; now apply before_irrefl in Z].
      - destruct (atm_outside r d x Dd Bd (or_introl (conj H0 B)) X Pd) as (b & t & Db & Ft & ->).
        apply nth_in in H0 as Ir. apply (Rle_trans _ (d_var b)).
        + unfold d_var. destruct (sp_day _ _ _ _ _ spr r Ir) as (R1 & R2).
          pose proof (years_between _ _ _ _ Dd R1 Bd B Ft (pil_time _ _ _ _ _ _ _ _ Db)). assert (0 <= d_vol b ^ 2) by nra. nra.
        + apply (pillar_upto r p); auto. destruct (In_nth_error _ _ Ip) as (k & Hk).
          destruct (Nat.eq_dec k 0) as [->|Ne]; [right; f_equal; congruence|]. left. apply (ordered_nth smiles ord 0 k); [lia|assumption..].
      - pose proof (not_past d r Hn B p Ip) as Z. exfalso.
        destruct U as [U|U]; [exact (before_irrefl _ (before_trans _ _ _ Z U))|rewrite <- U in Z; now apply before_irrefl in Z].
    Qed.

    Lemma above p x a : In p smiles -> upto (fst p) d -> is_data p a -> atm_variance nan v d x -> d_var a <= x.
    Proof.
      intros Ip U Da X. destruct (placed d) as [r Ir <-|r q A B1 B2|r H0 B|r Hn B].
      - destruct (data_at r Ir) as (b & Db & _). rewrite (atm_fun _ _ _ X (atm_on r b Ir Db)). exact (pillar_upto p r a b Ip Ir U Da Db).
      - destruct (atm_between r q d x Dd Bd A B1 B2 X) as (a0 & b0 & t & D1 & D2 & Ft & L1 & L2 & ->).
        pose proof A as (i & Hi & Hj). apply (Rle_trans _ (d_var a0)).
        + apply (pillar_upto p r); [exact Ip|eapply nth_in; exact Hi| |exact Da|exact D1].
          destruct (In_nth_error _ _ Ip) as (k & Hk).
          destruct (Nat.le_gt_cases k i) as [L|L].
          * destruct (Nat.eq_dec k i) as [->|Ne]; [right; f_equal; congruence|]. left. apply (ordered_nth smiles ord k i); [lia|assumption..].
          * exfalso. assert (Q : upto (fst q) (fst p)).
            { destruct (Nat.eq_dec k (S i)) as [->|Ne]; [right; f_equal; congruence|]. left. apply (ordered_nth smiles ord (S i) k); [lia|assumption..]. }
            assert (Z : before d (fst p)) by (destruct Q as [Q|Q]; [eapply before_trans; eassumption|now rewrite <- Q]).
            destruct U as [U|U]; [exact (before_irrefl _ (before_trans _ _ _ Z U))|rewrite U in Z; now apply before_irrefl in Z].
        + pose proof (data_le i (S i) r q a0 b0 (Nat.le_succ_diag_r i) Hi Hj D1 D2).
          destruct (share_bounds _ _ _ L1 L2). unfold between. nra.
      - pose proof (not_ahead d r H0 B p Ip) as Z. exfalso.
        destruct U as [U|U]; [exact (before_irrefl _ (before_trans _ _ _ Z U))|rewrite U in Z; now apply before_irrefl in Z].
      - destruct (atm_outside r d x Dd Bd (or_intror (conj Hn B)) X Pd) as (b & t & Db & Ft & ->).
        apply nth_in in Hn as Ir. apply (Rle_trans _ (d_var b)).
        + apply (pillar_upto p r); auto. destruct (In_nth_error _ _ Ip) as (k & Hk).
          assert (k < List.length smiles)%nat by (apply nth_error_Some; now rewrite Hk).
          destruct (Nat.eq_dec k (List.length smiles - 1)) as [->|Ne]; [right; f_equal; congruence|]. left.
          apply (ordered_nth smiles ord k (List.length smiles - 1)); [lia|assumption..].
        + unfold d_var. destruct (sp_day _ _ _ _ _ spr r Ir) as (R1 & R2).
          pose proof (years_between _ _ _ _ R1 Dd R2 B (pil_time _ _ _ _ _ _ _ _ Db) Ft). assert (0 <= d_vol b ^ 2) by nra. nra.
    Qed.
  End Two.

  Lemma atm_rising d d' x y t : of_day d -> of_day d' -> before base d -> before d d' ->
    year_fraction cal base d = Ok t -> 0 < t -> atm_variance nan v d x -> atm_variance nan v d' y ->
    (exists t', year_fraction cal base d' = Ok t') -> x <= y.
  Proof.
    intros Dd Dd' Bd B Ft Pt X Y (t' & Ft').
    assert (Bd' : before base d') by (eapply before_trans; eassumption).
    pose proof (years_between d d' t t' Dd Dd' Bd B Ft Ft') as L.
    assert (Pd : exists t, year_fraction cal base d = Ok t /\ 0 < t) by eauto.
    assert (Pd' : exists t, year_fraction cal base d' = Ok t /\ 0 < t) by (exists t'; split; [exact Ft'|lra]).
    assert (Via : forall p, In p smiles -> upto d (fst p) -> upto (fst p) d' -> x <= y).
    { intros p Ip U1 U2. destruct (data_at p Ip) as (a & Da & _). apply (Rle_trans _ (d_var a)).
      - exact (below d Dd Bd Pd p x a Ip U1 Da X).
      - exact (above d' Dd' Bd' Pd' p y a Ip U2 Da Y). }
    assert (Up : forall p, before d (fst p) -> In p smiles -> ~ before d' (fst p) -> x <= y).
    { intros p B1 Ip N. apply (Via p Ip (or_introl B1)). destruct (before_total (fst p) d') as [W|[W|W]]; [left; exact W|right; exact W|contradiction]. }
    destruct (placed d) as [r Ir <-|r q A B1 B2|r H0 B1|r Hn B1].
    - apply (Via r Ir); [right; reflexivity|left; exact B].
    - destruct (before_total d' (fst q)) as [W|[W|W]].
      + destruct (atm_between r q d x Dd Bd A B1 B2 X) as (a0 & b0 & u & D1 & D2 & Fu & L1 & L2 & ->).
        destruct (atm_between r q d' y Dd' Bd' A (before_trans _ _ _ B1 B) W Y) as (a1 & b1 & u' & D3 & D4 & Fu' & L3 & L4 & ->).
        rewrite (data_fun _ _ _ D3 D1), (data_fun _ _ _ D4 D2) in *. assert (u = t) by congruence. assert (u' = t') by congruence. subst u u'.
        pose proof A as (i & Hi & Hj). pose proof (data_le i (S i) r q a0 b0 (Nat.le_succ_diag_r i) Hi Hj D1 D2) as L5.
        unfold between.
        assert ((t - d_time a0) / (d_time b0 - d_time a0) <= (t' - d_time a0) / (d_time b0 - d_time a0)).
        { apply Rmult_le_compat_r; [apply Rlt_le, Rinv_0_lt_compat; lra|lra]. }
        nra.
      + apply (Up q B2); [destruct A as (i & _ & Hj); eapply nth_in; exact Hj|rewrite W; apply before_irrefl].
      + apply (Up q B2); [destruct A as (i & _ & Hj); eapply nth_in; exact Hj|].
        intros Z. exact (before_irrefl _ (before_trans _ _ _ Z W)).
    - destruct (before_total d' (fst r)) as [W|[W|W]].
      + destruct (atm_outside r d x Dd Bd (or_introl (conj H0 B1)) X Pd) as (b & u & Db & Fu & ->).
        destruct (atm_outside r d' y Dd' Bd' (or_introl (conj H0 W)) Y Pd') as (b' & u' & Db' & Fu' & ->).
        rewrite (data_fun _ _ _ Db' Db). assert (u = t) by congruence. assert (u' = t') by congruence. subst u u'.
        assert (0 <= d_vol b ^ 2) by nra. nra.
      + apply (Up r B1 (nth_in _ _ H0)). rewrite W. apply before_irrefl.
      + apply (Up r B1 (nth_in _ _ H0)). intros Z. exact (before_irrefl _ (before_trans _ _ _ Z W)).
    - destruct (atm_outside r d x Dd Bd (or_intror (conj Hn B1)) X Pd) as (b & u & Db & Fu & ->).
      destruct (atm_outside r d' y Dd' Bd' (or_intror (conj Hn (before_trans _ _ _ B1 B))) Y Pd') as (b' & u' & Db' & Fu' & ->).
      rewrite (data_fun _ _ _ Db' Db). assert (u = t) by congruence. assert (u' = t') by congruence. subst u u'.
      assert (0 <= d_vol b ^ 2) by nra. nra.
  Qed.
End Build.

Lemma strikes_round f a k : 0 < f -> 0 < a -> 0 < k -> to_strike f (sqrt a) (to_normalised f (sqrt a) k) = k.
Proof.
  intros Hf Ha Hk. unfold to_strike, to_normalised. rnum.
  replace (ln (k / f) / sqrt a * sqrt a) with (ln (k / f)) by (field; apply Rgt_not_eq, sqrt_lt_R0, Ha).
  rewrite exp_ln by (apply Rmult_lt_0_compat; [exact Hk|apply Rinv_0_lt_compat, Hf]). field. lra.
Qed.

Lemma normalised_round f a x : 0 < f -> 0 < a -> to_normalised f (sqrt a) (to_strike f (sqrt a) x) = x.
Proof. intros Hf Ha. rewrite strike_away. now apply normalised_away. Qed.
