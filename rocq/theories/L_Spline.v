(** The cubic spline: the tridiagonal solve gives the second derivatives of a spline. *)
From Coq Require Import ZArith String List Bool Lia Reals Lra.
From Verif Require Import Prelude Num L_Num M_Search L_Search M_Interp S_Interp L_Interp.
Import ListNotations.
Open Scope list_scope.
Open Scope R_scope.

(** The cubic through (xp, yp) and (xq, yq) with curvature a at xp and b at xq. *)
Definition hermite (xp yp xq yq a b : R) : cubic :=
  let h := xq - xp in
  let al := yp / h - a * h / 6 in
  let be := yq / h - b * h / 6 in
  let ga := a / (6 * h) in
  let de := b / (6 * h) in
  Cubic (al * xq - be * xp + ga * xq ^ 3 - de * xp ^ 3)
        (- al + be - 3 * ga * xq ^ 2 + 3 * de * xp ^ 2)
        (3 * ga * xq - 3 * de * xp)
        (de - ga).

Lemma hermite_left xp yp xq yq a b : xp < xq -> value (hermite xp yp xq yq a b) xp = yp.
Proof. intros H. unfold value, hermite; cbn [k0 k1 k2 k3]. field. lra. Qed.
Lemma hermite_right xp yp xq yq a b : xp < xq -> value (hermite xp yp xq yq a b) xq = yq.
Proof. intros H. unfold value, hermite; cbn [k0 k1 k2 k3]. field. lra. Qed.
Lemma hermite_curv_left xp yp xq yq a b : xp < xq -> curvature (hermite xp yp xq yq a b) xp = a.
Proof. intros H. unfold curvature, hermite; cbn [k0 k1 k2 k3]. field. lra. Qed.
Lemma hermite_curv_right xp yp xq yq a b : xp < xq -> curvature (hermite xp yp xq yq a b) xq = b.
Proof. intros H. unfold curvature, hermite; cbn [k0 k1 k2 k3]. field. lra. Qed.
Lemma hermite_slope_left xp yp xq yq a b : xp < xq ->
  slope (hermite xp yp xq yq a b) xp = (yq - yp) / (xq - xp) - (xq - xp) * a / 3 - (xq - xp) * b / 6.
Proof. intros H. unfold slope, hermite; cbn [k0 k1 k2 k3]. field. lra. Qed.
Lemma hermite_slope_right xp yp xq yq a b : xp < xq ->
  slope (hermite xp yp xq yq a b) xq = (yq - yp) / (xq - xp) + (xq - xp) * a / 6 + (xq - xp) * b / 3.
Proof. intros H. unfold slope, hermite; cbn [k0 k1 k2 k3]. field. lra. Qed.

(** A cubic is determined by its values and curvatures at two points. *)
Lemma hermite_unique c xp yp xq yq a b : xp < xq ->
  value c xp = yp -> value c xq = yq -> curvature c xp = a -> curvature c xq = b -> c = hermite xp yp xq yq a b.
Proof.
  intros H E1 E2 E3 E4. destruct c as [c0 c1 c2 c3]. unfold value, curvature in *. cbn [k0 k1 k2 k3] in *.
  subst yp yq a b. unfold hermite. f_equal; field; lra.
Qed.

Lemma slope_is_derivative c x : derivable_pt_lim (value c) x (slope c x).
Proof.
  destruct c as [c0 c1 c2 c3]. unfold value, slope; cbn [k0 k1 k2 k3].
  replace (c1 + 2 * c2 * x + 3 * c3 * x ^ 2)
    with (0 + c1 * 1 + c2 * (INR 2 * x ^ Nat.pred 2) + c3 * (INR 3 * x ^ Nat.pred 3)) by (cbn; ring).
  apply derivable_pt_lim_plus; [apply derivable_pt_lim_plus; [apply derivable_pt_lim_plus|]|].
  - apply derivable_pt_lim_const.
  - apply derivable_pt_lim_scal. apply derivable_pt_lim_id.
  - apply derivable_pt_lim_scal. apply derivable_pt_lim_pow.
  - apply derivable_pt_lim_scal. apply derivable_pt_lim_pow.
Qed.

Lemma curvature_is_derivative c x : derivable_pt_lim (slope c) x (curvature c x).
Proof.
  destruct c as [c0 c1 c2 c3]. unfold slope, curvature; cbn [k0 k1 k2 k3].
  replace (2 * c2 + 6 * c3 * x)
    with (0 + 2 * c2 * 1 + 3 * c3 * (INR 2 * x ^ Nat.pred 2)) by (cbn; ring).
  apply derivable_pt_lim_plus; [apply derivable_pt_lim_plus|].
  - apply derivable_pt_lim_const.
  - apply derivable_pt_lim_scal. apply derivable_pt_lim_id.
  - apply derivable_pt_lim_scal. apply derivable_pt_lim_pow.
Qed.

Section Law.
  Context {X : Type} `{Interpolable X R} (pos : X -> R) (L : lawful pos).
  Notation point := (X * R)%type.

  Definition piece (p q : point) (a b : R) : cubic := hermite (pos (fst p)) (snd p) (pos (fst q)) (snd q) a b.

  Fixpoint pieces (p : point) (pts : list point) (m : R) (ms : list R) : list cubic :=
    match pts, ms with
    | q :: pts', b :: ms' => piece p q m b :: pieces q pts' b ms'
    | _, _ => []
    end.

  (** Slopes agree at every inner point. *)
  Fixpoint tri (p : point) (pts : list point) (m : R) (ms : list R) : Prop :=
    match pts, ms with
    | q :: ((r :: _) as pts'), b :: ((c :: _) as ms') =>
        slope (piece p q m b) (pos (fst q)) = slope (piece q r b c) (pos (fst q)) /\ tri q pts' b ms'
    | _, _ => True
    end.

  Lemma tri_cons p q r (pts : list point) m b c ms : tri p (q :: r :: pts) m (b :: c :: ms) <->
    slope (piece p q m b) (pos (fst q)) = slope (piece q r b c) (pos (fst q)) /\ tri q (r :: pts) b (c :: ms).
  Proof. reflexivity. Qed.

  Lemma sep2 p q (pts : list point) : separated pos (p :: q :: pts) ->
    pos (fst p) < pos (fst q) /\ separated pos (q :: pts).
  Proof. intros S. apply separated_cons2 in S. destruct S. split; [lra|assumption]. Qed.

  Lemma decomp_factor sig y2 : 0 < sig < 1 -> -1 < y2 <= 0 ->
    1 < sig * y2 + 2 <= 2 /\ -1 < (sig - 1) / (sig * y2 + 2) <= 0.
  Proof.
    intros Hs Hy. assert (A : 1 < sig * y2 + 2 <= 2) by (split; nra). split; [exact A|].
    set (p := sig * y2 + 2) in *. split.
    - apply (Rmult_lt_reg_r p); [lra|]. unfold Rdiv. rewrite Rmult_assoc, Rinv_l by lra. lra.
    - assert (0 < / p) by (apply Rinv_0_lt_compat; lra). unfold Rdiv. nra.
  Qed.

  Lemma sig_bounds h1 h2 : 0 < h1 -> 0 < h2 -> 0 < h1 / (h1 + h2) < 1.
  Proof.
    intros. split.
    - apply Rmult_lt_0_compat; [lra|]. apply Rinv_0_lt_compat; lra.
    - apply (Rmult_lt_reg_r (h1 + h2)); [lra|]. unfold Rdiv. rewrite Rmult_assoc, Rinv_l by lra. lra.
  Qed.

  (** One row of the tridiagonal system: eliminating m0 gives the recurrence of the code, and conversely. *)
  Lemma row (h1 h2 d1 d2 y2 u m1 m2 : R) : 0 < h1 -> 0 < h2 -> -1 < y2 <= 0 ->
    let sig := h1 / (h1 + h2) in
    let pp := sig * y2 + 2 in
    let a := (sig - 1) / pp in
    let b := (6 * (d2 / h2 - d1 / h1) / (h1 + h2) - sig * u) / pp in
    m1 = a * m2 + b <->
    d1 / h1 + h1 * (y2 * m1 + u) / 6 + h1 * m1 / 3 = d2 / h2 - h2 * m1 / 3 - h2 * m2 / 6.
  Proof.
    intros H1 H2 Hy sig pp a b.
    destruct (decomp_factor sig y2 (sig_bounds h1 h2 H1 H2) Hy) as (Hp & _).
    fold pp in Hp.
    assert (E : m1 = a * m2 + b <-> pp * m1 = (sig - 1) * m2 + (6 * (d2 / h2 - d1 / h1) / (h1 + h2) - sig * u)).
    { unfold a, b. split; intros K.
      - rewrite K. field. lra.
      - apply (Rmult_eq_reg_l pp); [|lra]. rewrite K. field. lra. }
    rewrite E. clear E a b.
    set (s1 := d1 / h1). set (s2 := d2 / h2).
    assert (HS : (h1 + h2) * sig = h1) by (unfold sig; field; lra).
    assert (HQ : (h1 + h2) * (6 * (s2 - s1) / (h1 + h2)) = 6 * (s2 - s1)) by (field; lra).
    set (Q := 6 * (s2 - s1) / (h1 + h2)) in *.
    assert (P1 : (h1 + h2) * (pp * m1) = h1 * y2 * m1 + 2 * (h1 + h2) * m1).
    { unfold pp. replace ((h1 + h2) * ((sig * y2 + 2) * m1)) with ((h1 + h2) * sig * y2 * m1 + 2 * (h1 + h2) * m1) by ring.
      now rewrite HS. }
    assert (P2 : (h1 + h2) * ((sig - 1) * m2 + (Q - sig * u)) = - h2 * m2 + 6 * (s2 - s1) - h1 * u).
    { replace ((h1 + h2) * ((sig - 1) * m2 + (Q - sig * u)))
        with ((h1 + h2) * sig * m2 - (h1 + h2) * m2 + (h1 + h2) * Q - (h1 + h2) * sig * u) by ring.
      rewrite HS, HQ. ring. }
    split; intros K.
    - apply (f_equal (fun z => (h1 + h2) * z)) in K. rewrite P1, P2 in K. lra.
    - apply (Rmult_eq_reg_l (h1 + h2)); [|lra]. rewrite P1, P2. lra.
  Qed.

  Lemma row_points p q r (m1 m2 y2 u : R) (pts : list point) : separated pos (p :: q :: r :: pts) -> -1 < y2 <= 0 ->
    let sig := interp_diff (fst p) (fst q) / interp_diff (fst p) (fst r) in
    let pp := sig * y2 + 2 in
    let a := (sig - 1) / pp in
    let tmp := (snd r - snd q) / interp_diff (fst q) (fst r) - (snd q - snd p) / interp_diff (fst p) (fst q) in
    let b := (6 * tmp / interp_diff (fst p) (fst r) - sig * u) / pp in
    (m1 = a * m2 + b <->
     slope (piece p q (y2 * m1 + u) m1) (pos (fst q)) = slope (piece q r m1 m2) (pos (fst q))) /\
    -1 < a <= 0.
  Proof.
    intros S Hy. cbv zeta. rewrite !(law_diff _ L). apply sep2 in S. destruct S as (D1 & S). apply sep2 in S. destruct S as (D2 & _).
    replace (pos (fst r) - pos (fst p)) with ((pos (fst q) - pos (fst p)) + (pos (fst r) - pos (fst q))) by ring.
    split.
    - unfold piece. rewrite hermite_slope_right, hermite_slope_left by assumption. apply row; lra.
    - apply decomp_factor; [apply sig_bounds; lra|exact Hy].
  Qed.

  Lemma decompose_cons p q r (pts : list point) y2 u :
    spline_decompose p (q :: r :: pts) y2 u =
    let sig := interp_diff (fst p) (fst q) / interp_diff (fst p) (fst r) in
    let pp := sig * y2 + 2 in
    let a := (sig - 1) / pp in
    let tmp := (snd r - snd q) / interp_diff (fst q) (fst r) - (snd q - snd p) / interp_diff (fst p) (fst q) in
    let b := (6 * tmp / interp_diff (fst p) (fst r) - sig * u) / pp in
    (a, b) :: spline_decompose q (r :: pts) a b.
  Proof. reflexivity. Qed.

  Lemma solve_tri pts : forall p y2 u final, -1 < y2 <= 0 -> separated pos (p :: pts) -> pts <> [] ->
    exists m1 ms, spline_backsub (spline_decompose p pts y2 u) final = (m1, m1 :: ms) /\
      List.length (m1 :: ms) = List.length pts /\ tri p pts (y2 * m1 + u) (m1 :: ms) /\ last (m1 :: ms) 0 = final.
  Proof.
    induction pts as [|q pts IH]; intros p y2 u final Hy S NE; [easy|].
    destruct pts as [|r pts].
    - exists final, []. repeat split.
    - rewrite decompose_cons. cbv zeta. cbn [spline_backsub].
      match goal with |- context [spline_decompose q (r :: pts) ?a ?b] => set (A := a); set (B := b) end.
      assert (HA : -1 < A <= 0) by (apply (proj2 (row_points p q r 0 0 y2 u pts S Hy))).
      pose proof (sep2 p q _ S) as (D1 & S1).
      destruct (IH q A B final HA S1 ltac:(discriminate)) as (m2 & ms & E & Len & T & La).
      rewrite E. exists (A * m2 + B), (m2 :: ms). split; [reflexivity|].
      split; [cbn [List.length] in *; lia|]. split; [|now rewrite last_cons, (last_indep ms m2 _ 0)].
      apply tri_cons. split; [|exact T].
      now apply (proj1 (row_points p q r (A * m2 + B) m2 y2 u pts S Hy)).
  Qed.

  (** Conversely, every solution is the one found by back substitution. *)
  Lemma tri_solved pts : forall p y2 u m1 ms, -1 < y2 <= 0 -> separated pos (p :: pts) -> pts <> [] ->
    List.length (m1 :: ms) = List.length pts -> tri p pts (y2 * m1 + u) (m1 :: ms) ->
    spline_backsub (spline_decompose p pts y2 u) (last (m1 :: ms) 0) = (m1, m1 :: ms).
  Proof.
    induction pts as [|q pts IH]; intros p y2 u m1 ms Hy S NE Len T; [easy|].
    destruct pts as [|r pts].
    - destruct ms; [|discriminate]. reflexivity.
    - destruct ms as [|m2 ms]; [discriminate|]. rewrite decompose_cons. cbv zeta. cbn [spline_backsub].
      apply tri_cons in T. destruct T as (T1 & T).
      apply (proj1 (row_points p q r m1 m2 y2 u pts S Hy)) in T1.
      pose proof (proj2 (row_points p q r 0 0 y2 u pts S Hy)) as HA. cbv zeta in *.
      match goal with |- context [spline_decompose q (r :: pts) ?a ?b] => set (A := a) in *; set (B := b) in * end.
      pose proof (sep2 p q _ S) as (D1 & S1).
      change (last (m1 :: m2 :: ms) 0) with (last (m2 :: ms) 0).
      rewrite T1 in T. rewrite (IH q A B m2 ms HA S1 ltac:(discriminate) ltac:(cbn [List.length] in *; lia) T).
      now rewrite T1.
  Qed.

  (** ** The pieces *)

  Lemma pieces_length pts : forall p m ms, List.length ms = List.length pts ->
    List.length (pieces p pts m ms) = List.length pts.
  Proof.
    induction pts as [|q pts IH]; intros p m [|b ms] E; try discriminate; [reflexivity|].
    cbn in *. f_equal. apply IH. lia.
  Qed.

  Lemma pieces_nth pts : forall p m ms i a b u v, 
    nth_error (p :: pts) i = Some a -> nth_error (p :: pts) (S i) = Some b ->
    nth_error (m :: ms) i = Some u -> nth_error (m :: ms) (S i) = Some v ->
    nth_error (pieces p pts m ms) i = Some (piece a b u v).
  Proof.
    induction pts as [|q pts IH]; intros p m ms i a b u v A B U V.
    - destruct i; discriminate.
    - destruct ms as [|n ms]; [destruct i; discriminate|].
      destruct i as [|i]; cbn in *; [congruence|]. now apply IH.
  Qed.

  Lemma pieces_through pts p m ms : separated pos (p :: pts) -> List.length ms = List.length pts ->
    through pos (p :: pts) (pieces p pts m ms).
  Proof.
    intros S Len. split; [cbn; now rewrite pieces_length|].
    intros i a b c A B C.
    assert (Hab : pos (fst a) < pos (fst b)) by (eapply (sep_lt pos (p :: pts) S (Datatypes.S i) i); eauto).
    assert (Li : (Datatypes.S i < List.length (p :: pts))%nat) by (apply nth_error_Some; congruence).
    cbn [List.length] in Li.
    destruct (nth_error (m :: ms) i) as [u|] eqn:U; [|apply nth_error_None in U; cbn in U; lia].
    destruct (nth_error (m :: ms) (Datatypes.S i)) as [v|] eqn:V; [|apply nth_error_None in V; cbn in V; lia].
    rewrite (pieces_nth pts p m ms i a b u v A B U V) in C. inversion C; subst c.
    unfold piece. split; [now apply hermite_left|now apply hermite_right].
  Qed.

  Lemma pieces_curvatures pts p m ms : separated pos (p :: pts) -> List.length ms = List.length pts ->
    curvatures_join pos (p :: pts) (pieces p pts m ms).
  Proof.
    intros S Len i b c d B C D.
    assert (Lp : (Datatypes.S i < List.length (pieces p pts m ms))%nat) by (apply nth_error_Some; congruence).
    rewrite pieces_length in Lp by exact Len.
    destruct (nth_error (p :: pts) i) as [a|] eqn:A; [|apply nth_error_None in A; cbn in A; lia].
    destruct (nth_error (p :: pts) (Datatypes.S (Datatypes.S i))) as [e|] eqn:E; [|apply nth_error_None in E; cbn in E; lia].
    destruct (nth_error (m :: ms) i) as [u|] eqn:U; [|apply nth_error_None in U; cbn in U; lia].
    destruct (nth_error (m :: ms) (Datatypes.S i)) as [v|] eqn:V; [|apply nth_error_None in V; cbn in V; lia].
    destruct (nth_error (m :: ms) (Datatypes.S (Datatypes.S i))) as [w|] eqn:W; [|apply nth_error_None in W; cbn in W; lia].
    rewrite (pieces_nth pts p m ms i a b u v A B U V) in C.
    rewrite (pieces_nth pts p m ms (Datatypes.S i) b e v w B E V W) in D.
    inversion C; inversion D; subst c d. unfold piece.
    rewrite hermite_curv_right, hermite_curv_left; [reflexivity| |].
    - eapply (sep_lt pos (p :: pts) S (Datatypes.S (Datatypes.S i)) (Datatypes.S i)); eauto.
    - eapply (sep_lt pos (p :: pts) S (Datatypes.S i) i); eauto.
  Qed.

  Lemma tri_slopes pts : forall p m ms, List.length ms = List.length pts -> tri p pts m ms ->
    slopes_join pos 1 (p :: pts) (pieces p pts m ms).
  Proof.
    induction pts as [|q pts IH]; intros p m ms Len T i b c d Hk B C D.
    - destruct ms; [|discriminate]. destruct i; discriminate.
    - destruct ms as [|n ms]; [discriminate|]. destruct i as [|i].
      + destruct pts as [|r pts]; [destruct ms; discriminate|].
        destruct ms as [|o ms]; [discriminate|]. cbn in B, C, D, T.
        inversion B; inversion C; inversion D; subst. exact (proj1 T).
      + assert (T' : tri q pts n ms).
        { destruct pts as [|r pts]; [exact I|]. destruct ms as [|o ms]; [discriminate|]. exact (proj2 T). }
        assert (K : (1 <= Datatypes.S i)%nat) by lia.
        exact (IH q n ms ltac:(cbn in Len; lia) T' i b c d K B C D).
  Qed.

  Lemma tri_slopes2 pts : forall p m0 m ms, List.length ms = List.length pts -> tri p pts m0 ms ->
    slopes_join pos 2 (p :: pts) (pieces p pts m ms).
  Proof.
    intros p m0 m ms Len T. destruct pts as [|q pts].
    - destruct ms; [|discriminate]. intros i b c d Hk B C D. destruct i; discriminate.
    - destruct ms as [|n ms]; [discriminate|].
      assert (T' : tri q pts n ms).
      { destruct pts as [|r pts]; [exact I|]. destruct ms as [|o ms]; [discriminate|]. exact (proj2 T). }
      assert (Len' : List.length ms = List.length pts) by (cbn in Len; lia).
      pose proof (tri_slopes pts q n ms Len' T') as J.
      intros i b c d Hk B C D. destruct i as [|i]; [lia|].
      assert (K : (1 <= Datatypes.S i)%nat) by lia.
      exact (J i b c d K B C D).
  Qed.

  Lemma slopes_tri pts : forall p m ms, List.length ms = List.length pts ->
    slopes_join pos 1 (p :: pts) (pieces p pts m ms) -> tri p pts m ms.
  Proof.
    induction pts as [|q pts IH]; intros p m ms Len J; [exact I|].
    destruct ms as [|n ms]; [discriminate|]. destruct pts as [|r pts]; [exact I|].
    destruct ms as [|o ms]; [discriminate|]. apply tri_cons. split.
    - now apply (J 0%nat q).
    - apply (IH q n (o :: ms)); [cbn in *; lia|]. intros i b c d Hk B C D.
      assert (K : (1 <= Datatypes.S (Datatypes.S i))%nat) by lia.
      exact (J (Datatypes.S i) b c d K B C D).
  Qed.

  Lemma first_curvature pts p q m ms : separated pos (p :: q :: pts) -> List.length ms = List.length (q :: pts) ->
    at_first pos (p :: q :: pts) (pieces p (q :: pts) m ms) (fun c x => curvature c x = m).
  Proof.
    intros S Len. destruct ms as [|n ms]; [discriminate|]. intros a c A C. cbn in A, C.
    inversion A; inversion C; subst. apply hermite_curv_left. now apply sep2 in S.
  Qed.

  (** The last piece. *)
  Lemma last_piece pts : forall p y2 u final m1 ms, pts <> [] ->
    spline_backsub (spline_decompose p pts y2 u) final = (m1, ms) ->
    exists front a b, last (spline_decompose p pts y2 u) (y2, u) = (a, b) /\
      pieces p pts (y2 * m1 + u) ms =
        front ++ [piece (last (removelast (p :: pts)) p) (last (p :: pts) p) (a * final + b) final].
  Proof.
    induction pts as [|q pts IH]; intros p y2 u final m1 ms NE E; [easy|].
    destruct pts as [|r pts].
    - cbn in E. inversion E; subst. exists [], y2, u. split; reflexivity.
    - rewrite decompose_cons in *. cbv zeta in *.
      match goal with |- context [spline_decompose q (r :: pts) ?a ?b] => set (A := a) in *; set (B := b) in * end.
      cbn [spline_backsub] in E. destruct (spline_backsub (spline_decompose q (r :: pts) A B) final) as (m2, ms2) eqn:E2.
      inversion E; subst m1 ms.
      destruct (IH q A B final m2 ms2 ltac:(discriminate) E2) as (front & a & b & La & Pc).
      exists (piece p q (y2 * (A * m2 + B) + u) (A * m2 + B) :: front), a, b. split.
      + rewrite last_cons. exact La.
      + cbn [pieces]. fold (pieces q (r :: pts) (A * m2 + B) ms2).
        change (piece p q (y2 * (A * m2 + B) + u) (A * m2 + B) :: pieces q (r :: pts) (A * m2 + B) ms2 =
          (piece p q (y2 * (A * m2 + B) + u) (A * m2 + B) :: front) ++
          [piece (last (removelast (p :: q :: r :: pts)) p) (last (p :: q :: r :: pts) p) (a * final + b) final]).
        rewrite Pc. cbn [app]. f_equal. f_equal. f_equal. f_equal.
        * change (removelast (p :: q :: r :: pts)) with (p :: q :: removelast (r :: pts)).
          change (removelast (q :: r :: pts)) with (q :: removelast (r :: pts)).
          rewrite !last_cons. reflexivity.
        * change (last (p :: q :: r :: pts) p) with (last (q :: r :: pts) p). apply last_indep.
  Qed.

  Lemma at_last_app p (pts : list point) front c (P : cubic -> R -> Prop) :
    P c (pos (fst (last (p :: pts) p))) -> at_last pos (p :: pts) (front ++ [c]) P.
  Proof.
    intros HP a d A D. apply last_point_last in A. rewrite <- last_cons with (d := p) in A. subst a.
    rewrite app_length in D. cbn [List.length] in D. replace (List.length front + 1 - 1)%nat with (List.length front) in D by lia.
    rewrite nth_error_app2, Nat.sub_diag in D by lia. cbn in D. inversion D; subst d. exact HP.
  Qed.

  Lemma last_two_points (pts : list point) : forall p, separated pos (p :: pts) -> pts <> [] ->
    pos (fst (last (removelast (p :: pts)) p)) < pos (fst (last (p :: pts) p)).
  Proof.
    induction pts as [|q pts IH]; intros p S NE; [easy|].
    pose proof (sep2 p q _ S) as (D & S1). destruct pts as [|r pts]; [exact D|].
    specialize (IH q S1 ltac:(discriminate)).
    change (removelast (p :: q :: r :: pts)) with (p :: q :: removelast (r :: pts)).
    change (removelast (q :: r :: pts)) with (q :: removelast (r :: pts)) in IH.
    change (last (p :: q :: removelast (r :: pts)) p) with (last (q :: removelast (r :: pts)) p).
    change (last (p :: q :: r :: pts) p) with (last (q :: r :: pts) p).
    rewrite (last_indep (r :: pts) q p q). rewrite (last_indep (removelast (r :: pts)) q p q). exact IH.
  Qed.

  (** ** The constructor *)

  Lemma spline_new_sep (pts : list point) l r s : spline_new pts l r = Ok s -> separated pos pts.
  Proof.
    unfold spline_new. intros N. inv_bind N. destruct a. now apply (validate_iff pos L) in E.
  Qed.

  Definition start_factors (l : extrap) (p q : point) : R * R :=
    if is_natural l then (0, 0)
    else let diff := pos (fst q) - pos (fst p) in (- (1 / 2), (3 / diff) * ((snd q - snd p) / diff - 0)).

  Lemma start_factor_range l p q : -1 < fst (start_factors l p q) <= 0.
  Proof. unfold start_factors. destruct is_natural; cbn; lra. Qed.

  Definition end_factors (r : extrap) (p q : point) : R * R :=
    if is_natural r then (0, 0)
    else let diff := pos (fst q) - pos (fst p) in (1 / 2, (3 / diff) * (0 - (snd q - snd p) / diff)).

  (** The curvature at the first point is that of the solution when the left end is natural, else -1/2. *)
  Lemma spline_new_pieces p q pts l r s : spline_new (p :: q :: pts) l r = Ok s ->
    separated pos (p :: q :: pts) /\ sp_points s = p :: q :: pts /\ sp_left s = l /\ sp_right s = r /\
    exists m1 ms final, List.length (m1 :: ms) = List.length (q :: pts) /\
      let '(y2, u) := start_factors l p q in
      sp_second s = y2 :: m1 :: ms /\
      tri p (q :: pts) (y2 * m1 + u) (m1 :: ms) /\ last (m1 :: ms) 0 = final /\
      let pm := last (removelast (p :: q :: pts)) p in
      let pn := last (p :: q :: pts) p in
      let '(qn, un) := end_factors r pm pn in
      exists front a b, -1 < a <= 0 /\ final = (un - qn * b) / (qn * a + 1) /\
        pieces p (q :: pts) (y2 * m1 + u) (m1 :: ms) = front ++ [piece pm pn (a * final + b) final].
  Proof.
    intros N. pose proof (spline_new_sep _ _ _ _ N) as S. split; [exact S|].
    unfold spline_new in N. inv_bind N. inv_bind N. inversion N; subst s; clear N. cbn [sp_points sp_left sp_right sp_second].
    split; [reflexivity|]. split; [reflexivity|]. split; [reflexivity|].
    unfold nr_spline in E0. rewrite !(law_diff _ L) in E0.
    match type of E0 with (let '(_, _) := ?x in _) = _ => replace x with (start_factors l p q) in E0 end.
    2:{ unfold start_factors. destruct l; cbn [is_natural]; rnum; reflexivity. }
    pose proof (start_factor_range l p q) as Hy.
    destruct (start_factors l p q) as (y2, u) eqn:SF. cbn [fst] in Hy.
    set (pm := last (removelast (p :: q :: pts)) p) in *. set (pn := last (p :: q :: pts) p) in *.
    destruct (last (spline_decompose p (q :: pts) y2 u) (y2, u)) as (a1, b1) eqn:La.
    match type of E0 with (let '(_, _) := ?x in _) = _ => replace x with (end_factors r pm pn) in E0 end.
    2:{ unfold end_factors. destruct r; cbn [is_natural]; rnum; reflexivity. }
    destruct (end_factors r pm pn) as (qn, un) eqn:EF. rnum.
    set (final := (un - qn * b1) / (qn * a1 + 1)) in *.
    destruct (solve_tri (q :: pts) p y2 u final Hy S ltac:(discriminate)) as (m1 & ms & B & Len & T & Lf).
    destruct (last_piece (q :: pts) p y2 u final m1 (m1 :: ms) ltac:(discriminate) B) as (front & a2 & b2 & La2 & Pc).
    rewrite La in La2. inversion La2; subst a2 b2.
    rewrite B in E0. cbn [snd] in E0. inversion E0; subst a0.
    exists m1, ms, final. split; [exact Len|]. split; [reflexivity|]. split; [exact T|]. split; [exact Lf|].
    exists front, a1, b1. split; [|split; [reflexivity|exact Pc]].
    (* every factor is in (-1, 0] *)
    clear - L S Hy La. revert p y2 u S Hy La. generalize q. clear q. induction pts as [|r pts IH]; intros q p y2 u S Hy La.
    - cbn in La. inversion La; subst. exact Hy.
    - rewrite decompose_cons in La. cbv zeta in La. rewrite last_cons in La.
      eapply (IH r q); [exact (proj2 (sep2 p q _ S))| |exact La].
      apply (proj2 (row_points p q r 0 0 y2 u pts S Hy)).
  Qed.

  Lemma natural_pieces p q pts r s : spline_new (p :: q :: pts) Natural r = Ok s ->
    exists m1 ms, List.length (m1 :: ms) = List.length (q :: pts) /\ sp_second s = 0 :: m1 :: ms /\
      tri p (q :: pts) 0 (m1 :: ms) /\
      at_last pos (p :: q :: pts) (pieces p (q :: pts) 0 (m1 :: ms))
        (fun c x => if is_natural r then curvature c x = 0 else slope c x = 0) /\
      (is_natural r = true -> last (m1 :: ms) 0 = 0).
  Proof.
    intros N. destruct (spline_new_pieces p q pts Natural r s N) as (S & _ & _ & _ & m1 & ms & final & Len & K).
    cbn [start_factors is_natural] in K. destruct K as (Sec & T & Lf & K). cbv zeta in K.
    pose proof (last_two_points (q :: pts) p S ltac:(discriminate)) as D.
    set (pm := last (removelast (p :: q :: pts)) p) in *. set (pn := last (p :: q :: pts) p) in *.
    replace (0 * m1 + 0) with 0 in * by ring.
    exists m1, ms. split; [exact Len|]. split; [exact Sec|]. split; [exact T|].
    unfold end_factors in K. destruct (is_natural r); destruct K as (front & a & b & Ha & Ff & Pc); rewrite Pc.
    - assert (F0 : final = 0) by (rewrite Ff; field; lra). split; [|intros _; congruence].
      apply at_last_app. fold pn. rewrite F0. unfold piece. now apply hermite_curv_right.
    - split; [|discriminate]. apply at_last_app. fold pn. unfold piece. rewrite hermite_slope_right by exact D.
      rewrite Ff. field. lra.
  Qed.

  Lemma natural_spline_pieces p q pts s : spline_new (p :: q :: pts) Natural Natural = Ok s ->
    exists ms, List.length ms = List.length (q :: pts) /\ sp_second s = 0 :: ms /\
      natural_spline pos (p :: q :: pts) (pieces p (q :: pts) 0 ms).
  Proof.
    intros N. pose proof (spline_new_sep _ _ _ _ N) as S.
    destruct (natural_pieces p q pts Natural s N) as (m1 & ms & Len & Sec & T & La & _).
    exists (m1 :: ms). split; [exact Len|]. split; [exact Sec|].
    split; [now apply pieces_through|]. split; [now apply tri_slopes|]. split; [now apply pieces_curvatures|].
    split; [now apply first_curvature|exact La].
  Qed.

  (** ** Evaluation *)

  Variable nan : R.

  Lemma splint_value (p q : point) a b x : pos (fst p) < pos (fst q) ->
    nr_splint p q a b x = Ok (value (piece p q a b) (pos x)).
  Proof.
    intros D. unfold nr_splint. rewrite !(law_diff _ L). rnum.
    destruct (Reqb_spec (pos (fst q) - pos (fst p)) 0); [lra|]. f_equal.
    unfold value, piece, hermite; cbn [k0 k1 k2 k3]. field. lra.
  Qed.

  (** The evaluation uses the piece on which x lies. *)
  Lemma spline_on_piece p pts m ms l r i x c : separated pos (p :: pts) -> List.length ms = List.length pts ->
    on_piece pos (p :: pts) i x -> nth_error (pieces p pts m ms) i = Some c ->
    spline_at nan (mkSpline l r (p :: pts) (m :: ms)) x = Ok (value c (pos x)).
  Proof.
    intros S Len (a & b & A & B & W) C.
    assert (D : pos (fst a) < pos (fst b)) by (eapply (sep_lt pos (p :: pts) S (Datatypes.S i) i); eauto).
    assert (Li : (Datatypes.S i < List.length (p :: pts))%nat) by (apply nth_error_Some; congruence).
    cbn [List.length] in Li.
    destruct (nth_error (m :: ms) i) as [u|] eqn:U; [|apply nth_error_None in U; cbn in U; lia].
    destruct (nth_error (m :: ms) (Datatypes.S i)) as [v|] eqn:V; [|apply nth_error_None in V; cbn in V; lia].
    rewrite (pieces_nth pts p m ms i a b u v A B U V) in C. inversion C; subst c. clear C.
    unfold spline_at. cbn [sp_points sp_left sp_right sp_second].
    change (List.length (p :: pts) =? 0)%nat with false. cbv iota.
    destruct (Req_dec (pos (fst a)) (pos x)) as [E|NE].
    - rewrite (search_found pos L (p :: pts) x i a S A E). cbn [bind]. rewrite (at_some _ _ _ A). cbn [bind].
      f_equal. rewrite <- E. unfold piece. symmetry. now apply hermite_left.
    - destruct (Req_dec (pos (fst b)) (pos x)) as [E|NE'].
      + rewrite (search_found pos L (p :: pts) x (Datatypes.S i) b S B E). cbn [bind]. rewrite (at_some _ _ _ B). cbn [bind].
        f_equal. rewrite <- E. unfold piece. symmetry. now apply hermite_right.
      + rewrite (search_between pos L (p :: pts) x i a b S A B) by lra. cbn [bind].
        destruct (List.length (p :: pts) <=? Datatypes.S i)%nat eqn:Z; [apply Nat.leb_le in Z; cbn in Z; lia|].
        cbn [Nat.eqb]. replace (Datatypes.S i - 1)%nat with i by lia. replace (i + 1)%nat with (Datatypes.S i) by lia.
        rewrite (at_some _ _ _ A), (at_some _ _ _ B), (at_some _ _ _ U), (at_some _ _ _ V). cbn [bind].
        now apply splint_value.
  Qed.

  Lemma spline_left_of p q pts m ms l r x c : separated pos (p :: q :: pts) -> List.length ms = List.length (q :: pts) ->
    pos x < pos (fst p) -> nth_error (pieces p (q :: pts) m ms) 0 = Some c ->
    spline_at nan (mkSpline l r (p :: q :: pts) (m :: ms)) x =
      if is_natural l then Ok (value c (pos x)) else extrapolate nan l (snd p).
  Proof.
    intros S Len B C. destruct ms as [|n ms]; [discriminate|]. cbn in C. inversion C; subst c.
    unfold spline_at. cbn [sp_points sp_left sp_right sp_second].
    rewrite (search_left pos L (p :: q :: pts) x p S eq_refl B). cbn [bind].
    cbn [List.length Nat.eqb Nat.ltb Nat.leb]. rewrite andb_true_r. destruct (is_natural l); [|reflexivity].
    cbn [at_ nth_error bind Nat.add]. apply splint_value. now apply sep2 in S.
  Qed.

  Lemma pieces_last_nth p q pts m ms : List.length ms = List.length (q :: pts) ->
    exists c, nth_error (pieces p (q :: pts) m ms) (List.length (pieces p (q :: pts) m ms) - 1) = Some c.
  Proof.
    intros Len. rewrite pieces_length by exact Len.
    destruct nth_error eqn:E; [eauto|]. apply nth_error_None in E. rewrite pieces_length in E by exact Len.
    cbn [List.length] in E. lia.
  Qed.

  Lemma spline_right_of p q pts m ms l r x c e : separated pos (p :: q :: pts) -> List.length ms = List.length (q :: pts) ->
    last_point (p :: q :: pts) e -> pos (fst e) < pos x ->
    nth_error (pieces p (q :: pts) m ms) (List.length (pieces p (q :: pts) m ms) - 1) = Some c ->
    spline_at nan (mkSpline l r (p :: q :: pts) (m :: ms)) x =
      if is_natural l then Ok (value c (pos x)) else extrapolate nan r (snd e).
  Proof.
    intros S Len Le B C. unfold spline_at. cbn [sp_points sp_left sp_right sp_second].
    rewrite (search_right pos L (p :: q :: pts) x e S Le B). cbn [bind]. rewrite Nat.leb_refl.
    unfold last_point in Le.
    rewrite pieces_length in C by exact Len. cbn [List.length] in *.
    replace (Datatypes.S (Datatypes.S (List.length pts)) - 1)%nat with (Datatypes.S (List.length pts)) in * by lia.
    replace (Datatypes.S (Datatypes.S (List.length pts)) - 2)%nat with (List.length pts) by lia.
    replace (Datatypes.S (List.length pts) - 1)%nat with (List.length pts) in C by lia.
    cbn [Nat.eqb Nat.ltb Nat.leb]. rewrite andb_true_r. destruct (is_natural l).
    - destruct (nth_error (p :: q :: pts) (List.length pts)) as [a|] eqn:A; [|apply nth_error_None in A; cbn in A; lia].
      destruct (nth_error (m :: ms) (List.length pts)) as [u|] eqn:U; [|apply nth_error_None in U; cbn in U; lia].
      destruct (nth_error (m :: ms) (Datatypes.S (List.length pts))) as [v|] eqn:V; [|apply nth_error_None in V; cbn in V; lia].
      rewrite (pieces_nth (q :: pts) p m ms (List.length pts) a e u v A Le U V) in C. inversion C; subst c.
      replace (List.length pts + 1)%nat with (Datatypes.S (List.length pts)) by lia.
      rewrite (at_some _ _ _ A), (at_some _ _ _ Le), (at_some _ _ _ U), (at_some _ _ _ V). cbn [bind].
      apply splint_value. eapply (sep_lt pos _ S (Datatypes.S (List.length pts)) (List.length pts)); eauto.
    - rewrite (at_some _ _ _ Le). reflexivity.
  Qed.

  (** ** Uniqueness *)

  (** Pieces with matching curvatures come from a list of curvatures. *)
  Lemma pieces_of pts : forall p m cs, separated pos (p :: pts) -> pts <> [] ->
    through pos (p :: pts) cs -> curvatures_join pos (p :: pts) cs ->
    at_first pos (p :: pts) cs (fun c x => curvature c x = m) ->
    exists ms, List.length ms = List.length pts /\ cs = pieces p pts m ms /\
      at_last pos (p :: pts) cs (fun c x => curvature c x = last ms 0).
  Proof.
    induction pts as [|q pts IH]; intros p m cs S NE (Len & Th) J F; [easy|].
    destruct cs as [|c cs]; [discriminate|].
    pose proof (sep2 p q _ S) as (D & S1).
    destruct (Th 0%nat p q c eq_refl eq_refl eq_refl) as (Vp & Vq).
    assert (Cp : curvature c (pos (fst p)) = m) by (apply (F p c); reflexivity).
    set (n := curvature c (pos (fst q))).
    assert (Ec : c = piece p q m n) by (apply hermite_unique; auto).
    destruct pts as [|r pts].
    - destruct cs; [|discriminate]. exists [n]. split; [reflexivity|]. split; [cbn; now rewrite Ec|].
      intros a d A E. cbn in A, E. inversion A; inversion E; subst. reflexivity.
    - destruct (IH q n cs S1 ltac:(discriminate)) as (ms & Lm & E & La).
      + split; [cbn in *; lia|]. intros i a b d A B C. exact (Th (Datatypes.S i) a b d A B C).
      + intros i a d e A C E. exact (J (Datatypes.S i) a d e A C E).
      + intros a d A E. cbn in A. inversion A; subst a.
        symmetry. exact (J 0%nat q c d eq_refl eq_refl E).
      + exists (n :: ms). split; [cbn in *; lia|]. split; [change (c :: cs = piece p q m n :: pieces q (r :: pts) n ms); now rewrite <- Ec, <- E|].
        intros a d A C. destruct ms as [|o ms]; [discriminate|].
        change (last (n :: o :: ms) 0) with (last (o :: ms) 0). apply (La a d).
        * unfold last_point in *. cbn [List.length] in *.
          replace (Datatypes.S (Datatypes.S (Datatypes.S (List.length pts))) - 1)%nat
            with (Datatypes.S (Datatypes.S (List.length pts))) in A by lia.
          replace (Datatypes.S (Datatypes.S (List.length pts)) - 1)%nat with (Datatypes.S (List.length pts)) by lia.
          exact A.
        * cbn [List.length] in *. destruct cs as [|d' cs]; [discriminate|]. cbn [List.length] in *.
          replace (Datatypes.S (Datatypes.S (List.length cs)) - 1)%nat with (Datatypes.S (List.length cs)) in C by lia.
          replace (Datatypes.S (List.length cs) - 1)%nat with (List.length cs) by lia. exact C.
  Qed.

  Lemma pieces_inj pts : forall p a ms ms', separated pos (p :: pts) ->
    List.length ms = List.length pts -> List.length ms' = List.length pts ->
    pieces p pts a ms = pieces p pts a ms' -> ms = ms'.
  Proof.
    induction pts as [|q pts IH]; intros p a ms ms' S Len Len' E.
    - destruct ms, ms'; try discriminate. reflexivity.
    - destruct ms as [|m ms]; [discriminate|]. destruct ms' as [|m' ms']; [discriminate|].
      pose proof (f_equal (hd (Cubic 0 0 0 0)) E) as K. pose proof (f_equal (@tl cubic) E) as K'.
      change (piece p q a m = piece p q a m') in K. change (pieces q pts m ms = pieces q pts m' ms') in K'.
      apply (f_equal (fun c => curvature c (pos (fst q)))) in K.
      unfold piece in K. rewrite !hermite_curv_right in K by (now apply sep2 in S). subst m'. f_equal.
      apply (IH q m); [now apply sep2 in S| | |exact K']; cbn in *; lia.
  Qed.

  Lemma natural_unique p q pts ms cs : separated pos (p :: q :: pts) -> List.length ms = List.length (q :: pts) ->
    natural_spline pos (p :: q :: pts) (pieces p (q :: pts) 0 ms) -> natural_spline pos (p :: q :: pts) cs ->
    cs = pieces p (q :: pts) 0 ms.
  Proof.
    intros S Len NS (Th & J & C & F & La).
    assert (U : forall ms, List.length ms = List.length (q :: pts) ->
              natural_spline pos (p :: q :: pts) (pieces p (q :: pts) 0 ms) ->
              ms = snd (spline_backsub (spline_decompose p (q :: pts) 0 0) 0)).
    { clear - L S. intros ms Len (Th & J & C & F & La). apply slopes_tri in J; [|exact Len].
      destruct (pieces_of (q :: pts) p 0 _ S ltac:(discriminate) Th C F) as (ms' & Len' & E & La').
      assert (ms' = ms) by (symmetry; now apply (pieces_inj (q :: pts) p 0)).
      subst ms'.
      destruct ms as [|m1 ms]; [discriminate|].
      destruct (pieces_last_nth p q pts 0 (m1 :: ms) Len) as (c & Hc).
      assert (Hl : exists e, last_point (p :: q :: pts) e).
      { unfold last_point. destruct (nth_error (p :: q :: pts) (List.length (p :: q :: pts) - 1)) as [e|] eqn:N; [now exists e|].
        apply nth_error_None in N. cbn [List.length] in N. lia. }
      destruct Hl as (e & He).
      assert (Z : last (m1 :: ms) 0 = 0) by (rewrite <- (La' e c He Hc); now apply La).
      pose proof (tri_solved (q :: pts) p 0 0 m1 ms) as TS.
      rewrite Z in TS. rewrite TS; [reflexivity|lra|exact S|discriminate|exact Len|].
      now replace (0 * m1 + 0) with 0 by ring. }
    destruct (pieces_of (q :: pts) p 0 cs S ltac:(discriminate) Th C F) as (ms' & Len' & E & _).
    rewrite E. f_equal. rewrite (U ms Len NS). apply U; [exact Len'|]. rewrite <- E.
    split; [exact Th|]. split; [exact J|]. split; [exact C|]. split; [exact F|exact La].
  Qed.
End Law.
