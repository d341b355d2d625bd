(** Linear interpolation and extrapolation. *)
From Coq Require Import ZArith List String Bool Lia Reals Lra.
From Verif Require Import Prelude Num L_Num M_Search L_Search M_Interp S_Interp.
Import ListNotations.
Open Scope R_scope.

Lemma lawful_R : lawful (fun x : R => x).
Proof.
  split; intros a b; cbn; try reflexivity;
    [..|destruct (Rltb_spec a b); [reflexivity|]; destruct (Rltb_spec b a); [reflexivity|]; destruct (Reqb_spec a b); [reflexivity|lra]];
    destruct (Rltb_spec a b); [|destruct (Rltb_spec b a)| |destruct (Rltb_spec b a)| |destruct (Rltb_spec b a)];
    split; intros; try easy; try lra.
Qed.

Lemma lawful_Z : lawful IZR.
Proof.
  split; intros a b; cbn.
  - now rewrite minus_IZR.
  - rewrite Z.compare_lt_iff. split; [apply IZR_lt|apply lt_IZR].
  - rewrite Z.compare_eq_iff. split; [now intros ->|apply eq_IZR].
  - rewrite Z.compare_gt_iff. split; [intros; now apply IZR_lt|apply lt_IZR].
  - reflexivity.
Qed.

Lemma at_some {A} (l : list A) i a : nth_error l i = Some a -> at_ l i = Ok a.
Proof. unfold at_. now intros ->. Qed.

(** The search panics exactly when one of the points it looks at cannot be ordered. *)
Lemma find_ordered {T X} {I : Interpolable X T} (pts : list (X * T)) x : (forall p, In p pts -> interp_ord (fst p) x = true) ->
  find pts x = Ok (binary_search_by pts (fun p => interp_cmp (fst p) x)).
Proof.
  intros O. unfold find. replace (forallb _ _) with true; [reflexivity|]. symmetry. apply forallb_forall.
  intros p Ip. apply O. now apply probes_in in Ip.
Qed.
Lemma find_unordered {T X} {I : Interpolable X T} (pts : list (X * T)) x : pts <> [] -> (forall p, In p pts -> interp_ord (fst p) x = false) ->
  exists m, find pts x = Panic m.
Proof.
  intros NE O. unfold find. destruct (forallb _ _) eqn:E; [|eexists; reflexivity]. exfalso.
  destruct (probes_some pts (fun p => interp_cmp (fst p) x) NE) as (p & Ip). rewrite forallb_forall in E. specialize (E p Ip). apply probes_in in Ip. rewrite (O p Ip) in E. discriminate.
Qed.
(** Points whose abscissae are dates are always ordered. *)
Lemma find_date {T} {N : Num T} (pts : list (Z * T)) x : find pts x = Ok (binary_search_by pts (fun p => Z.compare (fst p) x)).
Proof. exact (find_ordered (T := T) pts x (fun _ _ => eq_refl)). Qed.

Lemma eps12_R : (eps12 : R) = 1 / 1000000000000.
Proof. reflexivity. Qed.

Lemma last_indep {A} (l : list A) a d d' : last (a :: l) d = last (a :: l) d'.
Proof. revert a. induction l as [|b l IH]; intros a; [reflexivity|]. exact (IH b). Qed.
Lemma last_cons {A} (l : list A) a d : last (a :: l) d = last l a.
Proof. destruct l as [|b l]; [reflexivity|]. change (last (a :: b :: l) d) with (last (b :: l) d). apply last_indep. Qed.
Lemma last_in {A} (l : list A) a d : In (last (a :: l) d) (a :: l).
Proof. revert a. induction l as [|b l IH]; intros a; [now left|]. right. exact (IH b). Qed.

Section Law.
  Context {X : Type} `{Interpolable X R} (pos : X -> R) (L : lawful pos).
  Notation point := (X * R)%type.

  Lemma neighbours_cons p q r (pts : list point) :
    neighbours (p :: pts) q r <-> (p = q /\ nth_error pts 0 = Some r) \/ neighbours pts q r.
  Proof.
    unfold neighbours. split.
    - intros (i & A & B). destruct i as [|i]; cbn in *.
      + left. now inversion A.
      + right. now exists i.
    - intros [(-> & B)|(i & A & B)]; [exists O|exists (S i)]; auto.
  Qed.

  Lemma separated_cons p (pts : list point) : separated pos (p :: pts) -> separated pos pts.
  Proof. intros S a b N. apply S. apply neighbours_cons. now right. Qed.

  Lemma separated_cons2 p q (pts : list point) :
    separated pos (p :: q :: pts) <-> pos (fst q) - pos (fst p) > 1 / 1000000000000 /\ separated pos (q :: pts).
  Proof.
    split.
    - intros S. split; [|now apply separated_cons in S]. apply S. now exists O.
    - intros (A & S) a b N. apply neighbours_cons in N. destruct N as [(-> & N)|N]; [|now apply S].
      cbn in N. inversion N. now subst.
  Qed.

  Lemma validate_from_iff pts : forall p, validate_from (fst p) pts = Ok tt <-> separated pos (p :: pts).
  Proof.
    induction pts as [|q pts IH]; intros p; cbn [validate_from].
    - split; [|reflexivity]. intros _ a b (i & A & B). cbn in B. destruct i; discriminate.
    - rewrite separated_cons2, <- IH. rewrite (law_diff _ L), eps12_R. rnum.
      destruct (Rltb_spec (1 / 1000000000000) (pos (fst q) - pos (fst p))); cbn [negb].
      + split; [|tauto]. intros E. split; [lra|exact E].
      + split; [discriminate|]. intros (A & _). lra.
  Qed.

  Lemma validate_iff (pts : list point) : validate_abscissae pts = Ok tt <-> pts <> [] /\ separated pos pts.
  Proof.
    destruct pts as [|p pts]; cbn.
    - split; [discriminate|now intros (? & _)].
    - rewrite validate_from_iff. split; [now split|tauto].
  Qed.

  Lemma validate_not_panic (pts : list point) m : validate_abscissae pts <> Panic m.
  Proof.
    destruct pts as [|p pts]; [discriminate|]. cbn. generalize (fst p).
    induction pts as [|q pts IH]; intros a; cbn; [discriminate|].
    destruct negb; [discriminate|apply IH].
  Qed.

  Lemma linear_new_iff (pts : list point) l r f :
    linear_new pts l r = Ok f <-> pts <> [] /\ separated pos pts /\ f = mkLinear l r pts.
  Proof.
    unfold linear_new. destruct (validate_abscissae pts) as [[]|m|m] eqn:E; cbn.
    - apply validate_iff in E. split; [intros A; inversion A; tauto|]. now intros (_ & _ & ->).
    - split; [discriminate|]. intros (A & B & _).
      assert (validate_abscissae pts = Ok tt) by (apply validate_iff; tauto). congruence.
    - now apply validate_not_panic in E.
  Qed.

  Lemma sep_lt (pts : list point) : separated pos pts -> forall j i p q, (i < j)%nat ->
    nth_error pts i = Some p -> nth_error pts j = Some q -> pos (fst p) < pos (fst q).
  Proof.
    intros S. induction j as [|j IH]; intros i p q Hij Hi Hj; [lia|].
    destruct (nth_error pts j) as [r|] eqn:E.
    - assert (pos (fst q) - pos (fst r) > 1 / 1000000000000) by (apply S; exists j; auto).
      destruct (Nat.eq_dec i j) as [->|].
      + replace r with p in * by congruence. lra.
      + assert (pos (fst p) < pos (fst r)) by (apply (IH i p r); auto; lia). lra.
    - apply nth_error_None in E. assert (nth_error pts (Datatypes.S j) <> None) by congruence.
      apply nth_error_Some in H0. lia.
  Qed.

  Lemma sep_probe (pts : list point) x : separated pos pts -> probe_sorted pts (fun p => interp_cmp (fst p) x).
  Proof.
    intros S i j a b Hij Hi Hj. pose proof (sep_lt pts S j i a b Hij Hi Hj) as K. split; intros E.
    - destruct (interp_cmp (fst b) x) eqn:F.
      + apply (law_eq _ L) in F. apply (law_lt _ L). lra.
      + apply (law_lt _ L) in F. apply (law_lt _ L). lra.
      + now elim E.
    - destruct (interp_cmp (fst a) x) eqn:F.
      + apply (law_eq _ L) in F. apply (law_gt _ L). lra.
      + now elim E.
      + apply (law_gt _ L) in F. apply (law_gt _ L). lra.
  Qed.

  (** What the search says about the position of x. *)
  Lemma search_pos (pts : list point) x : separated pos pts ->
    match binary_search_by pts (fun p => interp_cmp (fst p) x) with
    | Found i => exists p, nth_error pts i = Some p /\ pos (fst p) = pos x
    | Missing i => (i <= List.length pts)%nat /\
        (forall j p, nth_error pts j = Some p -> (j < i)%nat -> pos (fst p) < pos x) /\
        (forall j p, nth_error pts j = Some p -> (i <= j)%nat -> pos x < pos (fst p))
    end.
  Proof.
    intros S. pose proof (binary_search_spec pts _ (sep_probe pts x S)) as B.
    destruct (binary_search_by _ _).
    - destruct B as (p & A & E). exists p. split; [exact A|]. now apply (law_eq _ L).
    - destruct B as (A & B & C). split; [exact A|]. split; intros j p N K.
      + apply (law_lt _ L). now apply (B j).
      + apply (law_gt _ L). now apply (C j).
  Qed.

  Lemma find_lawful (pts : list point) x : find pts x = Ok (binary_search_by pts (fun p => interp_cmp (fst p) x)).
  Proof. apply find_ordered. intros p _. apply (law_ord _ L). Qed.

  Lemma search_found (pts : list point) x i p : separated pos pts ->
    nth_error pts i = Some p -> pos (fst p) = pos x ->
    find pts x = Ok (Found i).
  Proof.
    intros S N E. rewrite find_lawful. f_equal. pose proof (search_pos pts x S) as B. destruct (binary_search_by _ _) as [j|j].
    - destruct B as (q & A & F). f_equal. destruct (lt_eq_lt_dec i j) as [[K| ->]|K]; [|reflexivity|].
      + pose proof (sep_lt pts S j i p q K N A). lra.
      + pose proof (sep_lt pts S i j q p K A N). lra.
    - exfalso. destruct B as (_ & B & C). destruct (le_lt_dec j i) as [K|K].
      + specialize (C i p N K). lra.
      + specialize (B i p N K). lra.
  Qed.

  Lemma search_between (pts : list point) x i p q : separated pos pts ->
    nth_error pts i = Some p -> nth_error pts (S i) = Some q -> pos (fst p) < pos x < pos (fst q) ->
    find pts x = Ok (Missing (S i)).
  Proof.
    intros S Np Nq E. rewrite find_lawful. f_equal. pose proof (search_pos pts x S) as B. destruct (binary_search_by _ _) as [j|j].
    - destruct B as (r & A & F). exfalso. destruct (le_lt_dec j i) as [K|K].
      + apply Nat.lt_eq_cases in K. destruct K as [K| ->].
        * pose proof (sep_lt pts S i j r p K A Np). lra.
        * replace r with p in * by congruence. lra.
      + apply Nat.le_succ_l, Nat.lt_eq_cases in K. destruct K as [K|K].
        * pose proof (sep_lt pts S j (Datatypes.S i) q r K Nq A). lra.
        * subst j. replace r with q in * by congruence. lra.
    - destruct B as (_ & B & C). f_equal. destruct (lt_eq_lt_dec j (Datatypes.S i)) as [[K| ->]|K]; [|reflexivity|].
      + assert (pos x < pos (fst p)) by (apply (C i p Np); lia). lra.
      + assert (pos (fst q) < pos x) by (apply (B (Datatypes.S i) q Nq); lia). lra.
  Qed.

  Lemma search_left (pts : list point) x p : separated pos pts -> first_point pts p -> pos x < pos (fst p) ->
    find pts x = Ok (Missing 0).
  Proof.
    intros S Np E. rewrite find_lawful. f_equal. pose proof (search_pos pts x S) as B. destruct (binary_search_by _ _) as [j|j].
    - destruct B as (r & A & F). exfalso. destruct j as [|j].
      + replace r with p in * by (unfold first_point in Np; congruence). lra.
      + assert (pos (fst p) < pos (fst r)) by (eapply (sep_lt pts S (Datatypes.S j) 0); eauto; lia). lra.
    - destruct j; [reflexivity|]. destruct B as (_ & B & _).
      assert (pos (fst p) < pos x) by (eapply (B O); eauto; lia). lra.
  Qed.

  Lemma search_right (pts : list point) x p : separated pos pts -> last_point pts p -> pos (fst p) < pos x ->
    find pts x = Ok (Missing (List.length pts)).
  Proof.
    intros S Np E. rewrite find_lawful. f_equal. unfold last_point in Np. pose proof (search_pos pts x S) as B.
    assert (List.length pts <> 0%nat) by (intros Z; rewrite Z in Np; destruct pts; discriminate).
    destruct (binary_search_by _ _) as [j|j].
    - destruct B as (r & A & F). exfalso.
      assert (j < List.length pts)%nat by (apply nth_error_Some; congruence).
      destruct (Nat.eq_dec j (List.length pts - 1)) as [->|].
      + replace r with p in * by congruence. lra.
      + assert (pos (fst r) < pos (fst p)) by (eapply (sep_lt pts S (List.length pts - 1) j); eauto; lia). lra.
    - destruct B as (A & B & C). f_equal.
      destruct (Nat.eq_dec j (List.length pts)); [assumption|].
      assert (pos x < pos (fst p)) by (eapply (C (List.length pts - 1)%nat); eauto; lia). lra.
  Qed.

  Lemma linear_interpolate_sep (p q : point) x : pos (fst q) - pos (fst p) > 1 / 1000000000000 ->
    linear_interpolate p q x =
      Ok (snd p + (snd q - snd p) * ((pos x - pos (fst p)) / (pos (fst q) - pos (fst p)))).
  Proof.
    intros S. unfold linear_interpolate, lerp. rewrite !(law_diff _ L), eps12_R. rnum.
    rewrite (Rabs_right (pos (fst q) - pos (fst p))) by lra.
    destruct (Rltb_spec (pos (fst q) - pos (fst p)) (1 / 1000000000000)); [lra|].
    f_equal. field. lra.
  Qed.

  Lemma on_line_seg (p q : point) x : pos (fst q) - pos (fst p) > 1 / 1000000000000 ->
    on_line pos p q x (snd p + (snd q - snd p) * ((pos x - pos (fst p)) / (pos (fst q) - pos (fst p)))).
  Proof. intros S. unfold on_line. field. lra. Qed.

  Lemma on_line_unique (p q : point) x y y' : pos (fst q) - pos (fst p) > 0 ->
    on_line pos p q x y -> on_line pos p q x y' -> y = y'.
  Proof.
    unfold on_line. intros S A B.
    assert ((y - y') * (pos (fst q) - pos (fst p)) = 0) by lra.
    apply Rmult_integral in H0. lra.
  Qed.

  Variable nan : R.

  Lemma linear_pillar (pts : list point) l r f x y :
    linear_new pts l r = Ok f -> In (x, y) pts -> linear_at nan f x = Ok y.
  Proof.
    intros N I. apply linear_new_iff in N. destruct N as (NE & S & ->).
    apply In_nth_error in I. destruct I as (i & I).
    unfold linear_at, linear_interpolate_extrapolate. cbn [lin_points lin_left lin_right].
    destruct (List.length pts =? 0)%nat eqn:Z; [apply Nat.eqb_eq in Z; destruct pts; [easy|discriminate]|].
    rewrite (search_found pts x i (x, y) S I eq_refl). cbn [bind].
    now rewrite (at_some _ _ _ I).
  Qed.

  Lemma between_bounds a b t : 0 <= t <= 1 -> Rmin a b <= a + (b - a) * t <= Rmax a b.
  Proof.
    intros T. unfold Rmin, Rmax. destruct (Rle_dec a b); split; nra.
  Qed.

  Lemma linear_between (pts : list point) l r f x p q :
    linear_new pts l r = Ok f -> neighbours pts p q -> pos (fst p) < pos x < pos (fst q) ->
    exists y, linear_at nan f x = Ok y /\ on_line pos p q x y /\ Rmin (snd p) (snd q) <= y <= Rmax (snd p) (snd q).
  Proof.
    intros N Nb B. apply linear_new_iff in N. destruct N as (NE & S & ->).
    pose proof (S p q Nb) as D. destruct Nb as (i & Np & Nq).
    unfold linear_at, linear_interpolate_extrapolate. cbn [lin_points lin_left lin_right].
    assert (Datatypes.S i < List.length pts)%nat by (apply nth_error_Some; congruence).
    destruct (List.length pts =? 0)%nat eqn:Z; [apply Nat.eqb_eq in Z; lia|].
    rewrite (search_between pts x i p q S Np Nq B). cbn [bind].
    destruct (List.length pts <=? Datatypes.S i)%nat eqn:Z2; [apply Nat.leb_le in Z2; lia|].
    cbn [Nat.eqb]. replace (Datatypes.S i - 1)%nat with i by lia.
    rewrite (at_some _ _ _ Np), (at_some _ _ _ Nq). cbn [bind].
    rewrite linear_interpolate_sep by exact D.
    eexists. split; [reflexivity|]. split; [now apply on_line_seg|].
    apply between_bounds. split.
    - apply Rmult_le_pos; [lra|]. apply Rlt_le, Rinv_0_lt_compat. lra.
    - apply (Rmult_le_reg_r (pos (fst q) - pos (fst p))); [lra|].
      unfold Rdiv. rewrite Rmult_assoc, Rinv_l by lra. lra.
  Qed.

  (** Where a point in the range can be. *)
  Lemma within_cases (pts : list point) x : within pos pts x ->
    (exists p, In p pts /\ pos (fst p) = pos x) \/ (exists p q, neighbours pts p q /\ pos (fst p) < pos x < pos (fst q)).
  Proof.
    intros (p & q & F & La & B). unfold first_point, last_point in *.
    revert p F B La. induction pts as [|a pts IH]; intros p F B La; [discriminate|].
    inversion F; subst a; clear F. destruct pts as [|b pts].
    - cbn in La. inversion La; subst q. left. exists p. split; [now left|lra].
    - assert (La' : nth_error (b :: pts) (List.length (b :: pts) - 1) = Some q).
      { cbn [List.length] in *. replace (Datatypes.S (Datatypes.S (List.length pts)) - 1)%nat
          with (Datatypes.S (List.length pts)) in La by lia.
        replace (Datatypes.S (List.length pts) - 1)%nat with (List.length pts) by lia. exact La. }
      destruct (Rle_lt_dec (pos (fst b)) (pos x)) as [C|C].
      + destruct (IH b eq_refl (conj C (proj2 B)) La') as [(r & I & E)|(r & s & N & E)].
        * left. exists r. split; [now right|exact E].
        * right. exists r, s. split; [|exact E]. apply neighbours_cons. now right.
      + destruct (Req_dec (pos (fst p)) (pos x)) as [E|NE].
        * left. exists p. split; [now left|exact E].
        * right. exists p, b. split; [|lra]. now exists O.
  Qed.

  Lemma found_pillar (pts : list point) l r f x p :
    linear_new pts l r = Ok f -> In p pts -> pos (fst p) = pos x -> linear_at nan f x = Ok (snd p).
  Proof.
    intros N I E. apply linear_new_iff in N. destruct N as (NE & S & ->).
    apply In_nth_error in I. destruct I as (i & I).
    unfold linear_at, linear_interpolate_extrapolate. cbn [lin_points lin_left lin_right].
    destruct (List.length pts =? 0)%nat eqn:Z; [apply Nat.eqb_eq in Z; destruct pts; [easy|discriminate]|].
    rewrite (search_found pts x i p S I E). cbn [bind]. now rewrite (at_some _ _ _ I).
  Qed.

  Lemma linear_affine (pts : list point) l r f x a b :
    linear_new pts l r = Ok f -> (forall p, In p pts -> snd p = a * pos (fst p) + b) -> within pos pts x ->
    linear_at nan f x = Ok (a * pos x + b).
  Proof.
    intros N A W. destruct (within_cases pts x W) as [(p & I & E)|(p & q & Nb & B)].
    - rewrite (found_pillar pts l r f x p N I E). rewrite (A p I), E. reflexivity.
    - destruct (linear_between pts l r f x p q N Nb B) as (y & -> & O & _). f_equal.
      destruct Nb as (i & Np & Nq). apply nth_error_In in Np, Nq.
      apply (on_line_unique p q x); [lra|exact O|]. unfold on_line. rewrite (A p Np), (A q Nq). ring.
  Qed.

  (** ** Slopes *)

  (** The interpolant as a recursion along the points. *)
  Fixpoint poly_line (p : point) (pts : list point) (x : R) : R :=
    match pts with
    | [] => snd p
    | q :: rest =>
        if Rle_dec x (pos (fst q)) then snd p + (snd q - snd p) * ((x - pos (fst p)) / (pos (fst q) - pos (fst p)))
        else poly_line q rest x
    end.

  Lemma poly_line_at_start pts p : separated pos (p :: pts) -> poly_line p pts (pos (fst p)) = snd p.
  Proof.
    destruct pts as [|q pts]; intros S; cbn; [reflexivity|].
    apply separated_cons2 in S. destruct S as (D & _).
    destruct Rle_dec; [|lra]. field. lra.
  Qed.

  Lemma poly_line_pillar pts : forall p, separated pos (p :: pts) -> forall q, In q (p :: pts) ->
    poly_line p pts (pos (fst q)) = snd q.
  Proof.
    induction pts as [|b pts IH]; intros p S q I.
    - destruct I as [<-|[]]. now apply poly_line_at_start.
    - destruct I as [<-|I]; [now apply poly_line_at_start|].
      pose proof S as S0. apply separated_cons2 in S. destruct S as (D & S). cbn [poly_line].
      destruct Rle_dec as [C|C]; [|now apply IH].
      destruct I as [<-|I]; [field; lra|].
      apply In_nth_error in I. destruct I as (i & I).
      assert (pos (fst b) < pos (fst q)) by (eapply (sep_lt (b :: pts) S (Datatypes.S i) 0); eauto; lia). lra.
  Qed.

  Lemma poly_line_between pts : forall p, separated pos (p :: pts) -> forall a b x,
    neighbours (p :: pts) a b -> pos (fst a) < x < pos (fst b) ->
    poly_line p pts x = snd a + (snd b - snd a) * ((x - pos (fst a)) / (pos (fst b) - pos (fst a))).
  Proof.
    induction pts as [|q pts IH]; intros p S a b x N B.
    - destruct N as (i & A & C). cbn in C. destruct i; discriminate.
    - pose proof S as S0. apply separated_cons2 in S. destruct S as (D & S). cbn [poly_line].
      apply neighbours_cons in N. destruct N as [(-> & N)|N].
      + cbn in N. inversion N; subst b. destruct Rle_dec; [reflexivity|lra].
      + destruct Rle_dec as [C|C]; [|now apply IH].
        destruct N as (i & Na & Nb). destruct i as [|i].
        * cbn in Na. inversion Na; subst a. lra.
        * assert (pos (fst q) < pos (fst a)) by (eapply (sep_lt (q :: pts) S (Datatypes.S i) 0); eauto; lia). lra.
  Qed.

  Lemma poly_line_spec p pts l r f x : linear_new (p :: pts) l r = Ok f -> within pos (p :: pts) x ->
    linear_at nan f x = Ok (poly_line p pts (pos x)).
  Proof.
    intros N W. pose proof N as N0. apply linear_new_iff in N0. destruct N0 as (_ & S & _).
    destruct (within_cases _ x W) as [(q & I & E)|(a & b & Nb & B)].
    - rewrite (found_pillar _ l r f x q N I E). now rewrite <- E, poly_line_pillar.
    - destruct (linear_between _ l r f x a b N Nb B) as (y & -> & O & _). f_equal.
      rewrite (poly_line_between pts p S a b (pos x) Nb B).
      pose proof (S a b Nb). apply (on_line_unique a b x); [lra|exact O|now apply on_line_seg].
  Qed.

  Lemma seg_slope m M d0 d1 h : 0 < h -> m * h <= d1 <= M * h -> 0 <= d0 ->
    m * d0 <= d1 * (d0 / h) <= M * d0.
  Proof.
    intros Hh (A & B) D.
    assert (0 <= d0 / h) by (apply Rmult_le_pos; [lra|apply Rlt_le, Rinv_0_lt_compat; lra]).
    replace (m * d0) with (m * h * (d0 / h)) by (field; lra).
    replace (M * d0) with (M * h * (d0 / h)) by (field; lra).
    split; apply Rmult_le_compat_r; lra.
  Qed.

  Lemma poly_line_slope m M pts : forall p, separated pos (p :: pts) -> slopes_between pos m M (p :: pts) ->
    forall x x', pos (fst p) <= x -> x <= x' -> x' <= pos (fst (last pts p)) ->
    m * (x' - x) <= poly_line p pts x' - poly_line p pts x <= M * (x' - x).
  Proof.
    induction pts as [|q pts IH]; intros p S B x x' Lo O Hi.
    - cbn in *. replace (x' - x) with 0 by lra. lra.
    - assert (Bt : slopes_between pos m M (q :: pts)).
      { intros a b N. apply B. apply neighbours_cons. now right. }
      assert (D1 := B p q ltac:(now exists 0%nat)).
      pose proof S as S0. apply separated_cons2 in S. destruct S as (D & S).
      assert (Hi' : x' <= pos (fst (last pts q))).
      { now rewrite last_cons in Hi. }
      assert (Qlast : pos (fst q) <= pos (fst (last pts q))).
      { destruct pts as [|r pts']; [cbn; lra|].
        assert (exists i, nth_error (q :: r :: pts') (Datatypes.S i) = Some (last (r :: pts') q)) as (i & Ei).
        { assert (In (last (r :: pts') q) (r :: pts')).
          { apply last_in. }
          apply In_nth_error in H0. destruct H0 as (i & Hi0). now exists i. }
        assert (pos (fst q) < pos (fst (last (r :: pts') q)))
          by (eapply (sep_lt (q :: r :: pts') S (Datatypes.S i) 0); eauto; lia). lra. }
      cbn [poly_line]. destruct (Rle_dec x' (pos (fst q))) as [C'|C']; destruct (Rle_dec x (pos (fst q))) as [C|C]; try lra.
      + replace (snd p + (snd q - snd p) * ((x' - pos (fst p)) / (pos (fst q) - pos (fst p)))
                 - (snd p + (snd q - snd p) * ((x - pos (fst p)) / (pos (fst q) - pos (fst p)))))
          with ((snd q - snd p) * ((x' - x) / (pos (fst q) - pos (fst p)))) by (field; lra).
        apply seg_slope; lra.
      + assert (U : m * (x' - pos (fst q)) <= poly_line q pts x' - poly_line q pts (pos (fst q)) <= M * (x' - pos (fst q)))
          by (apply IH; try assumption; lra).
        rewrite poly_line_at_start in U by exact S.
        assert (V : m * (pos (fst q) - x) <= (snd q - snd p) * ((pos (fst q) - x) / (pos (fst q) - pos (fst p)))
                    <= M * (pos (fst q) - x)) by (apply seg_slope; lra).
        replace ((snd q - snd p) * ((pos (fst q) - x) / (pos (fst q) - pos (fst p))))
          with (snd q - (snd p + (snd q - snd p) * ((x - pos (fst p)) / (pos (fst q) - pos (fst p))))) in V by (field; lra).
        nra.
      + apply IH; try assumption; lra.
  Qed.

  Lemma last_point_last p (pts : list point) q : last_point (p :: pts) q -> q = last pts p.
  Proof.
    unfold last_point. cbn [List.length]. rewrite Nat.sub_succ, Nat.sub_0_r.
    revert p. induction pts as [|a pts IH]; intros p; cbn [List.length nth_error].
    - intros E. now inversion E.
    - intros E. rewrite (IH a E). now rewrite last_cons.
  Qed.

  Lemma linear_slopes (pts : list point) l r f m M x x' y y' :
    linear_new pts l r = Ok f -> slopes_between pos m M pts -> within pos pts x -> within pos pts x' -> pos x <= pos x' ->
    linear_at nan f x = Ok y -> linear_at nan f x' = Ok y' ->
    m * (pos x' - pos x) <= y' - y <= M * (pos x' - pos x).
  Proof.
    intros N B W W' O E E'. destruct pts as [|p pts]; [destruct W as (? & ? & F & _); discriminate|].
    rewrite (poly_line_spec p pts l r f x N W) in E. rewrite (poly_line_spec p pts l r f x' N W') in E'.
    inversion E; inversion E'; subst. apply linear_new_iff in N. destruct N as (_ & S & _).
    destruct W as (a & b & F & La & W). destruct W' as (a' & b' & F' & La' & W').
    inversion F; subst a. inversion F'; subst a'.
    apply last_point_last in La'. subst b'.
    apply poly_line_slope; try assumption; lra.
  Qed.

  (** ** Outside the range *)

  Lemma linear_left (pts : list point) l r f x p :
    linear_new pts l r = Ok f -> first_point pts p -> pos x < pos (fst p) ->
    l <> Natural -> linear_at nan f x = extrapolate nan l (snd p).
  Proof.
    intros N F B NN. apply linear_new_iff in N. destruct N as (NE & S & ->).
    unfold linear_at, linear_interpolate_extrapolate. cbn [lin_points lin_left lin_right].
    destruct (List.length pts =? 0)%nat eqn:Z; [apply Nat.eqb_eq in Z; destruct pts; [easy|discriminate]|].
    rewrite (search_left pts x p S F B). cbn [Nat.eqb]. rewrite (at_some _ _ _ F). cbn [bind].
    destruct l; try reflexivity. now elim NN.
  Qed.

  Lemma linear_left_natural (pts : list point) r f x p q :
    linear_new pts Natural r = Ok f -> first_two pts p q -> pos x < pos (fst p) ->
    exists y, linear_at nan f x = Ok y /\ on_line pos p q x y.
  Proof.
    intros N (F & F2) B. apply linear_new_iff in N. destruct N as (NE & S & ->).
    assert (1 < List.length pts)%nat by (apply nth_error_Some; congruence).
    unfold linear_at, linear_interpolate_extrapolate. cbn [lin_points lin_left lin_right].
    destruct (List.length pts =? 0)%nat eqn:Z; [apply Nat.eqb_eq in Z; lia|].
    rewrite (search_left pts x p S F B). cbn [Nat.eqb]. rewrite (at_some _ _ _ F), (at_some _ _ _ F2). cbn [bind is_natural].
    destruct (1 <? List.length pts)%nat eqn:Z1; [|apply Nat.ltb_ge in Z1; lia]. cbn [andb].
    assert (D : pos (fst q) - pos (fst p) > 1 / 1000000000000) by (apply S; exists O; auto).
    rewrite linear_interpolate_sep by exact D.
    eexists. split; [reflexivity|]. now apply on_line_seg.
  Qed.

  Lemma linear_right (pts : list point) l r f x p :
    linear_new pts l r = Ok f -> last_point pts p -> pos (fst p) < pos x ->
    l <> Natural -> linear_at nan f x = extrapolate nan r (snd p).
  Proof.
    intros N F B NN. apply linear_new_iff in N. destruct N as (NE & S & ->).
    unfold linear_at, linear_interpolate_extrapolate. cbn [lin_points lin_left lin_right].
    destruct (List.length pts =? 0)%nat eqn:Z; [apply Nat.eqb_eq in Z; destruct pts; [easy|discriminate]|].
    rewrite (search_right pts x p S F B). cbn [bind]. rewrite Z, Nat.leb_refl. unfold last_point in F. rewrite (at_some _ _ _ F). cbn [bind].
    destruct l; try reflexivity. now elim NN.
  Qed.

  Lemma linear_right_natural (pts : list point) r f x p q :
    linear_new pts Natural r = Ok f -> last_two pts p q -> pos (fst q) < pos x ->
    exists y, linear_at nan f x = Ok y /\ on_line pos p q x y.
  Proof.
    intros N (Len & F & F2) B. apply linear_new_iff in N. destruct N as (NE & S & ->).
    unfold linear_at, linear_interpolate_extrapolate. cbn [lin_points lin_left lin_right].
    destruct (List.length pts =? 0)%nat eqn:Z; [apply Nat.eqb_eq in Z; lia|].
    rewrite (search_right pts x q S F2 B). cbn [bind]. rewrite Z, Nat.leb_refl, (at_some _ _ _ F), (at_some _ _ _ F2).
    cbn [bind is_natural].
    destruct (1 <? List.length pts)%nat eqn:Z1; [|apply Nat.ltb_ge in Z1; lia]. cbn [andb].
    assert (D : pos (fst q) - pos (fst p) > 1 / 1000000000000).
    { apply S. exists (List.length pts - 2)%nat. split; [exact F|].
      now replace (Datatypes.S (List.length pts - 2)) with (List.length pts - 1)%nat by lia. }
    rewrite linear_interpolate_sep by exact D.
    eexists. split; [reflexivity|]. now apply on_line_seg.
  Qed.

  Lemma linear_single (p : point) l r f x : linear_new [p] l r = Ok f -> pos (fst p) <> pos x ->
    linear_at nan f x = extrapolate nan (if Rlt_dec (pos x) (pos (fst p)) then l else r) (snd p).
  Proof.
    intros N NE. apply linear_new_iff in N. destruct N as (_ & S & ->).
    unfold linear_at, linear_interpolate_extrapolate. cbn [lin_points lin_left lin_right List.length Nat.eqb].
    destruct Rlt_dec as [A|A].
    - rewrite (search_left [p] x p S eq_refl A). cbn. now rewrite andb_false_r.
    - assert (B : pos (fst p) < pos x) by lra.
      rewrite (search_right [p] x p S eq_refl B). cbn. now rewrite andb_false_r.
  Qed.
End Law.
