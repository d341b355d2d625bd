(** Statement-level forms for P_Interp, and the counterexamples. *)
From Coq Require Import ZArith List String Bool Lia Reals Lra.
From Coq.Floats Require Import SpecFloat.
From Verif Require Import Prelude Num L_Num M_Search L_Search M_Interp S_Interp L_Interp L_Spline.
Import ListNotations.
Open Scope list_scope.
Open Scope R_scope.

Lemma extrapolate_obeys nan e (y : R) : obeys nan e y (extrapolate nan e y).
Proof. destruct e; cbn; eauto. Qed.

Section Law.
  Context {X : Type} `{Interpolable X R} (pos : X -> R) (L : lawful pos) (nan : R).
  Notation point := (X * R)%type.

  Lemma linear_left_obeys (pts : list point) l r f x p :
    linear_new pts l r = Ok f -> first_point pts p -> pos x < pos (fst p) ->
    l <> Natural -> obeys nan l (snd p) (linear_at nan f x).
  Proof. intros. rewrite (linear_left pos L nan pts l r f x p) by assumption. apply extrapolate_obeys. Qed.

  Lemma linear_right_obeys (pts : list point) l r f x p :
    linear_new pts l r = Ok f -> last_point pts p -> pos (fst p) < pos x ->
    l <> Natural -> obeys nan r (snd p) (linear_at nan f x).
  Proof. intros. rewrite (linear_right pos L nan pts l r f x p) by assumption. apply extrapolate_obeys. Qed.

  Lemma linear_single_obeys (p : point) l r f x : linear_new [p] l r = Ok f ->
    (pos x < pos (fst p) -> obeys nan l (snd p) (linear_at nan f x)) /\
    (pos (fst p) < pos x -> obeys nan r (snd p) (linear_at nan f x)).
  Proof.
    intros N. split; intros B; rewrite (linear_single pos L nan p l r f x N) by lra;
      destruct Rlt_dec; try lra; apply extrapolate_obeys.
  Qed.

  Lemma linear_affine_natural (pts : list point) r f x a b :
    linear_new pts Natural r = Ok f -> (1 < List.length pts)%nat ->
    (forall p, In p pts -> snd p = a * pos (fst p) + b) ->
    linear_at nan f x = Ok (a * pos x + b).
  Proof.
    intros N Len A. destruct pts as [|p0 [|p1 pts]]; cbn in Len; try lia.
    set (all := p0 :: p1 :: pts) in *.
    pose proof N as N0. apply (linear_new_iff pos L) in N0. destruct N0 as (_ & S & _).
    destruct (Rlt_dec (pos x) (pos (fst p0))) as [B|B].
    - destruct (linear_left_natural pos L nan all r f x p0 p1 N (conj eq_refl eq_refl) B) as (y & -> & O).
      f_equal. apply (on_line_unique pos p0 p1 x).
      + assert (pos (fst p0) < pos (fst p1)) by (apply (sep_lt pos all S 1 0); auto). lra.
      + exact O.
      + unfold on_line. rewrite (A p0), (A p1) by (cbn; tauto). ring.
    - assert (Hn : exists pm pn, last_two all pm pn).
      { unfold last_two, all. cbn [List.length].
        destruct (nth_error (p0 :: p1 :: pts) (Datatypes.S (Datatypes.S (List.length pts)) - 2)) as [u|] eqn:U;
          [|apply nth_error_None in U; cbn [List.length] in U; lia].
        destruct (nth_error (p0 :: p1 :: pts) (Datatypes.S (Datatypes.S (List.length pts)) - 1)) as [v|] eqn:V;
          [|apply nth_error_None in V; cbn [List.length] in V; lia].
        exists u, v. split; [lia|]. split; reflexivity. }
      destruct Hn as (pm & pn & Hn). pose proof Hn as (_ & Nm & Nn).
      destruct (Rlt_dec (pos (fst pn)) (pos x)) as [B'|B'].
      + destruct (linear_right_natural pos L nan all r f x pm pn N Hn B') as (y & -> & O).
        f_equal. apply (on_line_unique pos pm pn x).
        * assert (pos (fst pm) < pos (fst pn)).
          { eapply (sep_lt pos all S (List.length all - 1) (List.length all - 2)); eauto. cbn. lia. }
          lra.
        * exact O.
        * unfold on_line. rewrite (A pm), (A pn) by (eapply nth_error_In; eauto). ring.
      + apply (linear_affine pos L nan all Natural r f x a b N A).
        exists p0, pn. split; [reflexivity|]. split; [exact Nn|lra].
  Qed.

  (** The whole shape of a natural spline. *)
  Lemma spline_natural (pts : list point) s : spline_new pts Natural Natural = Ok s ->
    exists pieces, natural_spline pos pts pieces /\
      (forall i c x, nth_error pieces i = Some c -> on_piece pos pts i x -> spline_at nan s x = Ok (value c (pos x))) /\
      (forall p c x, first_point pts p -> nth_error pieces 0 = Some c -> pos x < pos (fst p) ->
         spline_at nan s x = Ok (value c (pos x))) /\
      (forall p c x, last_point pts p -> nth_error pieces (List.length pieces - 1) = Some c -> pos (fst p) < pos x ->
         spline_at nan s x = Ok (value c (pos x))).
  Proof.
    intros N. pose proof (spline_new_sep pos L _ _ _ _ N) as S.
    destruct pts as [|p [|q pts]]; [discriminate|discriminate|].
    destruct (natural_spline_pieces pos L p q pts s N) as (ms & Len & Sec & NS).
    destruct (spline_new_pieces pos L p q pts Natural Natural s N) as (_ & E1 & E2 & E3 & _).
    destruct s as [sl sr sp ss]. cbn in *. subst.
    exists (pieces pos p (q :: pts) 0 ms). split; [exact NS|]. split; [|split].
    - intros i c x C O. now apply (spline_on_piece pos L nan p (q :: pts) 0 ms Natural Natural i x c).
    - intros a c x A C B. cbn in A. inversion A; subst a.
      now rewrite (spline_left_of pos L nan p q pts 0 ms Natural Natural x c S Len B C).
    - intros a c x A C B.
      now rewrite (spline_right_of pos L nan p q pts 0 ms Natural Natural x c a S Len A B C).
  Qed.

  Lemma spline_natural_unique (pts : list point) cs cs' : (1 < List.length pts)%nat -> separated pos pts ->
    natural_spline pos pts cs -> natural_spline pos pts cs' -> cs = cs'.
  Proof.
    intros Len S A B. destruct pts as [|p [|q pts]]; cbn in Len; try lia.
    assert (exists s, spline_new (p :: q :: pts) Natural Natural = Ok s) as (s & N).
    { unfold spline_new.
      assert (E : validate_abscissae (p :: q :: pts) = Ok tt) by (apply (validate_iff pos L); split; [discriminate|exact S]).
      rewrite E. cbn [bind]. unfold nr_spline. cbn [is_natural].
      destruct (last _ _) as (? & ?). cbn [bind]. eauto. }
    destruct (natural_spline_pieces pos L p q pts s N) as (ms & Lm & _ & NS).
    rewrite (natural_unique pos L p q pts ms cs S Lm NS A). symmetry.
    now apply (natural_unique pos L p q pts ms cs' S Lm NS).
  Qed.

  Lemma spline_affine (pts : list point) s a b x : spline_new pts Natural Natural = Ok s ->
    (forall p, In p pts -> snd p = a * pos (fst p) + b) -> spline_at nan s x = Ok (a * pos x + b).
  Proof.
    intros N A. pose proof (spline_new_sep pos L _ _ _ _ N) as S.
    destruct pts as [|p [|q pts]]; [discriminate|discriminate|].
    destruct (spline_natural _ s N) as (cs & NS & In_ & Le & Ri).
    set (all := p :: q :: pts) in *.
    set (line := Cubic b a 0 0).
    assert (V : forall z, value line z = a * z + b) by (intros; unfold value, line; cbn; ring).
    assert (NL : natural_spline pos all (repeat line (List.length (q :: pts)))).
    { assert (E : forall i c, nth_error (repeat line (List.length (q :: pts))) i = Some c -> c = line).
      { intros i c C. apply nth_error_In in C. now apply repeat_spec in C. }
      split; [|split; [|split; [|split]]].
      - split; [now rewrite repeat_length|]. intros i u v c Nu Nv C. apply E in C. subst c.
        rewrite !V. apply nth_error_In in Nu, Nv. split; symmetry; now apply A.
      - intros i u c d _ _ C D. apply E in C, D. now subst.
      - intros i u c d _ C D. apply E in C, D. now subst.
      - intros u c _ C. apply E in C. subst. unfold curvature, line; cbn. ring.
      - intros u c _ C. apply E in C. subst. unfold curvature, line; cbn. ring. }
    assert (Q : cs = repeat line (List.length (q :: pts))) by (apply (spline_natural_unique all); auto; cbn; lia).
    subst cs. rewrite <- V.
    assert (Lr : forall i, (i < List.length (q :: pts))%nat -> nth_error (repeat line (List.length (q :: pts))) i = Some line).
    { clear. generalize (List.length (q :: pts)). induction n as [|n IH]; intros [|i] Hi; cbn; try lia; auto. apply IH. lia. }
    assert (Hl : exists e, last_point all e).
    { unfold last_point, all. destruct (nth_error (p :: q :: pts) (List.length (p :: q :: pts) - 1)) as [e|] eqn:E; [eauto|].
      apply nth_error_None in E. cbn [List.length] in E. lia. }
    destruct Hl as (e & He).
    destruct (Rlt_dec (pos x) (pos (fst p))) as [B|B].
    - apply (Le p line x); [reflexivity|apply Lr; cbn; lia|exact B].
    - destruct (Rlt_dec (pos (fst e)) (pos x)) as [B'|B'].
      + apply (Ri e line x He); [|exact B']. rewrite repeat_length. apply Lr. cbn. lia.
      + destruct (within_cases pos all x) as [(u & Iu & Eu)|(u & v & (i & Nu & Nv) & Bt)].
        { exists p, e. split; [reflexivity|]. split; [exact He|lra]. }
        * apply In_nth_error in Iu. destruct Iu as (i & Nu). destruct i as [|i].
          -- apply (In_ 0%nat line x); [apply Lr; cbn; lia|]. exists p, q. split; [reflexivity|]. split; [reflexivity|].
             cbn in Nu. inversion Nu; subst u.
             assert (pos (fst p) < pos (fst q)) by (apply (sep_lt pos all S 1 0); auto). lra.
          -- destruct (nth_error all i) as [w|] eqn:Nw.
             2:{ apply nth_error_None in Nw. assert (nth_error all (Datatypes.S i) <> None) by congruence.
                 apply nth_error_Some in H0. lia. }
             apply (In_ i line x).
             ++ apply Lr. assert (nth_error all (Datatypes.S i) <> None) by congruence.
                apply nth_error_Some in H0. unfold all in H0. cbn [List.length] in *. lia.
             ++ exists w, u. split; [exact Nw|]. split; [exact Nu|].
                assert (pos (fst w) < pos (fst u)) by (eapply (sep_lt pos all S (Datatypes.S i) i); eauto). lra.
        * apply (In_ i line x).
          -- apply Lr. assert (nth_error all (Datatypes.S i) <> None) by congruence.
             apply nth_error_Some in H0. unfold all in H0. cbn [List.length] in *. lia.
          -- exists u, v. split; [exact Nu|]. split; [exact Nv|lra].
  Qed.

  Lemma spline_clamped_right (pts : list point) r s : r <> Natural -> spline_new pts Natural r = Ok s ->
    exists pieces, through pos pts pieces /\ slopes_join pos 1 pts pieces /\ curvatures_join pos pts pieces /\
      at_first pos pts pieces (fun c x => curvature c x = 0) /\
      at_last pos pts pieces (fun c x => slope c x = 0) /\
      (forall i c x, nth_error pieces i = Some c -> on_piece pos pts i x -> spline_at nan s x = Ok (value c (pos x))).
  Proof.
    intros NR N. pose proof (spline_new_sep pos L _ _ _ _ N) as S.
    destruct pts as [|p [|q pts]]; [discriminate|discriminate|].
    destruct (natural_pieces pos L p q pts r s N) as (m1 & ms & Len & Sec & T & La & _).
    destruct (spline_new_pieces pos L p q pts Natural r s N) as (_ & E1 & E2 & E3 & _).
    destruct s as [sl sr sp ss]. cbn [sp_left sp_right sp_points sp_second] in *. subst.
    exists (pieces pos p (q :: pts) 0 (m1 :: ms)).
    split; [now apply pieces_through|]. split; [now apply tri_slopes|]. split; [now apply pieces_curvatures|].
    split; [now apply first_curvature|]. split.
    - destruct r; try exact La. now elim NR.
    - intros i c x C O. now apply (spline_on_piece pos L nan p (q :: pts) 0 (m1 :: ms) Natural r i x c).
  Qed.

  Lemma spline_clamped_left (pts : list point) l r s : l <> Natural -> spline_new pts l r = Ok s ->
    exists pieces, through pos pts pieces /\ slopes_join pos 2 pts pieces /\ curvatures_join pos pts pieces /\
      at_first pos pts pieces (fun c x => curvature c x = - / 2) /\
      (forall i c x, nth_error pieces i = Some c -> on_piece pos pts i x -> spline_at nan s x = Ok (value c (pos x))).
  Proof.
    intros NR N. pose proof (spline_new_sep pos L _ _ _ _ N) as S.
    destruct pts as [|p [|q pts]]; [discriminate|discriminate|].
    destruct (spline_new_pieces pos L p q pts l r s N) as (_ & E1 & E2 & E3 & m1 & ms & final & Len & K).
    destruct (start_factors pos l p q) as (y2, u) eqn:SF. destruct K as (Sec & T & _).
    assert (Y : y2 = - / 2).
    { unfold start_factors in SF. destruct l; cbn in SF; try (now elim NR); inversion SF; lra. }
    destruct s as [sl sr sp ss]. cbn [sp_left sp_right sp_points sp_second] in *. subst.
    exists (pieces pos p (q :: pts) (- / 2) (m1 :: ms)).
    split; [now apply pieces_through|]. split; [eapply tri_slopes2; eassumption|]. split; [now apply pieces_curvatures|].
    split; [now apply first_curvature|].
    intros i c x C O. now apply (spline_on_piece pos L nan p (q :: pts) (- / 2) (m1 :: ms) l r i x c).
  Qed.

  (** Beyond the ends, when not natural on the left. *)
  Lemma spline_outside (pts : list point) l r s x p e : l <> Natural -> spline_new pts l r = Ok s ->
    first_point pts p -> last_point pts e ->
    (pos x < pos (fst p) -> obeys nan l (snd p) (spline_at nan s x)) /\
    (pos (fst e) < pos x -> obeys nan r (snd e) (spline_at nan s x)).
  Proof.
    intros NR N F La. pose proof (spline_new_sep pos L _ _ _ _ N) as S.
    destruct pts as [|p' [|q pts]]; [discriminate|discriminate|]. cbn in F. inversion F; subst p'.
    destruct (spline_new_pieces pos L p q pts l r s N) as (_ & E1 & E2 & E3 & m1 & ms & final & Len & K).
    destruct (start_factors pos l p q) as (y2, u). destruct K as (Sec & _).
    destruct s as [sl sr sp ss]. cbn [sp_left sp_right sp_points sp_second] in *. subst.
    destruct (pieces_last_nth pos p q pts y2 (m1 :: ms) Len) as (c & Hc).
    split; intros B.
    - rewrite (spline_left_of pos L nan p q pts y2 (m1 :: ms) l r x (piece pos p q y2 m1) S Len B eq_refl).
      destruct l; try apply extrapolate_obeys. now elim NR.
    - rewrite (spline_right_of pos L nan p q pts y2 (m1 :: ms) l r x c e S Len La B Hc).
      destruct l; try apply extrapolate_obeys. now elim NR.
  Qed.
End Law.

(** ** Witnesses *)

Definition two_points : list (R * R) := [(0, 0); (1, 1)].

Lemma two_sep (a b : R) : separated (fun x : R => x) [(0, a); (1, b)].
Proof.
  intros p q (i & P & Q). destruct i as [|i]; [|cbn in Q; destruct i; discriminate].
  cbn in P, Q. inversion P; inversion Q; subst. cbn. lra.
Qed.

Lemma two_new a b l r : linear_new [(0, a); (1, b)] l r = Ok (mkLinear l r [(0, a); (1, b)]).
Proof. apply (linear_new_iff _ lawful_R). split; [discriminate|]. split; [apply two_sep|reflexivity]. Qed.

(** A Throw policy on the right is ignored, and a natural one refused, according to the policy on the left. *)
Lemma right_policy_cases :
  (exists f, linear_new two_points Natural Throw = Ok f /\ forall nan, linear_at nan f 2 = Ok 2) /\
  (exists f m, linear_new two_points Flat Natural = Ok f /\ forall nan, linear_at nan f 2 = Err m).
Proof.
  split.
  - eexists. split; [apply two_new|]. intros nan.
    destruct (linear_right_natural _ lawful_R nan two_points Throw _ 2 (0, 0) (1, 1) (two_new _ _ _ _)) as (y & -> & O).
    + split; [cbn; lia|split; reflexivity].
    + cbn. lra.
    + f_equal. unfold on_line in O. cbn in O. lra.
  - eexists. exists "Natural extrapolation not supported for this interpolation"%string.
    split; [apply two_new|]. intros nan.
    rewrite (linear_right _ lawful_R nan two_points Flat Natural _ 2 (1, 1) (two_new _ _ _ _)); try easy. cbn. lra.
Qed.

(** A clamped spline through zero data is not zero. *)
Lemma clamped_flat_data : exists s, spline_new [(0, 0); (1, 0)] Flat Flat = Ok s /\
  forall nan, spline_at nan s (1 / 2) = Ok (1 / 32).
Proof.
  assert (V : validate_abscissae [(0, 0); (1, 0)] = Ok tt).
  { apply (validate_iff _ lawful_R). split; [discriminate|apply two_sep]. }
  eexists. split.
  - unfold spline_new. rewrite V. cbn [bind is_natural]. reflexivity.
  - intros nan. unfold spline_at. cbn [sp_points sp_left sp_right sp_second].
    rewrite (search_between _ lawful_R [(0, 0); (1, 0)] (1 / 2) 0 (0, 0) (1, 0) (two_sep _ _) eq_refl eq_refl) by (cbn; lra). cbn [bind].
    cbn [Nat.eqb List.length Nat.leb at_ nth_error bind Nat.sub Nat.add spline_backsub spline_decompose snd].
    rewrite (splint_value _ lawful_R) by (cbn; lra). f_equal.
    cbn [spline_backsub spline_decompose last snd fst removelast interp_diff interpolable_num]. rnum.
    unfold value, piece, hermite. cbn [k0 k1 k2 k3 fst snd]. field.
Qed.

(** ** NaN abscissae *)

Lemma F_sub_nan_l x : nsub F_nan x = F_nan.
Proof. destruct x; reflexivity. Qed.
Lemma F_sub_nan_r x : nsub x F_nan = F_nan.
Proof. destruct x; reflexivity. Qed.
Lemma F_ltb_nan x : nltb x F_nan = false.
Proof. destruct x as [s|s| |s m e]; try destruct s; reflexivity. Qed.

Lemma validate_nan_from : forall (pts : list (F64 * F64)) (p : F64 * F64),
  (exists q, In q (p :: pts) /\ fst q = F_nan) -> pts <> [] -> exists m, validate_from (fst p) pts = Err m.
Proof.
  induction pts as [|r pts IH]; intros p (q & I & E) NE; [easy|]. cbn [validate_from].
  destruct (negb _) eqn:B; [eauto|].
  destruct I as [->|I].
  - exfalso. cbn [interp_diff interpolable_num] in B. rewrite E, F_sub_nan_r, F_ltb_nan in B. discriminate.
  - destruct I as [->|I].
    + exfalso. cbn [interp_diff interpolable_num] in B. rewrite E, F_sub_nan_l, F_ltb_nan in B. discriminate.
    + apply IH; [|destruct pts; [easy|discriminate]]. exists q. split; [now right|exact E].
Qed.

Lemma validate_nan (pts : list (F64 * F64)) : (1 < List.length pts)%nat ->
  (exists q, In q pts /\ fst q = F_nan) -> exists m, validate_abscissae pts = Err m.
Proof.
  destruct pts as [|p pts]; cbn [List.length]; [lia|]. intros Len Q. cbn [validate_abscissae].
  apply (validate_nan_from pts p Q). destruct pts; [cbn in Len; lia|discriminate].
Qed.

Lemma load_unvalidated : exists s, spline_load [(1, 0); (0, 1)] Flat Flat = Ok s.
Proof. eexists. unfold spline_load. cbn [is_natural]. reflexivity. Qed.

Lemma spline_new_two l r : exists s, spline_new [(0, 0); (1, 1)] l r = Ok s.
Proof.
  assert (V : validate_abscissae [(0, 0); (1, 1)] = Ok tt).
  { apply (validate_iff _ lawful_R). split; [discriminate|apply two_sep]. }
  unfold spline_new. rewrite V. cbn [bind]. destruct l, r; eexists; reflexivity.
Qed.
