(** Root finding on doubles. *)
From Coq Require Import ZArith List String Bool Lia Reals Lra.
From Coq.Floats Require Import SpecFloat.
From Flocq Require Import Core BinarySingleNaN.
From Verif Require Import Prelude Num M_Brent S_Math S_Double L_Double L_DoubleError L_InterpDouble.
Import ListNotations.
Open Scope list_scope.
Open Scope R_scope.

(** ** In any arithmetic in which a number is not on both sides of zero *)
Section Any.
  Context {T : Type} {NT : Num T}.
  Hypothesis One : forall y : T, nltb n0 y = true -> nltb y n0 = false.

  Lemma same_sign_sym (x y : T) : same_sign x y = same_sign y x.
  Proof. unfold same_sign. destruct (nltb n0 x), (nltb n0 y), (nltb x n0), (nltb y n0); reflexivity. Qed.

  Lemma same_sign_split (x y z : T) : same_sign x z = false -> same_sign y z = true -> same_sign x y = false.
  Proof.
    unfold same_sign. pose proof (One x). pose proof (One y). pose proof (One z).
    destruct (nltb n0 x), (nltb n0 y), (nltb n0 z), (nltb x n0), (nltb y n0), (nltb z n0); cbn in *; auto; try (specialize (H eq_refl)); try (specialize (H0 eq_refl)); try (specialize (H1 eq_refl)); discriminate.
  Qed.

  Definition held (f : T -> res T) (log : list T) (s : brent T) : Prop :=
    (f (ba s) = Ok (bfa s) /\ In (ba s) log) /\ (f (bb s) = Ok (bfb s) /\ In (bb s) log) /\ (f (bc s) = Ok (bfc s) /\ In (bc s) log).

  Definition enclosed_any (f : T -> res T) (tol b : T) (log : list T) : Prop :=
    exists fb, f b = Ok fb /\ In b log /\
      (neqb fb n0 = true \/ exists c fc, f c = Ok fc /\ In c log /\ same_sign fb fc = false /\
        nleb (nabs (nmul (nlit 1 2) (nsub c b))) (nadd (nmul (nmul (nofZ 2) epsilon) (nabs b)) (nmul (nlit 1 2) tol)) = true).

  Lemma prepare_any f log s : held f log s -> (same_sign (bfb s) (bfc s) = true -> same_sign (bfa s) (bfb s) = false) ->
    held f log (brent_prepare s) /\ same_sign (bfb (brent_prepare s)) (bfc (brent_prepare s)) = false.
  Proof.
    intros (A & B & C) O. unfold brent_prepare, rebracket, rotate. destruct (same_sign (bfb s) (bfc s)) eqn:E.
    - specialize (O eq_refl). cbn [ba bb bc bd be bfa bfb bfc].
      destruct nltb; cbn [ba bb bc bd be bfa bfb bfc]; (split; [unfold held; cbn; tauto|]); [exact O|now rewrite same_sign_sym].
    - destruct nltb; cbn [ba bb bc bd be bfa bfb bfc]; (split; [unfold held; cbn; tauto|]); [now rewrite same_sign_sym|exact E].
  Qed.

  Lemma loop_any f tol n : forall s b log log', held f log s ->
    (same_sign (bfb s) (bfc s) = true -> same_sign (bfa s) (bfb s) = false) ->
    brent_loop _ (logged f) tol n s log = (Ok b, log') -> enclosed_any f tol b log'.
  Proof.
    induction n as [|n IH]; intros s b log log' I J E; [discriminate|]. cbn [brent_loop] in E.
    destruct (prepare_any f log s I J) as ((A & B & C) & O). set (s1 := brent_prepare s) in *.
    destruct (nleb (nabs (brent_xm s1)) (brent_tol tol s1) || neqb (bfb s1) n0) eqn:K.
    - inversion E; subst b log'. exists (bfb s1). split; [apply B|]. split; [apply B|].
      apply orb_true_iff in K. destruct K as [K|K]; [right|now left].
      exists (bc s1), (bfc s1). split; [apply C|]. split; [apply C|]. split; [exact O|exact K].
    - destruct (brent_de (brent_tol tol s1) s1) as (d, e). unfold logged at 1 in E.
      destruct (f (brent_trial (brent_tol tol s1) d s1)) as [y| |] eqn:F; try discriminate.
      apply IH in E; [exact E| |].
      + unfold held; cbn [ba bb bc bfa bfb bfc In]. tauto.
      + cbn [bfa bfb bfc]. intros SS. exact (same_sign_split _ _ _ O SS).
  Qed.

  Lemma zbrent_any nan x1 x2 tol n f b log : zbrent _ (logged f) nan x1 x2 tol n [] = (Ok b, log) -> enclosed_any f tol b log.
  Proof.
    unfold zbrent, logged at 1 2. destruct (f x1) as [fa| |] eqn:A; try discriminate.
    destruct (f x2) as [fb| |] eqn:B; try discriminate. destruct (same_sign fa fb) eqn:S; [discriminate|].
    intros E. apply loop_any in E; [exact E| |].
    - unfold held. cbn. tauto.
    - intros _. exact S.
  Qed.
End Any.

(** ** On doubles *)

Lemma one_side (y : F64) : nltb n0 y = true -> nltb y n0 = false.
Proof. destruct y as [|[]| |[]]; reflexivity || discriminate. Qed.

Lemma place_0 : place n0 = 0.
Proof. reflexivity. Qed.

Lemma zero_number : number n0.
Proof. apply finite_number, zero_spec. Qed.

Lemma opposite_place x y : number x -> number y -> same_sign x y = false -> place x * place y <= 0.
Proof.
  intros X Y S. unfold same_sign in S. apply orb_false_iff in S. destruct S as [P Q].
  pose proof (ltb_place n0 x zero_number X) as A. pose proof (ltb_place n0 y zero_number Y) as B.
  pose proof (ltb_place x n0 X zero_number) as C. pose proof (ltb_place y n0 Y zero_number) as D. rewrite place_0 in *.
  apply andb_false_iff in P. apply andb_false_iff in Q.
  assert (P' : ~ 0 < place x \/ ~ 0 < place y) by (destruct P as [P|P]; [left|right]; intros K; [apply A in K|apply B in K]; congruence).
  assert (Q' : ~ place x < 0 \/ ~ place y < 0) by (destruct Q as [Q|Q]; [left|right]; intros K; [apply C in K|apply D in K]; congruence).
  destruct P' as [P'|P'], Q' as [Q'|Q']; apply Rnot_lt_le in P'; apply Rnot_lt_le in Q'.
  - replace (place x) with 0 by lra. lra.
  - assert (0 <= - place x * place y) by (apply Rmult_le_pos; lra). lra.
  - assert (0 <= place x * - place y) by (apply Rmult_le_pos; lra). lra.
  - replace (place y) with 0 by lra. lra.
Qed.

Lemma half_spec : finite (nlit 1 2) /\ real (nlit 1 2) = / 2.
Proof. split; [split; reflexivity|]. unfold real. change (nlit 1 2 : F64) with (S754_finite false 4503599627370496 (-53)). unfold SF2R, F2R, cond_Zopp, Fnum, Fexp. 
  change (IZR 4503599627370496) with (IZR (Zpower radix2 52)). rewrite IZR_Zpower by lia. rewrite <- bpow_plus. reflexivity. Qed.

Lemma two_eps_spec : finite (nmul (nofZ 2) epsilon) /\ real (nmul (nofZ 2) epsilon) = bpow radix2 (-51).
Proof. split; [split; reflexivity|]. unfold real. change (nmul (nofZ 2) epsilon : F64) with (S754_finite false 4503599627370496 (-103)). unfold SF2R, F2R, cond_Zopp, Fnum, Fexp. 
  change (IZR 4503599627370496) with (IZR (Zpower radix2 52)). rewrite IZR_Zpower by lia. rewrite <- bpow_plus. reflexivity. Qed.

Lemma abs_spec (x : F64) : finite x -> finite (nabs x) /\ real (nabs x) = Rabs (real x).
Proof.
  intros F. destruct (finite_B x F) as (b & <- & Fb & Rb).
  cbn [nabs FNum]. replace (SFabs (B2SF b)) with (B2SF (Babs b)) by (destruct b; reflexivity). rewrite <- Rb. split; [apply finite_of_B; now rewrite is_finite_Babs|].
  rewrite real_of_B. apply B2R_Babs.
Qed.

Lemma gap_bound (b c tol : F64) : modest b -> modest c -> modest tol ->
  nleb (nabs (nmul (nlit 1 2) (nsub c b))) (nadd (nmul (nmul (nofZ 2) epsilon) (nabs b)) (nmul (nlit 1 2) tol)) = true ->
  Rabs (real c - real b) <= (bpow radix2 (-50) * Rabs (real b) + Rabs (real tol)) * (1 + bpow radix2 (-49)) + bpow radix2 (-1072).
Proof.
  intros [Fb Bb] [Fc Bc] [Ft Bt] L.
  destruct half_spec as [Fh Rh], two_eps_spec as [Fe Re]. set (half := nlit 1 2) in *. set (te := nmul (nofZ 2) epsilon) in *. clearbody half te.
  assert (P1000 : 0 < bpow radix2 1000) by apply bpow_gt_0.
  assert (P1001 : bpow radix2 1001 = 2 * bpow radix2 1000) by (change 1001%Z with (1 + 1000)%Z; rewrite bpow_plus; reflexivity).
  assert (D : Rabs (real c - real b) <= bpow radix2 1001).
  { apply Rabs_le_inv in Bb. apply Rabs_le_inv in Bc. apply Rabs_le. lra. }
  destruct (sub_spec c b Fc Fb) as [Fd Rd]; [apply (bound_in_range _ 1001); [lia|exact D]|].
  destruct (rnd_diff_error (real c) (real b) (finite_format _ Fc) (finite_format _ Fb)) as (e1 & H1 & X1). rewrite X1 in Rd.
  assert (Dd : Rabs (real (nsub c b)) <= bpow radix2 1001) by (rewrite Rd, <- X1; apply rnd_bound; [lia|exact D]).
  destruct (mul_spec half (nsub c b) Fh Fd) as [Fx Rx].
  { apply (bound_in_range _ 1001); [lia|]. rewrite Rh, Rabs_mult, (Rabs_right (/ 2)) by lra. pose proof (Rabs_pos (real (nsub c b))). lra. }
  destruct (abs_spec _ Fx) as [Fax Rax]. destruct (abs_spec _ Fb) as [Fab Rab].
  assert (P51 : 0 < bpow radix2 (-51) <= 1). { split; [apply bpow_gt_0|]. change 1 with (bpow radix2 0). apply bpow_le. lia. }
  assert (Bte : Rabs (real te * real (nabs b)) <= bpow radix2 1000).
  { rewrite Re, Rab, Rabs_mult, Rabs_Rabsolu, (Rabs_right (bpow radix2 (-51))) by lra. pose proof (Rabs_pos (real b)). nra. }
  destruct (mul_spec te (nabs b) Fe Fab) as [Fm Rm]; [apply (bound_in_range _ 1000); [lia|exact Bte]|].
  assert (Bht : Rabs (real half * real tol) <= bpow radix2 1000).
  { rewrite Rh, Rabs_mult, (Rabs_right (/ 2)) by lra. pose proof (Rabs_pos (real tol)). lra. }
  destruct (mul_spec half tol Fh Ft) as [Fn Rn]; [apply (bound_in_range _ 1000); [lia|exact Bht]|].
  assert (Bm : Rabs (real (nmul te (nabs b))) <= bpow radix2 1000) by (rewrite Rm; apply rnd_bound; [lia|exact Bte]).
  assert (Bn : Rabs (real (nmul half tol)) <= bpow radix2 1000) by (rewrite Rn; apply rnd_bound; [lia|exact Bht]).
  destruct (add_spec _ _ Fm Fn) as [Fs Rs].
  { apply (bound_in_range _ 1001); [lia|]. eapply Rle_trans; [apply Rabs_triang|]. lra. }
  destruct (rnd_sum_error _ _ (finite_format _ Fm) (finite_format _ Fn)) as (e3 & H3 & X3). rewrite X3 in Rs.
  apply (leb_spec _ _ Fax Fs) in L. rewrite Rax, Rx, Rs, Rm, Rn in L.
  destruct (rnd_error (real half * real (nsub c b))) as (e2 & h2 & H2 & G2 & X2). rewrite X2 in L.
  destruct (rnd_error (real te * real (nabs b))) as (e4 & h4 & H4 & G4 & X4). rewrite X4 in L.
  destruct (rnd_error (real half * real tol)) as (e5 & h5 & H5 & G5 & X5). rewrite X5, Rd, Rh, Re, Rab in L.
  clear X1 X2 X3 X4 X5 Rd Rx Rax Rm Rn Rs Fd Fx Fax Fm Fn Fs.
  pose proof uu_small as [U1 U2]. pose proof tiny_small as [T1 T2].
  assert (Gap : Rabs (real c - real b) * (1 - uu) * (1 - uu) - 2 * tiny <= 2 * Rabs (/ 2 * ((real c - real b) * (1 + e1)) * (1 + e2) + h2)).
  { assert (Q : Rabs (/ 2 * ((real c - real b) * (1 + e1)) * (1 + e2)) = / 2 * (Rabs (real c - real b) * (1 + e1) * (1 + e2))).
    { rewrite !Rabs_mult, (Rabs_right (/ 2)), (Rabs_right (1 + e1)), (Rabs_right (1 + e2)) by (try (apply Rabs_le_inv in H1); try (apply Rabs_le_inv in H2); lra). ring. }
    pose proof (Rabs_triang_inv (/ 2 * ((real c - real b) * (1 + e1)) * (1 + e2)) (- h2)) as TI. rewrite Rabs_Ropp in TI.
    replace (/ 2 * ((real c - real b) * (1 + e1)) * (1 + e2) - - h2) with (/ 2 * ((real c - real b) * (1 + e1)) * (1 + e2) + h2) in TI by ring.
    rewrite Q in TI. pose proof (Rabs_pos (real c - real b)) as AP. apply Rabs_le_inv in H1. apply Rabs_le_inv in H2.
    assert (Rabs (real c - real b) * (1 - uu) <= Rabs (real c - real b) * (1 + e1)) by (apply Rmult_le_compat_l; lra).
    assert (0 <= Rabs (real c - real b) * (1 - uu)) by (apply Rmult_le_pos; lra).
    assert (Rabs (real c - real b) * (1 - uu) * (1 - uu) <= Rabs (real c - real b) * (1 + e1) * (1 + e2)) by (apply Rmult_le_compat; lra).
    lra. }
  set (g := Rabs (real c - real b)) in *. assert (G0 : 0 <= g) by apply Rabs_pos.
  set (lhs := Rabs (/ 2 * _ * _ + h2)) in *. clearbody lhs.
  set (B := bpow radix2 (-50) * Rabs (real b)).
  assert (HB : bpow radix2 (-51) * Rabs (real b) = / 2 * B).
  { unfold B. replace (bpow radix2 (-50)) with (2 * bpow radix2 (-51)) by (change 2 with (bpow radix2 1); rewrite <- bpow_plus; reflexivity). field. }
  rewrite HB in L. assert (B0 : 0 <= B) by (unfold B; apply Rmult_le_pos; [apply bpow_ge_0|apply Rabs_pos]). clearbody B.
  set (t := Rabs (real tol)). assert (Tt : / 2 * real tol * (1 + e5) <= / 2 * t * (1 + uu)).
  { unfold t. apply Rabs_le_inv in H5. pose proof (Rle_abs (real tol)) as RA. pose proof (Rabs_pos (real tol)).
    destruct (Rle_lt_dec 0 (real tol)) as [K|K]; [|nra]. apply Rmult_le_compat; lra. }
  assert (Tb : / 2 * B * (1 + e4) <= / 2 * B * (1 + uu)) by (apply Rabs_le_inv in H4; apply Rmult_le_compat_l; lra).
  assert (t0 : 0 <= t) by apply Rabs_pos. clearbody t.
  apply Rabs_le_inv in G4. apply Rabs_le_inv in G5. apply Rabs_le_inv in H3.
  assert (Rt : (/ 2 * B * (1 + e4) + h4 + (/ 2 * real tol * (1 + e5) + h5)) * (1 + e3) <= (/ 2 * (B + t) * (1 + uu) + 2 * tiny) * (1 + uu)).
  { assert (S0 : / 2 * B * (1 + e4) + h4 + (/ 2 * real tol * (1 + e5) + h5) <= / 2 * (B + t) * (1 + uu) + 2 * tiny) by lra.
    set (z := / 2 * B * (1 + e4) + h4 + (/ 2 * real tol * (1 + e5) + h5)) in *. set (w := / 2 * (B + t) * (1 + uu) + 2 * tiny) in *.
    assert (0 <= w) by (unfold w; nra). apply Rle_trans with (w * (1 + e3)); [apply Rmult_le_compat_r; lra|apply Rmult_le_compat_l; lra]. }
  replace (bpow radix2 (-49)) with (16 * uu). 2: { unfold uu. change (16) with (bpow radix2 4). rewrite <- bpow_plus. reflexivity. }
  replace (bpow radix2 (-1072)) with (8 * tiny). 2: { unfold tiny. change 8 with (bpow radix2 3). rewrite <- bpow_plus. reflexivity. }
  assert (Main : g * ((1 - uu) * (1 - uu)) <= (B + t) * ((1 + uu) * (1 + uu)) + 4 * tiny * (1 + uu) + 2 * tiny) by lra.
  assert (Den : (1 + uu) * (1 + uu) <= (1 + 16 * uu) * ((1 - uu) * (1 - uu))) by nra.
  assert (Den2 : 4 * tiny * (1 + uu) + 2 * tiny <= 8 * tiny * ((1 - uu) * (1 - uu))) by nra.
  apply (Rmult_le_reg_r ((1 - uu) * (1 - uu))); [nra|].
  assert ((B + t) * ((1 + uu) * (1 + uu)) <= (B + t) * ((1 + 16 * uu) * ((1 - uu) * (1 - uu)))) by (apply Rmult_le_compat_l; lra).
  lra.
Qed.

Lemma zbrent_doubles (f : F64 -> res F64) nan x1 x2 tol n b log : (forall x y, f x = Ok y -> number y) -> modest tol ->
  (forall x, In x log -> modest x) -> zbrent _ (logged f) nan x1 x2 tol n [] = (Ok b, log) ->
  exists fb, f b = Ok fb /\ In b log /\
    (place fb = 0 \/ exists c fc, f c = Ok fc /\ In c log /\ place fb * place fc <= 0 /\
      Rabs (real c - real b) <= (bpow radix2 (-50) * Rabs (real b) + Rabs (real tol)) * (1 + bpow radix2 (-49)) + bpow radix2 (-1072)).
Proof.
  intros NN Mt Ml E. destruct (zbrent_any one_side _ _ _ _ _ _ _ _ E) as (fb & Fb & Ib & K). exists fb. split; [exact Fb|]. split; [exact Ib|].
  destruct K as [K|(c & fc & Fc & Ic & S & L)].
  - left. apply (eqb_place fb n0 (NN _ _ Fb) zero_number) in K. exact K.
  - right. exists c, fc. split; [exact Fc|]. split; [exact Ic|]. split; [apply opposite_place; eauto|]. apply gap_bound; auto.
Qed.

(** A function that is NaN at the second point is solved at once. *)
Lemma tol_nonneg (b tol : F64) : modest b -> modest tol -> 0 <= real tol ->
  nleb (nabs (nmul (nlit 1 2) (nsub b b))) (nadd (nmul (nmul (nofZ 2) epsilon) (nabs b)) (nmul (nlit 1 2) tol)) = true.
Proof.
  intros [Fb Bb] [Ft Bt] T0.
  destruct half_spec as [Fh Rh], two_eps_spec as [Fe Re]. set (half := nlit 1 2) in *. set (te := nmul (nofZ 2) epsilon) in *. clearbody half te.
  assert (P1000 : 0 < bpow radix2 1000) by apply bpow_gt_0.
  destruct zero_spec as [Fz Rz]. pose proof (finite_in_range n0 Fz) as Iz. rewrite Rz in Iz.
  destruct (sub_spec b b Fb Fb) as [Fd Rd]; [now rewrite Rminus_eq_0|]. rewrite Rminus_eq_0, rnd_0 in Rd.
  destruct (mul_spec half (nsub b b) Fh Fd) as [Fx Rx]; [now rewrite Rd, Rmult_0_r|]. rewrite Rd, Rmult_0_r, rnd_0 in Rx.
  destruct (abs_spec _ Fx) as [Fax Rax]. destruct (abs_spec _ Fb) as [Fab Rab]. rewrite Rx, Rabs_R0 in Rax.
  assert (P51 : 0 < bpow radix2 (-51) <= 1). { split; [apply bpow_gt_0|]. change 1 with (bpow radix2 0). apply bpow_le. lia. }
  assert (Bte : Rabs (real te * real (nabs b)) <= bpow radix2 1000).
  { rewrite Re, Rab, Rabs_mult, Rabs_Rabsolu, (Rabs_right (bpow radix2 (-51))) by lra. pose proof (Rabs_pos (real b)). nra. }
  destruct (mul_spec te (nabs b) Fe Fab) as [Fm Rm]; [apply (bound_in_range _ 1000); [lia|exact Bte]|].
  assert (Bht : Rabs (real half * real tol) <= bpow radix2 1000).
  { rewrite Rh, Rabs_mult, (Rabs_right (/ 2)) by lra. pose proof (Rabs_pos (real tol)). lra. }
  destruct (mul_spec half tol Fh Ft) as [Fn Rn]; [apply (bound_in_range _ 1000); [lia|exact Bht]|].
  assert (Bm : Rabs (real (nmul te (nabs b))) <= bpow radix2 1000) by (rewrite Rm; apply rnd_bound; [lia|exact Bte]).
  assert (Bn : Rabs (real (nmul half tol)) <= bpow radix2 1000) by (rewrite Rn; apply rnd_bound; [lia|exact Bht]).
  destruct (add_spec _ _ Fm Fn) as [Fs Rs].
  { apply (bound_in_range _ 1001); [lia|]. eapply Rle_trans; [apply Rabs_triang|].
    change 1001%Z with (1 + 1000)%Z. rewrite bpow_plus. change (bpow radix2 1) with 2. lra. }
  apply (leb_spec _ _ Fax Fs). rewrite Rax, Rs, <- rnd_0. apply rnd_le. rewrite Rm, Rn, Re, Rab, Rh.
  assert (rnd 0 <= rnd (bpow radix2 (-51) * Rabs (real b))) by (apply rnd_le, Rmult_le_pos; [lra|apply Rabs_pos]).
  assert (rnd 0 <= rnd (/ 2 * real tol)) by (apply rnd_le, Rmult_le_pos; lra). rewrite rnd_0 in *. lra.
Qed.

Lemma same_sign_nan (x : F64) : same_sign x F_nan = false.
Proof. unfold same_sign. change (nltb n0 F_nan) with false. change (nltb F_nan n0) with false. now rewrite !andb_false_r. Qed.

Lemma zbrent_nan (f : F64 -> res F64) nan x1 x2 tol n fa : f x1 = Ok fa -> f x2 = Ok F_nan -> modest x2 -> modest tol -> 0 <= real tol ->
  zbrent _ (logged f) nan x1 x2 tol (S n) [] = (Ok x2, [x2; x1]).
Proof.
  intros A B M2 Mt T0. unfold zbrent, logged at 1 2. rewrite A, B, same_sign_nan. cbn [brent_loop].
  unfold brent_prepare, rebracket. cbn [bfb bfc]. rewrite same_sign_nan. unfold rotate. cbn [bfb bfc].
  change (nltb (nabs F_nan) (nabs F_nan)) with false. cbv iota. unfold brent_xm, brent_tol. cbn [bb bc bfb].
  now rewrite (tol_nonneg x2 tol M2 Mt T0).
Qed.

Lemma whole_modest z : (Z.abs z <= 2 ^ 53)%Z -> modest (nofZ z).
Proof.
  intros A. destruct (ofZ_exact z A) as [F R]. split; [exact F|]. rewrite R, <- abs_IZR. apply Rle_trans with (IZR (2 ^ 53)); [now apply IZR_le|].
  change (IZR (2 ^ 53)) with (IZR (Zpower radix2 53)). rewrite (IZR_Zpower radix2 53) by lia. apply bpow_le. lia.
Qed.
