(** Root finding when the function is NaN at the first end of the bracket, and implied volatilities on doubles. *)
From Coq Require Import ZArith List String Bool Lia Reals Lra.
From Coq.Floats Require Import SpecFloat.
From Flocq Require Import Core BinarySingleNaN Mult_error.
From Verif Require Import Prelude Num M_Brent M_Dates M_Vol M_Instruments M_Deps M_Risk M_Reports M_Solver S_Math S_Double S_Reports S_Solver S_SolverDouble L_Double L_DoubleError L_InterpDouble L_Brent L_BrentDouble L_BlackDouble L_Solver.
Import ListNotations.
Open Scope list_scope.
Open Scope R_scope.

Lemma nan_same_sign (x : F64) : same_sign F_nan x = false.
Proof. now rewrite same_sign_sym, same_sign_nan. Qed.

Definition stuck (x1 : F64) (s : brent F64) : Prop := bc s = x1 /\ bfc s = F_nan.

Lemma stuck_prepare x1 s : stuck x1 s -> brent_prepare s = s.
Proof.
  intros [C F]. unfold brent_prepare, rebracket. rewrite F, same_sign_nan. unfold rotate. rewrite F. reflexivity.
Qed.

Definition near_end (tol x1 b : F64) : Prop :=
  nleb (nabs (nmul (nlit 1 2) (nsub x1 b))) (nadd (nmul (nmul (nofZ 2) epsilon) (nabs b)) (nmul (nlit 1 2) tol)) = true.

(** The end at which the function is NaN is never given up. *)
Lemma stuck_loop (f : F64 -> res F64) x1 tol n : forall s b log log', stuck x1 s -> f (bb s) = Ok (bfb s) -> In (bb s) log ->
  brent_loop _ (logged f) tol n s log = (Ok b, log') ->
  exists fb, f b = Ok fb /\ In b log' /\ (neqb fb n0 = true \/ near_end tol x1 b).
Proof.
  induction n as [|n IH]; intros s b log log' S B I E; [discriminate|]. cbn [brent_loop] in E. rewrite (stuck_prepare x1 s S) in E.
  destruct S as [C F].
  destruct (nleb (nabs (brent_xm s)) (brent_tol tol s) || neqb (bfb s) n0) eqn:K.
  - inversion E; subst b log'. exists (bfb s). split; [exact B|]. split; [exact I|]. apply orb_true_iff in K. destruct K as [K|K]; [right|now left].
    unfold brent_xm in K. rewrite C in K. exact K.
  - destruct (brent_de (brent_tol tol s) s) as (d, e). unfold logged at 1 in E.
    destruct (f (brent_trial (brent_tol tol s) d s)) as [y| |] eqn:G; try discriminate.
    apply IH in E; [exact E| | |].
    + split; assumption.
    + exact G.
    + now left.
Qed.

Lemma sign_of_number (y : F64) : same_sign y y = false -> number y -> neqb y n0 = true.
Proof.
  intros S [_ N]. unfold same_sign in S. destruct y as [|[]| |[]]; try reflexivity; try discriminate. now elim N.
Qed.

Lemma zbrent_nan_first (f : F64 -> res F64) nan x1 x2 tol n fb b log : f x1 = Ok F_nan -> f x2 = Ok fb -> number fb ->
  zbrent _ (logged f) nan x1 x2 tol n [] = (Ok b, log) ->
  exists y, f b = Ok y /\ In b log /\ (neqb y n0 = true \/ near_end tol x1 b).
Proof.
  intros A B N. unfold zbrent, logged at 1 2. rewrite A, B, nan_same_sign. intros E.
  destruct (same_sign fb fb) eqn:S.
  - destruct n as [|n]; [discriminate|].
    assert (P : brent_loop _ (logged f) tol (Datatypes.S n) (mkBrent x1 x2 x2 nan nan F_nan fb fb) [x2; x1] =
                brent_loop _ (logged f) tol (Datatypes.S n) (mkBrent x1 x2 x1 (nsub x2 x1) (nsub x2 x1) F_nan fb F_nan) [x2; x1]).
    { cbn [brent_loop]. replace (brent_prepare (mkBrent x1 x2 x2 nan nan F_nan fb fb)) with
        (brent_prepare (mkBrent x1 x2 x1 (nsub x2 x1) (nsub x2 x1) F_nan fb F_nan)); [reflexivity|].
      rewrite (stuck_prepare x1) by (split; reflexivity). unfold brent_prepare, rebracket. cbn [ba bb bc bd be bfa bfb bfc]. rewrite S.
      unfold rotate. cbn [ba bb bc bd be bfa bfb bfc]. reflexivity. }
    rewrite P in E. apply (stuck_loop f x1) in E; [exact E|split; reflexivity|exact B|cbn; auto].
  - pose proof (sign_of_number fb S N) as Z. destruct n as [|n]; [discriminate|]. cbn [brent_loop] in E.
    assert (P : bb (brent_prepare (mkBrent x1 x2 x2 nan nan F_nan fb fb)) = x2 /\ bfb (brent_prepare (mkBrent x1 x2 x2 nan nan F_nan fb fb)) = fb).
    { unfold brent_prepare, rebracket. cbn [ba bb bc bd be bfa bfb bfc]. rewrite S. unfold rotate. cbn [ba bb bc bd be bfa bfb bfc].
      destruct (nltb (nabs fb) (nabs fb)); split; reflexivity. }
    destruct P as [Pb Pf]. rewrite Pf, Z, orb_true_r, Pb in E. inversion E; subst b log. exists fb. cbn. auto.
Qed.

(** ** Every point tried is a double *)

Lemma double_abs x : double x -> double (nabs x).
Proof. intros D. destruct x; exact D. Qed.
Lemma double_opp' x : double x -> double (nopp x).
Proof. intros D. destruct x; exact D. Qed.
Lemma double_half : double (nlit 1 2).
Proof. apply half_spec. Qed.
Lemma double_two_eps : double (nmul (nofZ 2) epsilon).
Proof. apply two_eps_spec. Qed.
Lemma double_one : double n1.
Proof. reflexivity. Qed.

Definition all_double (s : brent F64) : Prop :=
  double (ba s) /\ double (bb s) /\ double (bc s) /\ double (bd s) /\ double (be s) /\ double (bfa s) /\ double (bfb s) /\ double (bfc s).

Ltac doubles := repeat match goal with
  | H : ?g |- ?g => exact H
  | |- double (nmul (nofZ 2) epsilon) => apply double_two_eps
  | |- double (nadd _ _) => apply double_add
  | |- double (nsub _ _) => apply double_sub
  | |- double (nmul _ _) => apply double_mul
  | |- double (ndiv _ _) => apply double_div
  | |- double (nabs _) => apply double_abs
  | |- double (nopp _) => apply double_opp'
  | |- double (nofZ _) => apply double_ofZ
  | |- double (nlit 1 2) => apply double_half
  | |- double n1 => apply double_one
  | |- _ /\ _ => split
  end.

Lemma prepare_double s : all_double s -> all_double (brent_prepare s).
Proof.
  intros (A & B & C & D & E & FA & FB & FC). unfold brent_prepare, rebracket, rotate. destruct (same_sign (bfb s) (bfc s)); cbn [ba bb bc bd be bfa bfb bfc];
    destruct nltb; unfold all_double; cbn [ba bb bc bd be bfa bfb bfc]; doubles.
Qed.

Lemma xm_double s : all_double s -> double (brent_xm s).
Proof. intros (A & B & C & _). unfold brent_xm. doubles. Qed.

Lemma tol_double tol s : double tol -> all_double s -> double (brent_tol tol s).
Proof. intros T (A & B & C & _). unfold brent_tol. apply double_add; doubles. Qed.

Lemma de_double tol1 s : double tol1 -> all_double s -> double (fst (brent_de tol1 s)) /\ double (snd (brent_de tol1 s)).
Proof.
  intros T S. pose proof (xm_double s S) as X. destruct S as (A & B & C & D & E & FA & FB & FC). unfold brent_de. destruct andb; [|split; exact X].
  assert (K0 : double (fst (brent_pq0 s)) /\ double (snd (brent_pq0 s))) by (unfold brent_pq0; destruct neqb; cbn [fst snd]; doubles).
  assert (K : double (fst (brent_pq s)) /\ double (snd (brent_pq s))).
  { unfold brent_pq. destruct (brent_pq0 s) as [p0 q0]. cbn [fst snd] in *. destruct K0. split; [doubles|]. destruct nltb; doubles. }
  destruct (brent_pq s) as [p q]. cbn [fst snd] in K.
  destruct K. destruct nltb; cbn [fst snd]; split; doubles.
Qed.

Lemma trial_double tol1 d s : double tol1 -> double d -> all_double s -> double (brent_trial tol1 d s).
Proof.
  intros T Dd S. pose proof (xm_double s S) as X. destruct S as (A & B & C & _). unfold brent_trial, signum. destruct (nltb tol1 (nabs d)); [doubles|].
  repeat (match goal with |- context [if ?b then _ else _] => destruct b end); doubles.
Qed.

Lemma loop_incl (f : F64 -> res F64) tol n : forall s r log log', brent_loop _ (logged f) tol n s log = (r, log') -> incl log log'.
Proof.
  induction n as [|n IH]; intros s r log log' E; cbn [brent_loop] in E; [inversion E; subst; apply incl_refl|].
  destruct orb; [inversion E; subst; apply incl_refl|]. destruct brent_de as (d, e). unfold logged at 1 in E.
  destruct (f (brent_trial (brent_tol tol (brent_prepare s)) d (brent_prepare s))) as [y| |]; [apply IH in E; now apply incl_cons_inv in E|inversion E; subst; now apply incl_tl, incl_refl..].
Qed.

Lemma loop_double (f : F64 -> res F64) tol n : double tol -> forall s r log log', all_double s -> Forall double log ->
  brent_loop _ (logged f) tol n s log = (r, log') -> (forall x y, In x log' -> f x = Ok y -> double y) -> Forall double log'.
Proof.
  intros T. induction n as [|n IH]; intros s r log log' S L E Ff; cbn [brent_loop] in E; [now inversion E; subst|].
  pose proof (prepare_double s S) as S1. set (s1 := brent_prepare s) in *. destruct orb; [now inversion E; subst|].
  pose proof (tol_double tol s1 T S1) as T1. pose proof (de_double _ s1 T1 S1) as [Dd De]. destruct (brent_de (brent_tol tol s1) s1) as (d, e). cbn [fst snd] in Dd, De.
  pose proof (trial_double _ d s1 T1 Dd S1) as Tr. unfold logged at 1 in E.
  destruct (f (brent_trial (brent_tol tol s1) d s1)) as [y| |] eqn:G; [|inversion E; subst; constructor; assumption..].
  pose proof (loop_incl f tol n _ _ _ _ E) as I.
  apply IH in E; [exact E| |constructor; assumption|exact Ff]. destruct S1 as (A & B & C & D & E' & FA & FB & FC).
  unfold all_double. cbn [ba bb bc bd be bfa bfb bfc]. pose proof (Ff _ _ (I _ (or_introl eq_refl)) G). doubles.
Qed.

Lemma zbrent_double (f : F64 -> res F64) nan x1 x2 tol n r log : double nan -> double tol -> double x1 -> double x2 ->
  zbrent _ (logged f) nan x1 x2 tol n [] = (r, log) -> (forall x y, In x log -> f x = Ok y -> double y) -> Forall double log.
Proof.
  intros Dn Dt D1 D2. unfold zbrent, logged at 1 2. destruct (f x1) as [fa| |] eqn:A; [|intros E; inversion E; subst; auto..].
  destruct (f x2) as [fb| |] eqn:B; [|intros E; inversion E; subst; auto..]. destruct same_sign; [intros E; inversion E; subst; auto|].
  intros E Ff. pose proof (loop_incl f tol n _ _ _ _ E) as I.
  apply (loop_double f tol n Dt) in E; [exact E| |auto|exact Ff]. unfold all_double. cbn [ba bb bc bd be bfa bfb bfc].
  assert (I1 : In x1 log) by (apply I; cbn; auto). assert (I2 : In x2 log) by (apply I; cbn; auto).
  pose proof (Ff _ _ I1 A). pose proof (Ff _ _ I2 B). tauto.
Qed.

Lemma sub_finite x y : finite x -> finite y -> is_finite_SF (nsub x y) = true -> real (nsub x y) = rnd (real x - real y).
Proof.
  intros Fx Fy. destruct (finite_B x Fx) as (bx & <- & fx & rx), (finite_B y Fy) as (b & <- & fy & ry).
  change (nsub (B2SF bx) (B2SF b)) with (SFsub 53 1024 (B2SF bx) (B2SF b)). rewrite sub_equiv. rewrite <- rx, <- ry.
  pose proof (Bminus_correct 53 1024 L_Double.Hprec L_Double.Hmax mode_NE bx b fx fy) as H. destruct (Rlt_bool _ _).
  - intros _. destruct H as (H & F & _). rewrite real_of_B. exact H.
  - destruct H as (H & _). rewrite H. discriminate.
Qed.

(** ** The tolerance, when only the answer is known to be of moderate size *)

Lemma near_finite tol c b : double c -> finite b -> Rabs (real b) <= bpow radix2 900 -> finite tol -> Rabs (real tol) <= bpow radix2 900 -> near_end tol c b -> modest c.
Proof.
  intros Dc Fb Bb Ft Bt L. unfold near_end in L.
  destruct half_spec as [Fh Rh], two_eps_spec as [Fe Re].
  assert (P900 : 0 < bpow radix2 900) by apply bpow_gt_0.
  assert (P901 : bpow radix2 901 = 2 * bpow radix2 900) by (change 901%Z with (1 + 900)%Z; rewrite bpow_plus; reflexivity).
  assert (P902 : bpow radix2 902 = 2 * bpow radix2 901) by (change 902%Z with (1 + 901)%Z; rewrite bpow_plus; reflexivity).
  destruct (abs_spec _ Fb) as [Fab Rab].
  assert (P51 : 0 < bpow radix2 (-51) <= 1). { split; [apply bpow_gt_0|]. change 1 with (bpow radix2 0). apply bpow_le. lia. }
  assert (Bte : Rabs (real (nmul (nofZ 2) epsilon) * real (nabs b)) <= bpow radix2 900).
  { rewrite Re, Rab, Rabs_mult, Rabs_Rabsolu, (Rabs_right (bpow radix2 (-51))) by lra. pose proof (Rabs_pos (real b)). nra. }
  destruct (mul_spec _ (nabs b) Fe Fab) as [Fm Rm]; [apply (bound_in_range _ 900); [lia|exact Bte]|].
  assert (Bht : Rabs (real (nlit 1 2) * real tol) <= bpow radix2 900).
  { rewrite Rh, Rabs_mult, (Rabs_right (/ 2)) by lra. pose proof (Rabs_pos (real tol)). lra. }
  destruct (mul_spec _ tol Fh Ft) as [Fn Rn]; [apply (bound_in_range _ 900); [lia|exact Bht]|].
  assert (Bm : Rabs (real (nmul (nmul (nofZ 2) epsilon) (nabs b))) <= bpow radix2 900) by (rewrite Rm; apply rnd_bound; [lia|exact Bte]).
  assert (Bn : Rabs (real (nmul (nlit 1 2) tol)) <= bpow radix2 900) by (rewrite Rn; apply rnd_bound; [lia|exact Bht]).
  assert (Bs : Rabs (real (nmul (nmul (nofZ 2) epsilon) (nabs b)) + real (nmul (nlit 1 2) tol)) <= bpow radix2 901).
  { eapply Rle_trans; [apply Rabs_triang|]. lra. }
  destruct (add_spec _ _ Fm Fn) as [Fs Rs]; [apply (bound_in_range _ 901); [lia|exact Bs]|].
  set (half := nlit 1 2) in *. set (rhs := nadd _ _) in *. assert (Br : Rabs (real rhs) <= bpow radix2 901) by (rewrite Rs; apply rnd_bound; [lia|exact Bs]).
  clearbody rhs. clear Rs Bs Bn Bm Fm Fn Rm Rn Bte Bht.
  assert (Fin : is_finite_SF (nabs (nmul half (nsub c b))) = true).
  { destruct (nabs (nmul half (nsub c b))) as [|sg| |] eqn:Q; try reflexivity.
    - assert (sg = false) as ->. { revert Q. destruct (nmul half (nsub c b)); cbn; intros Q; inversion Q; reflexivity. }
      exfalso. destruct Fs as [_ Fs]. destruct rhs; try discriminate; discriminate.
    - discriminate. }
  assert (Fx : is_finite_SF (nmul half (nsub c b)) = true) by (destruct (nmul half (nsub c b)); assumption).
  assert (Fd : is_finite_SF (nsub c b) = true).
  { revert Fx. unfold half. change (nlit 1 2 : F64) with (S754_finite false 4503599627370496 (-53)). destruct (nsub c b); intros Fx; try reflexivity; discriminate. }
  assert (Fc : finite c).
  { split; [exact Dc|]. destruct c as [| | |]; try reflexivity.
    - destruct Fb as [_ Fb]. destruct b; discriminate.
    - discriminate. }
  split; [exact Fc|].
  assert (Fdd : finite (nsub c b)) by (split; [apply double_sub; [exact Dc|apply Fb]|exact Fd]).
  assert (Fxx : finite (nmul half (nsub c b))) by (split; [apply double_mul; [apply Fh|apply Fdd]|exact Fx]).
  destruct (abs_spec _ Fxx) as [Fax Rax]. apply (leb_spec _ _ Fax Fs) in L. rewrite Rax in L.
  pose proof (sub_finite c b Fc Fb Fd) as Rd. destruct (rnd_diff_error (real c) (real b) (finite_format _ Fc) (finite_format _ Fb)) as (e1 & H1 & X1). rewrite X1 in Rd.
  assert (B24 : Rabs (real half * real (nsub c b)) <= bpow radix2 1023).
  { rewrite Rh, Rabs_mult, (Rabs_right (/ 2)) by lra. replace (bpow radix2 1023) with (/ 2 * bpow radix2 1024) by (change 1024%Z with (1 + 1023)%Z; rewrite bpow_plus; change (bpow radix2 1) with 2; field).
    apply Rmult_le_compat_l; [lra|]. pose proof (finite_in_range _ Fdd) as I. unfold in_range in I. unfold rnd in I. rewrite round_generic in I; [lra|apply valid_rnd_N|now apply finite_format]. }
  destruct (mul_spec half (nsub c b) Fh Fdd) as [_ Rx]; [apply (bound_in_range _ 1023); [lia|exact B24]|].
  destruct (rnd_error (real half * real (nsub c b))) as (e2 & h2 & H2 & G2 & X2). rewrite X2 in Rx. rewrite Rx, Rd, Rh in L.
  pose proof uu_small as [U1 U2]. pose proof tiny_small as [T1 T2].
  assert (TT : tiny <= bpow radix2 900) by (unfold tiny; apply bpow_le; lia).
  assert (Q : / 2 * (Rabs (real c - real b) * / 4) <= bpow radix2 902).
  { pose proof (Rle_abs (real rhs)) as RA.
    pose proof (Rabs_triang_inv (/ 2 * ((real c - real b) * (1 + e1)) * (1 + e2)) (- h2)) as TI. rewrite Rabs_Ropp in TI.
    replace (/ 2 * ((real c - real b) * (1 + e1)) * (1 + e2) - - h2) with (/ 2 * ((real c - real b) * (1 + e1)) * (1 + e2) + h2) in TI by ring.
    apply Rabs_le_inv in H1. apply Rabs_le_inv in H2.
    rewrite !Rabs_mult, (Rabs_right (/ 2)), (Rabs_right (1 + e1)), (Rabs_right (1 + e2)) in TI by lra.
    pose proof (Rabs_pos (real c - real b)) as AP. set (g := Rabs (real c - real b)) in *.
    assert (g * / 2 <= g * (1 + e1)) by (apply Rmult_le_compat_l; lra).
    assert (g * / 2 * / 2 <= g * (1 + e1) * (1 + e2)) by (apply Rmult_le_compat; lra). lra. }
  assert (P1000 : 100 * bpow radix2 902 <= bpow radix2 1000).
  { apply Rle_trans with (bpow radix2 7 * bpow radix2 902); [apply Rmult_le_compat_r; [apply bpow_ge_0|change (bpow radix2 7) with 128; lra]|]. rewrite <- bpow_plus. apply bpow_le. lia. }
  replace (real c) with ((real c - real b) + real b) by ring. eapply Rle_trans; [apply Rabs_triang|]. lra.
Qed.

(** The answer is a zero, or a point of the other sign is within the tolerance. *)
Lemma zbrent_answer (f : F64 -> res F64) nan x1 x2 tol n b log : (forall x y, In x log -> f x = Ok y -> number y) -> double nan -> double x1 -> double x2 ->
  finite tol -> Rabs (real tol) <= bpow radix2 900 -> finite b -> Rabs (real b) <= bpow radix2 900 ->
  zbrent _ (logged f) nan x1 x2 tol n [] = (Ok b, log) ->
  exists fb, f b = Ok fb /\ In b log /\
    (place fb = 0 \/ exists c fc, f c = Ok fc /\ In c log /\ finite c /\ place fb * place fc <= 0 /\
      Rabs (real c - real b) <= (bpow radix2 (-50) * Rabs (real b) + Rabs (real tol)) * (1 + bpow radix2 (-49)) + bpow radix2 (-1072)).
Proof.
  intros NN Dn D1 D2 Ft Bt Fb Bb E.
  assert (P9 : bpow radix2 900 <= bpow radix2 1000) by (apply bpow_le; lia).
  pose proof (zbrent_double f nan x1 x2 tol n (Ok b) log Dn (proj1 Ft) D1 D2 E (fun x y I H => proj1 (NN x y I H))) as DL. rewrite Forall_forall in DL.
  destruct (zbrent_any one_side _ _ _ _ _ _ _ _ E) as (fb & Gb & Ib & K). exists fb. split; [exact Gb|]. split; [exact Ib|].
  destruct K as [K|(c & fc & Fc & Ic & S & L)].
  - left. apply (eqb_place fb n0 (NN _ _ Ib Gb) zero_number) in K. exact K.
  - right. assert (Mc : modest c) by (apply (near_finite tol c b); auto).
    exists c, fc. split; [exact Fc|]. split; [exact Ic|]. split; [apply Mc|]. split; [apply opposite_place; eauto|].
    apply gap_bound; [split; [exact Fb|lra]|exact Mc|split; [exact Ft|lra]|exact L].
Qed.

Lemma zbrent_nan_answer (f : F64 -> res F64) nan x1 x2 tol n y2 b log : f x1 = Ok F_nan -> f x2 = Ok y2 -> number y2 -> double x1 ->
  finite tol -> Rabs (real tol) <= bpow radix2 900 -> finite b -> Rabs (real b) <= bpow radix2 900 ->
  zbrent _ (logged f) nan x1 x2 tol n [] = (Ok b, log) ->
  exists y, f b = Ok y /\ (neqb y n0 = true \/
    finite x1 /\ Rabs (real x1 - real b) <= (bpow radix2 (-50) * Rabs (real b) + Rabs (real tol)) * (1 + bpow radix2 (-49)) + bpow radix2 (-1072)).
Proof.
  intros F1 F2 N2 D1 Ft Bt Fb Bb E. assert (P9 : bpow radix2 900 <= bpow radix2 1000) by (apply bpow_le; lia).
  destruct (zbrent_nan_first f nan x1 x2 tol n y2 b log F1 F2 N2 E) as (y & Y & _ & K). exists y. split; [exact Y|]. destruct K as [K|K]; [now left|right].
  assert (Mc : modest x1) by (apply (near_finite tol x1 b); auto). split; [apply Mc|].
  apply gap_bound; [split; [exact Fb|lra]|exact Mc|split; [exact Ft|lra]|exact K].
Qed.

(** ** The search towards zero *)

Lemma half_format x : generic_format radix2 (FLT_exp (-1074) 53) x -> bpow radix2 (-1000) <= Rabs x -> generic_format radix2 (FLT_exp (-1074) 53) (x * / 2).
Proof.
  intros F B. change (/ 2) with (bpow radix2 (-1)). apply mult_bpow_exact_FLT; [exact F|].
  assert (H : (-1000 < mag radix2 x)%Z) by (apply mag_gt_bpow; exact B). lia.
Qed.
Lemma rnd_exact x : generic_format radix2 (FLT_exp (-1074) 53) x -> rnd x = x.
Proof. intros F. apply round_generic; [apply valid_rnd_N|exact F]. Qed.

(** One halving, without any rounding. *)
Lemma halved (b : F64) : finite b -> bpow radix2 (-1000) <= real b <= bpow radix2 900 ->
  let xm := nmul (nlit 1 2) (nsub n0 b) in
  finite xm /\ real xm = - (real b * / 2) /\ finite (nadd b xm) /\ real (nadd b xm) = real b * / 2.
Proof.
  intros Fb Bb. assert (P0 : 0 < bpow radix2 (-1000)) by apply bpow_gt_0.
  assert (A : Rabs (real b) = real b) by (apply Rabs_right; lra).
  assert (HF : generic_format radix2 (FLT_exp (-1074) 53) (real b * / 2)) by (apply half_format; [now apply finite_format|lra]).
  assert (Z : finite n0 /\ real n0 = 0) by (split; [split; reflexivity|reflexivity]). destruct Z as [F0 R0].
  destruct (sub_spec n0 b F0 Fb) as [Fs Rs]. { apply (bound_in_range _ 900); [lia|]. rewrite R0, Rminus_0_l, Rabs_Ropp. lra. }
  rewrite R0, Rminus_0_l, rnd_exact in Rs by now apply generic_format_opp, finite_format.
  destruct half_spec as [Fh Rh].
  destruct (mul_spec (nlit 1 2) (nsub n0 b) Fh Fs) as [Fm Rm]. { apply (bound_in_range _ 900); [lia|]. rewrite Rh, Rs, Rabs_mult, Rabs_Ropp, (Rabs_right (/2)) by lra. lra. }
  rewrite Rh, Rs in Rm. replace (/ 2 * - real b) with (- (real b * / 2)) in Rm by ring.
  rewrite rnd_exact in Rm by now apply generic_format_opp.
  cbv zeta. split; [exact Fm|]. split; [exact Rm|].
  assert (S : real b + real (nmul (nlit 1 2) (nsub n0 b)) = real b * / 2) by (rewrite Rm; lra).
  destruct (add_spec b (nmul (nlit 1 2) (nsub n0 b)) Fb Fm) as [Fa Ra]. { rewrite S. apply (bound_in_range _ 900); [lia|]. rewrite Rabs_right by lra. lra. }
  split; [exact Fa|]. rewrite Ra, S. now apply rnd_exact.
Qed.

Lemma tol_above (b tol : F64) : finite b -> 0 <= real b <= bpow radix2 900 -> finite tol -> bpow radix2 (-1000) <= real tol <= bpow radix2 900 ->
  let t := nadd (nmul (nmul (nofZ 2) epsilon) (nabs b)) (nmul (nlit 1 2) tol) in finite t /\ real tol * / 2 <= real t.
Proof.
  intros Fb Bb Ft Bt. assert (P0 : 0 < bpow radix2 (-1000)) by apply bpow_gt_0. destruct half_spec as [Fh Rh], two_eps_spec as [Fe Re].
  destruct (abs_spec _ Fb) as [Fab Rab]. rewrite Rabs_right in Rab by lra.
  assert (P51 : 0 < bpow radix2 (-51) <= 1). { split; [apply bpow_gt_0|]. change 1 with (bpow radix2 0). apply bpow_le. lia. }
  assert (P901 : bpow radix2 901 = 2 * bpow radix2 900) by (change 901%Z with (1 + 900)%Z; rewrite bpow_plus; reflexivity).
  set (te := nmul (nofZ 2) epsilon) in *. set (half := nlit 1 2) in *. clearbody te half.
  assert (HF : generic_format radix2 (FLT_exp (-1074) 53) (real tol * / 2)) by (apply half_format; [now apply finite_format|rewrite Rabs_right; lra]).
  assert (Bp : 0 <= bpow radix2 (-51) * real b <= bpow radix2 900) by nra.
  destruct (mul_spec te (nabs b) Fe Fab) as [Fm Rm]. { rewrite Re, Rab. apply (bound_in_range _ 900); [lia|]. rewrite Rabs_right; lra. }
  assert (Bm : 0 <= real (nmul te (nabs b)) <= bpow radix2 900).
  { split.
    - rewrite Rm, Re, Rab. rewrite <- (rnd_exact 0) by apply generic_format_0. apply round_le; [apply FLT_exp_valid; reflexivity|apply valid_rnd_N|lra].
    - apply Rle_trans with (1 := Rle_abs _). rewrite Rm, Re, Rab. apply rnd_bound; [lia|]. rewrite Rabs_right; lra. }
  destruct (mul_spec half tol Fh Ft) as [Fn Rn]. { rewrite Rh. apply (bound_in_range _ 900); [lia|]. rewrite Rabs_right; lra. }
  rewrite Rh, Rmult_comm, rnd_exact in Rn by exact HF.
  destruct (add_spec (nmul te (nabs b)) (nmul half tol) Fm Fn) as [Fs Rs].
  { rewrite Rn. apply (bound_in_range _ 901); [lia|]. rewrite Rabs_right; lra. }
  split; [exact Fs|]. cbv zeta. rewrite Rs, Rn. rewrite <- (rnd_exact (real tol * / 2)) at 1 by exact HF.
  apply round_le; [apply FLT_exp_valid; reflexivity|apply valid_rnd_N|lra].
Qed.

Lemma div_nan_r (x : F64) : ndiv x F_nan = F_nan.
Proof. destruct x as [s|s| |s m e]; reflexivity. Qed.
Lemma sub_nan_r (x : F64) : nsub x F_nan = F_nan.
Proof. destruct x as [s|s| |s m e]; reflexivity. Qed.
Lemma nan_sub (x : F64) : nsub F_nan x = F_nan.
Proof. reflexivity. Qed.
Lemma nan_mul (x : F64) : nmul F_nan x = F_nan.
Proof. reflexivity. Qed.
Lemma nan_ltb (x : F64) : nltb F_nan x = false.
Proof. reflexivity. Qed.

(** No interpolation is accepted, so every step halves the bracket. *)
Lemma stuck_de tol1 x1 s : stuck x1 s -> bfa s = F_nan \/ neqb (ba s) x1 = false -> brent_de tol1 s = (brent_xm s, brent_xm s).
Proof.
  intros [C F] A. unfold brent_de. destruct (nleb tol1 (nabs (be s)) && nltb (nabs (bfb s)) (nabs (bfa s))) eqn:K; [|reflexivity].
  destruct A as [A|A].
  { rewrite A in K. apply andb_true_iff in K. destruct K as [_ K]. change (nabs F_nan) with F_nan in K.
    cbn [nltb FNum] in K. unfold SFltb in K. destruct (nabs (bfb s)) as [| | |[]]; discriminate. }
  assert (E : fst (brent_pq s) = F_nan).
  { unfold brent_pq, brent_pq0. rewrite C, A, F, !div_nan_r. rewrite !nan_sub, !mul_nan_r. reflexivity. }
  destruct (brent_pq s) as (p, q). cbn [fst] in E. subst p. rewrite mul_nan_r, nan_ltb. reflexivity.
Qed.

Lemma halves (f : F64 -> res F64) tol n : finite tol -> bpow radix2 (-999) <= real tol <= bpow radix2 900 ->
  forall s log, stuck n0 s -> bfa s = F_nan \/ neqb (ba s) n0 = false -> finite (bb s) -> bpow radix2 (-1000) <= real (bb s) <= bpow radix2 900 ->
  real (bb s) <= real tol * 2 ^ n ->
  (forall v, finite v -> 0 < real v <= real (bb s) -> exists y, f v = Ok y) ->
  exists b log', brent_loop _ (logged f) tol (Datatypes.S n) s log = (Ok b, log') /\ finite b /\ 0 < real b <= real (bb s).
Proof.
  intros Ft Bt0. assert (P0 : 0 < bpow radix2 (-1000)) by apply bpow_gt_0. revert n.
  assert (P1 : bpow radix2 (-999) = 2 * bpow radix2 (-1000)) by (change (-999)%Z with (1 + -1000)%Z; rewrite bpow_plus; reflexivity).
  assert (Bt : bpow radix2 (-1000) <= real tol <= bpow radix2 900) by lra.
  assert (Go : forall n s log, stuck n0 s -> bfa s = F_nan \/ neqb (ba s) n0 = false -> finite (bb s) -> bpow radix2 (-1000) <= real (bb s) <= bpow radix2 900 ->
    (real (bb s) <= real tol \/ exists k, n = Datatypes.S k /\ (bpow radix2 (-1000) <= real (bb s) * / 2 ->
      forall s' log, stuck n0 s' -> bfa s' = F_nan \/ neqb (ba s') n0 = false -> finite (bb s') -> real (bb s') = real (bb s) * / 2 ->
      exists b log', brent_loop _ (logged f) tol n s' log = (Ok b, log') /\ finite b /\ 0 < real b <= real (bb s'))) ->
    (forall v, finite v -> 0 < real v <= real (bb s) -> exists y, f v = Ok y) ->
    exists b log', brent_loop _ (logged f) tol (Datatypes.S n) s log = (Ok b, log') /\ finite b /\ 0 < real b <= real (bb s)).
  { intros n s log S A Fb Bb Step V. cbn [brent_loop]. rewrite (stuck_prepare n0 s S).
    destruct (halved (bb s) Fb Bb) as (Fx & Rx & Fn & Rn). destruct (tol_above (bb s) tol Fb) as (Ft1 & Rt1); [lra|exact Ft|exact Bt|].
    assert (X : brent_xm s = nmul (nlit 1 2) (nsub n0 (bb s))) by (unfold brent_xm; now rewrite (proj1 S)).
    change (nadd (nmul (nmul (nofZ 2) epsilon) (nabs (bb s))) (nmul (nlit 1 2) tol)) with (brent_tol tol s) in Ft1, Rt1. rewrite <- X in Fx, Rx, Fn, Rn.
    destruct (abs_spec _ Fx) as [Fa Ra]. rewrite Rx, Rabs_Ropp, Rabs_right in Ra by lra.
    destruct (nleb (nabs (brent_xm s)) (brent_tol tol s)) eqn:K; [cbn [orb]; exists (bb s), log; split; [reflexivity|]; split; [exact Fb|lra]|].
    cbn [orb]. assert (K' : real (brent_tol tol s) < real (nabs (brent_xm s))).
    { apply Rnot_le_lt. intros L. apply (leb_spec _ _ Fa Ft1) in L. congruence. }
    destruct (neqb (bfb s) n0) eqn:Z; [exists (bb s), log; split; [reflexivity|]; split; [exact Fb|lra]|].
    rewrite (stuck_de _ n0 s S A). assert (T : brent_trial (brent_tol tol s) (brent_xm s) s = nadd (bb s) (brent_xm s)).
    { unfold brent_trial. apply (ltb_spec _ _ Ft1 Fa) in K'. now rewrite K'. }
    rewrite T. unfold logged at 1. destruct (V (nadd (bb s) (brent_xm s)) Fn) as (y & ->); [rewrite Rn; lra|].
    destruct Step as [L|(k & -> & Step)]; [lra|].
    assert (B2 : bpow radix2 (-1000) <= real (bb s) * / 2) by lra.
    destruct (Step B2 (mkBrent (bb s) (nadd (bb s) (brent_xm s)) (bc s) (brent_xm s) (brent_xm s) (bfb s) y (bfc s)) (nadd (bb s) (brent_xm s) :: log)) as (b & log' & E & Hb & Hr).
    - exact S.
    - right. cbn [ba]. destruct (neqb (bb s) n0) eqn:Q; [|reflexivity]. exfalso.
      assert (F0 : finite n0) by (split; reflexivity). apply (eqb_spec _ _ Fb F0) in Q. change (real n0) with 0 in Q. lra.
    - exact Fn.
    - exact Rn.
    - exists b, log'. split; [exact E|]. split; [exact Hb|]. cbn [bb] in Hr. rewrite Rn in Hr. lra. }
  induction n as [|n IH]; intros s log S A Fb Bb L V.
  - apply Go; try assumption. left. cbn [pow] in L. lra.
  - apply Go; try assumption. right. exists n. split; [reflexivity|]. intros B2 s' log2 S' A' Fb' Rb'.
    apply IH; try assumption.
    + lra.
    + cbn [pow] in L. lra.
    + intros v Fv Bv. apply V; [exact Fv|]. lra.
Qed.

(** The search towards zero, where the function is NaN: it always answers, with an exact solution or next to nothing. *)
Lemma zbrent_to_zero (f : F64 -> res F64) nan hi tol n y : f n0 = Ok F_nan -> f hi = Ok y -> number y ->
  finite tol -> bpow radix2 (-900) <= real tol <= bpow radix2 900 -> finite hi -> bpow radix2 (-900) <= real hi <= bpow radix2 900 -> real hi <= real tol * 2 ^ n ->
  (forall v, finite v -> 0 < real v <= real hi -> exists y, f v = Ok y) ->
  exists b log, zbrent _ (logged f) nan n0 hi tol (Datatypes.S n) [] = (Ok b, log) /\ finite b /\ 0 < real b <= real hi /\
    exists z, f b = Ok z /\ (neqb z n0 = true \/ real b <= real tol * (1 + bpow radix2 (-40))).
Proof.
  intros F0 F1 N1 Ft Bt Fh Bh L V.
  assert (P9 : bpow radix2 (-1000) <= bpow radix2 (-900)) by (apply bpow_le; lia). assert (P8 : bpow radix2 (-999) <= bpow radix2 (-900)) by (apply bpow_le; lia). assert (Pp : 0 < bpow radix2 (-900)) by apply bpow_gt_0.
  assert (E : exists b log, zbrent _ (logged f) nan n0 hi tol (Datatypes.S n) [] = (Ok b, log) /\ finite b /\ 0 < real b <= real hi).
  { unfold zbrent, logged at 1 2. rewrite F0, F1, nan_same_sign. destruct (same_sign y y) eqn:S.
    - assert (P : brent_loop _ (logged f) tol (Datatypes.S n) (mkBrent n0 hi hi nan nan F_nan y y) [hi; n0] =
                brent_loop _ (logged f) tol (Datatypes.S n) (mkBrent n0 hi n0 (nsub hi n0) (nsub hi n0) F_nan y F_nan) [hi; n0]).
      { cbn [brent_loop]. replace (brent_prepare (mkBrent n0 hi hi nan nan F_nan y y)) with
          (brent_prepare (mkBrent n0 hi n0 (nsub hi n0) (nsub hi n0) F_nan y F_nan)); [reflexivity|].
        rewrite (stuck_prepare n0) by (split; reflexivity). unfold brent_prepare, rebracket. cbn [ba bb bc bd be bfa bfb bfc]. rewrite S.
        unfold rotate. cbn [ba bb bc bd be bfa bfb bfc]. reflexivity. }
      rewrite P. apply halves; cbn [bb bfa ba]; try assumption; try (split; reflexivity); try lra. now left.
    - pose proof (sign_of_number y S N1) as Z. cbn [brent_loop].
      assert (P : bb (brent_prepare (mkBrent n0 hi hi nan nan F_nan y y)) = hi /\ bfb (brent_prepare (mkBrent n0 hi hi nan nan F_nan y y)) = y).
      { unfold brent_prepare, rebracket. cbn [ba bb bc bd be bfa bfb bfc]. rewrite S. unfold rotate. cbn [ba bb bc bd be bfa bfb bfc].
        destruct (nltb (nabs y) (nabs y)); split; reflexivity. }
      destruct P as [Pb Pf]. rewrite Pf, Z, orb_true_r, Pb. exists hi, [hi; n0]. split; [reflexivity|]. split; [exact Fh|lra]. }
  destruct E as (b & log & E & Fb & Rb). exists b, log. split; [exact E|]. split; [exact Fb|]. split; [exact Rb|].
  assert (Db : double n0) by reflexivity.
  destruct (zbrent_nan_answer f nan n0 hi tol (Datatypes.S n) y b log F0 F1 N1 Db Ft) with (4 := E) as (z & Z & K).
  - rewrite Rabs_right; lra.
  - exact Fb.
  - rewrite Rabs_right; lra.
  - exists z. split; [exact Z|]. destruct K as [K|[_ K]]; [now left|right]. change (real n0) with 0 in K. rewrite Rminus_0_l, Rabs_Ropp, !Rabs_right in K by lra.
    assert (Q1 : bpow radix2 (-1072) <= bpow radix2 (-60) * real tol).
    { apply Rle_trans with (bpow radix2 (-60) * bpow radix2 (-900)); [rewrite <- bpow_plus; apply bpow_le; lia|]. apply Rmult_le_compat_l; [apply bpow_ge_0|lra]. }
    set (t := real tol) in *. set (x := real b) in *. clearbody t x.
    assert (T0 : 0 < t) by lra. clear - K Q1 T0 Rb.
    assert (B50 : bpow radix2 (-50) = / 1125899906842624) by reflexivity. assert (B49 : bpow radix2 (-49) = / 562949953421312) by reflexivity.
    assert (B60 : bpow radix2 (-60) = / 1152921504606846976) by reflexivity. assert (B40 : bpow radix2 (-40) = / 1099511627776) by reflexivity.
    rewrite B50, B49 in K. rewrite B60 in Q1. rewrite B40. lra.
Qed.

(** ** Implied volatilities *)

Section Solver.
  Context {TR : Trans F64} {P : Type}.
  Variable nan : F64.
  Variable ops : pricer_ops F64 P.
  Hypothesis Replaceable : replaceable ops.

  Lemma excess_price id p target vol y : excess ops id p target vol = Ok y ->
    exists x, price_after ops [BVol id (ReplaceVol vol)] p = Ok x /\ y = nsub x target.
  Proof.
    unfold excess. destruct (price_after ops [BVol id (ReplaceVol vol)] p) as [x| |]; cbn [rmap bind]; intros E; try discriminate.
    injection E as <-. eauto.
  Qed.
  Lemma excess_of id p target vol x : price_after ops [BVol id (ReplaceVol vol)] p = Ok x -> excess ops id p target vol = Ok (nsub x target).
  Proof. unfold excess. now intros ->. Qed.

  (** What was tried, and what came of it. *)
  Lemma solve_search s target lo hi p vol p' id : solve nan ops s target lo hi p = (Ok vol, p') -> depends_on_vols ops p [id] -> exists log,
    zbrent _ (logged (excess ops id p target)) nan lo hi (iv_tolerance s) (iv_max_iter s) [] = (Ok vol, log).
  Proof.
    intros E D. apply single_spec in D.
    destruct (solve_follows nan ops Replaceable s target lo hi p id D) as (log & Z & _). rewrite E in Z. cbn [fst] in Z. eauto.
  Qed.

  Lemma solve_doubles s target lo hi p vol p' id : solve nan ops s target lo hi p = (Ok vol, p') -> depends_on_vols ops p [id] ->
    double nan -> double lo -> double hi -> finite target -> finite (iv_tolerance s) -> Rabs (real (iv_tolerance s)) <= bpow radix2 900 ->
    (forall v x, In v (vols_tried nan ops s target lo hi p id) -> price_after ops [BVol id (ReplaceVol v)] p = Ok x -> number x) ->
    finite vol -> Rabs (real vol) <= bpow radix2 900 ->
    exists x, price_after ops [BVol id (ReplaceVol vol)] p = Ok x /\
      (place (nsub x target) = 0 \/ exists v y, price_after ops [BVol id (ReplaceVol v)] p = Ok y /\ finite v /\ place (nsub x target) * place (nsub y target) <= 0 /\
        Rabs (real v - real vol) <= (bpow radix2 (-50) * Rabs (real vol) + Rabs (real (iv_tolerance s))) * (1 + bpow radix2 (-49)) + bpow radix2 (-1072)).
  Proof.
    intros E D Dn Dl Dh Ft Ftol Btol NN Fv Bv. destruct (solve_search _ _ _ _ _ _ _ _ E D) as (log & Z). unfold vols_tried in NN. rewrite Z in NN. cbn [snd] in NN.
    assert (NE : forall v y, In v log -> excess ops id p target v = Ok y -> number y).
    { intros v y I H. destruct (excess_price _ _ _ _ _ H) as (x & X & ->). apply sub_number; [exact (NN _ _ I X)|exact Ft]. }
    destruct (zbrent_answer _ _ _ _ _ _ _ _ NE Dn Dl Dh Ftol Btol Fv Bv Z) as (fb & Fb & _ & K).
    destruct (excess_price _ _ _ _ _ Fb) as (x & X & ->). exists x. split; [exact X|]. destruct K as [K|(c & fc & Fc & _ & Cc & S & L)]; [now left|right].
    destruct (excess_price _ _ _ _ _ Fc) as (y & Y & ->). exists c, y. auto.
  Qed.

  Lemma solve_nan s target lo hi p vol p' id y : solve nan ops s target lo hi p = (Ok vol, p') -> depends_on_vols ops p [id] ->
    price_after ops [BVol id (ReplaceVol lo)] p = Ok F_nan -> price_after ops [BVol id (ReplaceVol hi)] p = Ok y -> number y ->
    double lo -> finite target -> finite (iv_tolerance s) -> Rabs (real (iv_tolerance s)) <= bpow radix2 900 -> finite vol -> Rabs (real vol) <= bpow radix2 900 ->
    exists x, price_after ops [BVol id (ReplaceVol vol)] p = Ok x /\ (neqb (nsub x target) n0 = true \/
      finite lo /\ Rabs (real lo - real vol) <= (bpow radix2 (-50) * Rabs (real vol) + Rabs (real (iv_tolerance s))) * (1 + bpow radix2 (-49)) + bpow radix2 (-1072)).
  Proof.
    intros E D Nl Nh Ny Dl Ft Ftol Btol Fv Bv. destruct (solve_search _ _ _ _ _ _ _ _ E D) as (log & Z).
    assert (E1 : excess ops id p target lo = Ok F_nan) by (rewrite (excess_of id p target lo _ Nl); now destruct target).
    destruct (zbrent_nan_answer (excess ops id p target) nan lo hi _ _ (nsub y target) vol log E1 (excess_of id p target hi y Nh)
      (sub_number y target Ny Ft) Dl Ftol Btol Fv Bv Z) as (z & Fz & K).
    destruct (excess_price _ _ _ _ _ Fz) as (x & X & ->). eauto.
  Qed.
End Solver.
