(** Volatility surfaces on doubles. *)
From Coq Require Import ZArith List String Bool Lia Reals Lra.
From Coq.Floats Require Import SpecFloat.
From Flocq Require Import Core BinarySingleNaN.
From Verif Require Import Prelude Num L_Num M_Dates M_Search M_Interp M_Curves M_Forward M_Vol M_Calendar S_Calendar L_Calendar L_CalendarCount L_CalendarVol S_Vol L_Vol L_VolTime
  S_Double L_Double L_DoubleError L_InterpDouble L_BrentDouble L_CalendarDouble S_VolDouble.
Import ListNotations.
Open Scope string_scope.
Open Scope list_scope.
Open Scope R_scope.

#[local] Instance Hprec : FLX.Prec_gt_0 53 := eq_refl _.
#[local] Instance Hmax : Prec_lt_emax 53 1024 := eq_refl _.

(** ** The sign of a product *)

Definition minus (x : F64) : bool :=
  match x with S754_zero s => s | S754_infinity s => s | S754_nan => false | S754_finite s _ _ => s end.

Lemma minus_B (b : B) : minus (B2SF b) = Bsign b.
Proof. now destruct b. Qed.

Lemma mul_minus x y : double x -> double y -> nmul x y <> F_nan -> minus (nmul x y) = xorb (minus x) (minus y).
Proof.
  intros X Y N. destruct (double_B x X) as (a & <-), (double_B y Y) as (b & <-). rewrite !minus_B.
  change (nmul (B2SF a) (B2SF b)) with (SFmul 53 1024 (B2SF a) (B2SF b)) in *. rewrite mul_equiv in *. rewrite minus_B.
  pose proof (Bmult_correct 53 1024 Hprec Hmax mode_NE a b) as C.
  destruct (Rlt_bool _ _).
  - destruct C as (_ & _ & S). apply S. destruct (Bmult mode_NE a b); try reflexivity. now elim N.
  - apply (f_equal minus) in C. rewrite minus_B in C. etransitivity; [exact C|reflexivity].
Qed.

Lemma below_minus x : double x -> nltb x n0 = true -> minus x = true.
Proof. intros _. destruct x as [s|s| |s m e]; cbn; try discriminate; destruct s; try discriminate; reflexivity. Qed.

Lemma floor_not_below (x : F64) : nltb (nmax x n0) n0 = false.
Proof.
  unfold nmax. destruct (nltb x n0) eqn:E; [reflexivity|]. destruct (neqb x x); [exact E|reflexivity].
Qed.

(** Time times volatility times volatility is not below zero, whatever the volatility. *)
Lemma product_not_below t v : double t -> double v -> nltb t n0 = false -> nltb (nmul (nmul t v) v) n0 = false.
Proof.
  intros T V L. destruct (nltb (nmul (nmul t v) v) n0) eqn:E; [|reflexivity]. exfalso.
  assert (D1 := double_mul t v T V). assert (D2 := double_mul _ v D1 V).
  assert (N2 : nmul (nmul t v) v <> F_nan) by (intros Q; rewrite Q in E; discriminate).
  assert (N1 : nmul t v <> F_nan) by (intros Q; rewrite Q in N2; apply N2; reflexivity).
  pose proof E as E0. apply below_minus in E; [|exact D2].
  rewrite (mul_minus _ v D1 V N2), (mul_minus t v T V N1) in E.
  rewrite Bool.xorb_assoc, Bool.xorb_nilpotent, Bool.xorb_false_r in E.
  destruct t as [s|s| |s m e]; cbn [minus] in E; try discriminate; subst s; [|discriminate..].
  destruct v; discriminate E0.
Qed.

Section Surfaces.
  Context {TR : Trans F64}.
  Variable nan : F64.
  Implicit Type s : vol_surface F64.

  Lemma evolved_time s : time_evolved s -> forall d ks vols t, volatilities nan s d ks = Ok (vols, t) -> nltb t n0 = false.
  Proof.
    induction s as [vol cal base|v|s IH off base|s IH off base|s IH b|s IH b fl|s IH f]; cbn [time_evolved]; intros W d ks vols t E;
      try contradiction; cbn [volatilities] in E.
    - inv_bind E. destruct a as (l', t'). injection E as <- <-. apply floor_not_below.
    - inv_bind E. inv_bind E. inv_bind E. destruct a1 as (l', t'). injection E as <- <-. apply floor_not_below.
    - inv_bind E. destruct a as (l', t'). injection E as <- <-. exact (IH W _ _ _ _ E0).
    - inv_bind E. destruct a as (l', t'). injection E as <- <-. exact (IH W _ _ _ _ E0).
    - destruct ks; [exact (IH W _ _ _ _ E)|]. destruct (vs_forward s); [|exact (IH W _ _ _ _ E)].
      inv_bind E. inv_bind E. exact (IH W _ _ _ _ E).
  Qed.

  Lemma evolved_not_below s d k v t : time_evolved s -> volatility_is nan s d k v t -> double v -> double t ->
    exists x, variance nan s d k = Ok x /\ nltb x n0 = false.
  Proof.
    intros W V Dv Dt. exists (nmul (nmul t v) v). split; [exact (variance_one nan s d k v t V)|].
    apply product_not_below; [exact Dt|exact Dv|exact (evolved_time s W _ _ _ _ V)].
  Qed.

  Lemma bumped_double s d k v t b : volatility_is nan s d k v t -> double v -> double b ->
    exists v', volatility_is nan (ParallelBumpVol s b) d k v' t /\ v' <> F_nan /\ nltb v' n0 = false /\
      (nadd v b = F_nan -> v' = n0) /\ (nltb n0 (nadd v b) = true -> v' = nadd v b).
  Proof.
    unfold volatility_is. cbn [volatilities]. intros -> Dv Db. cbn [bind map]. exists (nmax (nadd v b) n0).
    split; [reflexivity|]. split; [|split; [apply floor_not_below|]].
    - unfold nmax. destruct (nltb _ n0); [discriminate|]. destruct (neqb (nadd v b) (nadd v b)) eqn:Q; [|discriminate]. intros Z. rewrite Z in Q. discriminate.
    - split; [intros ->; reflexivity|]. intros L. unfold nmax.
      destruct (nltb (nadd v b) n0) eqn:E; [apply one_side in L; congruence|].
      assert (Q : neqb (nadd v b) (nadd v b) = true).
      { apply eqb_place; try reflexivity; (split; [now apply double_add|intros Z; rewrite Z in L; discriminate]). }
      now rewrite Q.
  Qed.
End Surfaces.

(** ** Counterexamples *)

(** A flat surface on the weekdays, based on a Thursday at 0.074 of the day. *)
Definition thursday_surface : vol_surface F64 := FlatVolSurface (nlit 1 4) Weekday (mkDDF 7%Z (nlit 74 1000)).

Lemma weekend_negative (TR : Trans F64) nan k :
  forward_variance nan thursday_surface (mkDDF 9%Z n0) (mkDDF 11%Z n0) k = Err "Negative forward variance".
Proof. vm_compute. reflexivity. Qed.

(** Volatilities of 32% to nine years and 24% to sixteen: the variance is the same, or about the same. *)
Definition same_variance : list (ddf F64 * smile F64) :=
  [(mkDDF 3285%Z n0, FlatSmile (nlit 32 100)); (mkDDF 5840%Z n0, FlatSmile (nlit 24 100))].
Definition level_hundred : linear F64 date := mkLinear Flat Flat [(0%Z, nofZ 100); (1000%Z, nofZ 100)].

Lemma accepted_but_negative (TR : Trans F64) nan : exists v,
  linear_new [(0%Z, nofZ 100); (1000%Z, nofZ 100)] Flat Flat = Ok level_hundred /\
  vbp_new nan same_variance EveryDay (mkDDF 0%Z n0) level_hundred level_hundred NoCashDivs = Ok v /\
  forall k, volatilities nan (VolByProbability v) (mkDDF 4000%Z n0) [k] = Err "Negative forward variance".
Proof. eexists. split; [reflexivity|]. split; [vm_compute; reflexivity|]. intros k. vm_compute. reflexivity. Qed.

(** Pillars on a Saturday and the Monday after it, and a date between them. *)
Definition weekend_pillars : list (ddf F64 * smile F64) :=
  [(mkDDF 9%Z n0, FlatSmile (nlit 1 4)); (mkDDF 11%Z n0, FlatSmile (nlit 1 4))].

Lemma weekend_nan (TR : Trans F64) nan : exists v,
  vbp_new nan weekend_pillars Weekday (mkDDF 7%Z n0) level_hundred level_hundred NoCashDivs = Ok v /\
  forall k, exists t, volatility_is nan (VolByProbability v) (mkDDF 10%Z n0) k F_nan t.
Proof. eexists. split; [vm_compute; reflexivity|]. intros k. eexists. vm_compute. reflexivity. Qed.

(** ** The time of a flat surface *)

Lemma double_0_real x : finite x -> real x = 0 -> forall y, finite y -> finite (nsub y x) /\ real (nsub y x) = real y.
Proof.
  intros F Z y Fy. destruct (sub_spec y x Fy F) as [G R]; [rewrite Z, Rminus_0_r; now apply finite_in_range|].
  split; [exact G|]. rewrite R, Z, Rminus_0_r. now apply rnd_real.
Qed.

Lemma span_small from to : (from <= to)%Z -> (to - from < 2 ^ 40)%Z -> 1 <= span from to <= 2199023255552.
Proof. intros L H. destruct (span_bounds from to L H) as [A B]. replace (bpow radix2 41) with 2199023255552 in B by (cbn; lra). lra. Qed.

(** Without a fraction to take off, plain calendars round the exact count. *)
Lemma both_rounded x y ff tf from to c : fraction ff -> real ff = 0 -> fraction tf -> (from <= to)%Z -> (to - from < 2 ^ 40)%Z -> proper c ->
  (x = n0 /\ y = 0) \/ added x y ff tf -> y = weighted_time (weight c) from (real ff) to (real tf) ->
  real x = rnd (weighted_time (weight c) from (real ff) to (real tf)).
Proof.
  intros Hf Z0 Ht Le L P [[-> Y0]|A] Y.
  - destruct zero_spec as [_ R0]. rewrite R0, <- Y, Y0. symmetry. apply rnd_0.
  - assert (WB : - 1 <= y <= span from to) by (rewrite Y; apply weighted_time_bounds; [now apply weight_bounds|apply Hf|apply Ht|exact Le]).
    rewrite <- Y. destruct A as (z & fa & ta & -> & Ey & Ca & Cb).
    assert (Fa : finite fa /\ real fa = 0) by (destruct Ca as [-> | ->]; [apply zero_spec|split; [apply Hf|exact Z0]]).
    assert (Ta : fraction ta) by (destruct Cb as [-> | ->]; [apply one_fraction|exact Ht]).
    destruct Fa as [Ff Rf], Ta as [Ft Bt]. destruct (double_0_real fa Ff Rf ta Ft) as [Fd Rd].
    destruct (span_small from to Le L) as [S1 S2].
    assert (Zb : (Z.abs z <= 2 ^ 53)%Z).
    { apply Z.abs_le. split; apply le_IZR; [change (IZR (- 2 ^ 53)) with (-9007199254740992)|change (IZR (2 ^ 53)) with 9007199254740992]; lra. }
    destruct (ofZ_exact z Zb) as [Fz Rz].
    destruct (add_spec (nofZ z) (nsub ta fa) Fz Fd) as [_ R]; [apply small_in_range; rewrite Rz, Rd, big; apply Rabs_le; lra|].
    rewrite R, Rz, Rd, Ey, Rf. f_equal. ring.
Qed.

Definition tidy (c : calendar F64) (ff : F64) : Prop := real ff = 0 \/ every_day c.

Lemma later_time w from ff to tf to' tf' : (forall d, 0 <= w d <= 1) -> 0 <= tf <= 1 -> 0 <= tf' <= 1 -> (from <= to <= to')%Z -> (to = to' -> tf <= tf') ->
  weighted_time w from ff to tf <= weighted_time w from ff to' tf'.
Proof.
  intros W A B L S. rewrite (weighted_time_split w from ff to tf to' tf' L).
  pose proof (weighted_time_nonneg w to tf to' tf' W A B S). lra.
Qed.

Lemma all_days_mono n n' (ff tf tf' : F64) : fraction ff -> fraction tf -> fraction tf' -> (0 <= n <= n')%Z -> (n' < 2 ^ 40)%Z -> (n = n' -> real tf <= real tf') ->
  real (nsub (nadd (nofZ n) tf) ff) <= real (nsub (nadd (nofZ n') tf') ff).
Proof.
  intros [Ff Bf] [Ft Bt] [Ft' Bt'] L L' S. destruct (ofZ_exact n ltac:(lia)) as [Fn Rn], (ofZ_exact n' ltac:(lia)) as [Fn' Rn'].
  assert (N : 0 <= IZR n <= 1099511627776) by (split; apply IZR_le; lia).
  assert (N' : 0 <= IZR n' <= 1099511627776) by (split; apply IZR_le; lia).
  assert (A : Rabs (real (nofZ n : F64) + real tf) <= bpow radix2 41) by (rewrite Rn; replace (bpow radix2 41) with 2199023255552 by (cbn; lra); apply Rabs_le; lra).
  assert (A' : Rabs (real (nofZ n' : F64) + real tf') <= bpow radix2 41) by (rewrite Rn'; replace (bpow radix2 41) with 2199023255552 by (cbn; lra); apply Rabs_le; lra).
  destruct (add_spec (nofZ n) tf Fn Ft) as [F1 R1]; [apply (bound_in_range _ 41); [lia|exact A]|].
  destruct (add_spec (nofZ n') tf' Fn' Ft') as [F2 R2]; [apply (bound_in_range _ 41); [lia|exact A']|].
  assert (B1 := rnd_bound _ 41 ltac:(lia) A). rewrite <- R1 in B1. assert (B2 := rnd_bound _ 41 ltac:(lia) A'). rewrite <- R2 in B2.
  replace (bpow radix2 41) with 2199023255552 in B1, B2 by (cbn; lra). apply Rabs_le_inv in B1. apply Rabs_le_inv in B2.
  destruct (sub_spec _ ff F1 Ff) as [_ ->]; [apply small_in_range; rewrite big; apply Rabs_le; lra|].
  destruct (sub_spec _ ff F2 Ff) as [_ ->]; [apply small_in_range; rewrite big; apply Rabs_le; lra|].
  apply rnd_le. apply Rplus_le_compat_r. rewrite R1, R2. apply rnd_le. rewrite Rn, Rn'.
  destruct (Z.eq_dec n n') as [->|D]; [specialize (S eq_refl); lra|].
  assert (IZR n + 1 <= IZR n') by (rewrite <- plus_IZR; apply IZR_le; lia). lra.
Qed.

Lemma mul_mono a b w : finite a -> finite b -> finite w -> 0 <= real w <= 1 -> Rabs (real a) <= bpow radix2 60 -> Rabs (real b) <= bpow radix2 60 ->
  real a <= real b -> finite (nmul a w) /\ finite (nmul b w) /\ real (nmul a w) <= real (nmul b w) /\
    Rabs (real (nmul a w)) <= bpow radix2 60 /\ Rabs (real (nmul b w)) <= bpow radix2 60.
Proof.
  intros Fa Fb Fw W A B L.
  assert (A' : Rabs (real a * real w) <= bpow radix2 60) by (rewrite <- (Rmult_1_r (bpow radix2 60)); apply abs_mult_le; [exact A|rewrite Rabs_right; lra]).
  assert (B' : Rabs (real b * real w) <= bpow radix2 60) by (rewrite <- (Rmult_1_r (bpow radix2 60)); apply abs_mult_le; [exact B|rewrite Rabs_right; lra]).
  destruct (mul_spec a w Fa Fw (small_in_range _ A')) as [F1 R1], (mul_spec b w Fb Fw (small_in_range _ B')) as [F2 R2].
  split; [exact F1|]. split; [exact F2|]. rewrite R1, R2. split; [apply rnd_le; now apply Rmult_le_compat_r|].
  split; apply rnd_bound; auto; lia.
Qed.

Lemma add_mono a b a' b' : finite a -> finite b -> finite a' -> finite b' -> Rabs (real a) <= bpow radix2 60 -> Rabs (real b) <= bpow radix2 60 ->
  Rabs (real a') <= bpow radix2 60 -> Rabs (real b') <= bpow radix2 60 -> real a <= real a' -> real b <= real b' ->
  real (nadd a b) <= real (nadd a' b').
Proof.
  intros Fa Fb Fa' Fb' A B A' B' L M. assert (T : bpow radix2 61 = 2 * bpow radix2 60) by (cbn; lra).
  assert (forall x y, Rabs x <= bpow radix2 60 -> Rabs y <= bpow radix2 60 -> in_range (x + y)) as I.
  { intros x y X Y. apply (bound_in_range _ 61); [lia|]. eapply Rle_trans; [apply Rabs_triang|]. lra. }
  destruct (add_spec a b Fa Fb (I _ _ A B)) as [_ ->], (add_spec a' b' Fa' Fb' (I _ _ A' B')) as [_ ->]. apply rnd_le. lra.
Qed.

Lemma count_small c : finite_weights c -> proper (exact c) -> (nesting c <= 1000)%nat -> forall from ff to tf x,
  fraction ff -> fraction tf -> (from <= to)%Z -> (to - from < 2 ^ 40)%Z ->
  count_business_days c from ff to tf = Ok x -> finite x /\ Rabs (real x) <= bpow radix2 60.
Proof.
  intros FW P NS from ff to tf x Hf Ht Le L H. destruct (count_err c FW P NS from ff to tf x Hf Ht L H) as (F & _ & E). specialize (E Le).
  split; [exact F|]. destruct (span_small from to Le L) as [S1 S2].
  assert (WB := weighted_time_bounds (weight (exact c)) from (real ff) to (real tf) (weight_bounds _ P) (proj2 Hf) (proj2 Ht) Le).
  change (IZR (to - from + 1)) with (span from to) in WB.
  assert (LB : 0 <= level c <= 10000).
  { unfold level. apply le_INR in NS. replace (INR 1000) with 1000 in NS by (rewrite INR_IZR_INZ; reflexivity). pose proof (pos_INR (nesting c)). lra. }
  pose proof uu_small as [U1 U2].
  assert (level c * uu * span from to <= 10000 * uu * span from to).
  { apply Rmult_le_compat_r; [lra|]. apply Rmult_le_compat_r; lra. }
  assert (10000 * uu * span from to <= 10000 * uu * 2199023255552) by (apply Rmult_le_compat_l; lra).
  rewrite big. apply Rabs_le_inv in E. apply Rabs_le. lra.
Qed.

Lemma count_later c : finite_weights c -> proper (exact c) -> (nesting c <= 1000)%nat -> forall from ff to tf to' tf' x x',
  fraction ff -> fraction tf -> fraction tf' -> tidy c ff -> (from <= to <= to')%Z -> (to' - from < 2 ^ 40)%Z -> (to = to' -> real tf <= real tf') ->
  count_business_days c from ff to tf = Ok x -> count_business_days c from ff to' tf' = Ok x' -> real x <= real x'.
Proof.
  induction c as [| |name hols|name inner IH w]; intros FW P NS from ff to tf to' tf' x x' Hf Ht Ht' Ti Le L S E E'.
  - cbn [count_business_days] in E, E'. unfold every_count in E, E'. destruct (Z.ltb_spec to from), (Z.ltb_spec to' from); try lia.
    injection E as <-. injection E' as <-. apply all_days_mono; auto; try lia; intros; apply S; lia.
  - destruct Ti as [Z0|[]]. cbn [count_business_days] in E, E'. destruct (wk_both _ _ _ _ _ E) as (y & Y & C), (wk_both _ _ _ _ _ E') as (y' & Y' & C').
    apply wk_count_sound in Y. apply wk_count_sound in Y'.
    rewrite (both_rounded x y ff tf from to Weekday Hf Z0 Ht), (both_rounded x' y' ff tf' from to' Weekday Hf Z0 Ht'); auto; try lia.
    apply rnd_le. apply later_time; [now apply weight_bounds|apply Ht|apply Ht'|lia|exact S].
  - destruct Ti as [Z0|[]]. cbn [count_business_days] in E, E'. destruct (hol_both _ _ _ _ _ _ E) as (y & Y & C), (hol_both _ _ _ _ _ _ E') as (y' & Y' & C').
    apply hol_count_sound in Y; [|exact P]. apply hol_count_sound in Y'; [|exact P].
    rewrite (both_rounded x y ff tf from to (Holidays name hols) Hf Z0 Ht), (both_rounded x' y' ff tf' from to' (Holidays name hols) Hf Z0 Ht'); auto; try lia.
    apply rnd_le. apply later_time; [now apply weight_bounds|apply Ht|apply Ht'|lia|exact S].
  - cbn [count_business_days] in E, E'. unfold vol_count in E, E'. destruct (Z.ltb_spec to from), (Z.ltb_spec to' from); try lia.
    apply bind_ok in E. destruct E as (b & Eb & E). injection E as <-. apply bind_ok in E'. destruct E' as (b' & Eb' & E'). injection E' as <-.
    destruct FW as [Fw FW], P as [P W]. cbn [exact] in P, W. cbn [nesting] in NS.
    assert (LE := IH FW P ltac:(lia) _ _ _ _ _ _ _ _ Hf Ht Ht' Ti Le L S Eb Eb').
    destruct (count_small inner FW P ltac:(lia) from ff to tf b Hf Ht ltac:(lia) ltac:(lia) Eb) as [Fb Bb].
    destruct (count_small inner FW P ltac:(lia) from ff to' tf' b' Hf Ht' ltac:(lia) ltac:(lia) Eb') as [Fb' Bb'].
    destruct (count_small EveryDay I I ltac:(cbn; lia) from ff to tf (nsub (nadd (nofZ (to - from)) tf) ff) Hf Ht ltac:(lia) ltac:(lia)) as [Fa Ba];
      [cbn [count_business_days]; unfold every_count; destruct (Z.ltb_spec to from); [lia|reflexivity]|].
    destruct (count_small EveryDay I I ltac:(cbn; lia) from ff to' tf' (nsub (nadd (nofZ (to' - from)) tf') ff) Hf Ht' ltac:(lia) ltac:(lia)) as [Fa' Ba'];
      [cbn [count_business_days]; unfold every_count; destruct (Z.ltb_spec to' from); [lia|reflexivity]|].
    assert (LA : real (nsub (nadd (nofZ (to - from)) tf) ff) <= real (nsub (nadd (nofZ (to' - from)) tf') ff)) by (apply all_days_mono; auto; try lia; intros; apply S; lia).
    destruct one_spec as [F1 R1].
    destruct (sub_spec n1 w F1 Fw) as [Fc Rc]; [apply small_in_range; rewrite R1, big; apply Rabs_le; lra|].
    assert (C01 : 0 <= real (nsub n1 w) <= 1) by (rewrite Rc, R1; apply rnd_unit; lra).
    destruct (mul_mono b b' (nsub n1 w) Fb Fb' Fc C01 Bb Bb' LE) as (G1 & G2 & G3 & G4 & G5).
    destruct (mul_mono _ _ w Fa Fa' Fw W Ba Ba' LA) as (K1 & K2 & K3 & K4 & K5).
    apply add_mono; assumption.
Qed.

Lemma basis_bounds (c : calendar R) : proper c -> 252 <= standard_basis c <= 365.
Proof.
  induction c as [| | |name c IH w]; cbn [standard_basis proper]; intros P; rnum; try lra.
  destruct P as (P & W). specialize (IH P). nra.
Qed.

Lemma nesting_few c : (nesting c <= 1000)%nat -> 0 <= INR (nesting c) <= 1000.
Proof. intros NS. apply le_INR in NS. replace (INR 1000) with 1000 in NS by (rewrite INR_IZR_INZ; reflexivity). pose proof (pos_INR (nesting c)). lra. Qed.

Lemma basis_near c : finite_weights c -> proper (exact c) -> (nesting c <= 1000)%nat ->
  finite (standard_basis c) /\ Rabs (real (standard_basis c) - standard_basis (exact c)) <= 9 * INR (nesting c) * uu * 365.
Proof.
  pose proof uu_small as [U1 U2].
  induction c as [| |name hols|name inner IH w]; intros FW P NS; cbn [standard_basis nesting exact].
  1-3: match goal with |- finite (nofZ ?z) /\ _ => destruct (ofZ_exact z ltac:(lia)) as [F R] end; split; [exact F|]; rewrite R; cbn [INR]; rnum;
    rewrite Rminus_diag_eq, Rabs_R0 by reflexivity; lra.
  destruct FW as [Fw FW], P as [P W]. cbn [exact] in P, W. cbn [nesting] in NS.
  destruct (IH FW P ltac:(lia)) as [Fb Eb]. destruct (ofZ_exact 365 ltac:(lia)) as [Fa Ra]. pose proof (basis_bounds _ P) as BB.
  destruct (nesting_few inner ltac:(lia)) as [N1 N2].
  destruct (weigh_err (standard_basis inner) w (nofZ 365) (standard_basis (exact inner)) 365 365 _ Fb Fw Fa W Eb) as [F E].
  - rewrite Ra, Rminus_diag_eq, Rabs_R0 by reflexivity. lra.
  - apply Rabs_le. lra.
  - apply Rabs_le. lra.
  - lra.
  - cbn. lra.
  - apply Rmult_le_compat_r; [lra|]. apply Rmult_le_compat_r; lra.
  - split; [exact F|]. rnum. eapply Rle_trans; [exact E|]. rewrite S_INR. right. ring.
Qed.

(** Time in years. *)
Lemma years_near c a b t : finite_weights c -> proper (exact c) -> (nesting c <= 1000)%nat -> fraction (ddf_frac a) -> fraction (ddf_frac b) ->
  (ddf_date a <= ddf_date b)%Z -> (ddf_date b - ddf_date a < 2 ^ 40)%Z -> year_fraction c a b = Ok t ->
  finite t /\ Rabs (real t - weighted_years (exact c) (exact_time a) (exact_time b)) <= (1 + INR (nesting c)) / 9 * uu * span (ddf_date a) (ddf_date b) /\
  Rabs (weighted_years (exact c) (exact_time a) (exact_time b)) <= span (ddf_date a) (ddf_date b) / 252.
Proof.
  intros FW P NS Ha Hb Le L E. unfold year_fraction in E. apply bind_ok in E. destruct E as (x & Ex & E). injection E as <-.
  destruct (count_err c FW P NS _ _ _ _ _ Ha Hb L Ex) as (Fx & _ & EX). specialize (EX Le).
  destruct (count_small c FW P NS _ _ _ _ _ Ha Hb Le L Ex) as (_ & Bx).
  destruct (basis_near c FW P NS) as [Fs Es]. pose proof (basis_bounds _ P) as BB. destruct (nesting_few c NS) as [N1 N2].
  destruct (span_small _ _ Le L) as [S1 S2]. pose proof uu_small as [U1 U2]. pose proof tiny_small as [T1 T2].
  assert (XB : Rabs (weighted_time (weight (exact c)) (ddf_date a) (real (ddf_frac a)) (ddf_date b) (real (ddf_frac b))) <= span (ddf_date a) (ddf_date b)).
  { apply unit_abs; [|exact S1]. apply weighted_time_bounds; [now apply weight_bounds|apply Ha|apply Hb|exact Le]. }
  unfold weighted_years, exact_time. cbn [ddf_date ddf_frac].
  set (X := weighted_time _ _ _ _ _) in *. set (S := span _ _) in *. set (B0 := standard_basis (exact c)) in *. set (n := INR (nesting c)) in *.
  unfold level in EX. fold n in EX.
  set (b0 := real (standard_basis c)) in *. set (x0 := real x) in *.
  assert (Es' : Rabs (b0 - B0) <= 1 / 100) by (eapply Rle_trans; [exact Es|]; nra).
  apply Rabs_le_inv in Es'. assert (b251 : 251 <= b0) by lra.
  assert (Ib : 0 < / b0 <= / 251) by (split; [apply Rinv_0_lt_compat; lra|apply Rinv_le; lra]).
  assert (IB : 0 < / B0 <= / 252) by (split; [apply Rinv_0_lt_compat; lra|apply Rinv_le; lra]).
  assert (Q : x0 / b0 - X / B0 = (x0 - X) * / b0 + X * (B0 - b0) * (/ b0 * / B0)) by (field; lra).
  assert (us : 0 < uu * S) by nra.
  assert (D1 : Rabs ((x0 - X) * / b0) <= (3 + 9 * n) * uu * S * / 251) by (apply abs_mult_le; [exact EX|rewrite Rabs_right; lra]).
  assert (D2 : Rabs (X * (B0 - b0) * (/ b0 * / B0)) <= S * (9 * n * uu * 365) * (/ 251 * / 252)).
  { apply abs_mult_le; [apply abs_mult_le; [exact XB|rewrite Rabs_minus_sym; exact Es]|]. rewrite Rabs_right by (apply Rle_ge, Rmult_le_pos; lra). apply Rmult_le_compat; lra. }
  assert (D3 : Rabs (x0 / b0 - X / B0) <= (2 / 100 + 9 / 100 * n) * (uu * S)).
  { rewrite Q. eapply Rle_trans; [apply Rabs_triang|].
    replace (S * (9 * n * uu * 365) * (/ 251 * / 252)) with (n * (uu * S) * (3285 / (251 * 252))) in D2 by field.
    replace ((3 + 9 * n) * uu * S * / 251) with ((uu * S) * (3 / 251) + n * (uu * S) * (9 / 251)) in D1 by field.
    assert (0 <= n * (uu * S)) by nra. nra. }
  assert (XY : Rabs (X / B0) <= S / 252) by (unfold Rdiv; apply abs_mult_le; [exact XB|rewrite Rabs_right; lra]).
  assert (small : (2 / 100 + 9 / 100 * n) * (uu * S) <= S / 252 / 1000000).
  { replace (S / 252 / 1000000) with (S * (/ 252 / 1000000)) by field. rewrite (Rmult_comm uu), <- Rmult_assoc, (Rmult_comm _ S), Rmult_assoc. apply Rmult_le_compat_l; [lra|]. nra. }
  assert (D4 : Rabs (x0 / b0) <= S / 252 * (1 + / 1000000)).
  { replace (x0 / b0) with ((x0 / b0 - X / B0) + X / B0) by ring. eapply Rle_trans; [apply Rabs_triang|]. lra. }
  assert (R60 : Rabs (x0 / b0) <= bpow radix2 60) by (rewrite big; lra).
  destruct (div_spec x (standard_basis c) Fx Fs) as [Ft Rt]; [fold b0; lra|fold x0 b0; now apply small_in_range|].
  fold x0 b0 in Rt. split; [exact Ft|]. split; [|exact XY].
  change (SFdiv 53 1024 x (standard_basis c)) with (ndiv x (standard_basis c)). rewrite Rt. destruct (rnd_error (x0 / b0)) as (e & h & He & Hh & ->).
  replace (x0 / b0 * (1 + e) + h - X / B0) with ((x0 / b0 - X / B0) + e * (x0 / b0) + h) by ring.
  assert (D5 : Rabs (e * (x0 / b0)) <= uu * (S / 252 * (1 + / 1000000))) by (apply abs_mult_le; assumption).
  eapply Rle_trans; [apply Rabs_triang|]. eapply Rle_trans; [apply Rplus_le_compat_r; apply Rabs_triang|].
  assert (Hh' : Rabs h <= uu * S / 1000) by nra.
  assert (0 <= n * (uu * S)) by nra. 
  replace ((1 + n) / 9 * uu * S) with (uu * S / 9 + n * (uu * S) / 9) by field. nra.
Qed.

(** A flat surface's variance: time times volatility times volatility. *)
Lemma product_near (t v : F64) T E S : finite t -> finite v -> Rabs (real v) <= 1000 -> Rabs (real t - T) <= E -> Rabs T <= S / 252 -> 1 <= S -> S <= 2199023255552 ->
  E <= S / 1000 ->
  finite (nmul (nmul t v) v) /\ Rabs (real (nmul (nmul t v) v) - real v ^ 2 * T) <= real v ^ 2 * (E + uu * S / 50) + 1002 * tiny /\
  Rabs (real (nmul (nmul t v) v)) <= real v ^ 2 * S / 100 + 1002 * tiny.
Proof.
  intros Ft Fv V D TB S1 S2 ES. pose proof uu_small as [U1 U2]. pose proof tiny_small as [T1 T2]. set (r := real v) in *. set (t0 := real t) in *.
  assert (TT : Rabs t0 <= S / 190).
  { replace t0 with ((t0 - T) + T) by ring. eapply Rle_trans; [apply Rabs_triang|]. lra. }
  assert (P1 : Rabs (t0 * r) <= S / 190 * 1000) by (apply abs_mult_le; assumption).
  destruct (mul_spec t v Ft Fv) as [F1 R1]; [apply small_in_range; fold t0 r; rewrite big; lra|]. fold t0 r in R1.
  destruct (rnd_error (t0 * r)) as (e1 & h1 & He1 & Hh1 & Q1). rewrite Q1 in R1. set (m := real (nmul t v)) in *.
  assert (MM : Rabs m <= S / 190 * 1001).
  { rewrite R1. eapply Rle_trans; [apply Rabs_triang|]. assert (Rabs (t0 * r * (1 + e1)) <= S / 190 * 1000 * (1 + uu)).
    { apply abs_mult_le; [exact P1|]. eapply Rle_trans; [apply Rabs_triang|]. rewrite Rabs_R1. lra. } nra. }
  assert (P2 : Rabs (m * r) <= S / 190 * 1001 * 1000) by (apply abs_mult_le; assumption).
  destruct (mul_spec (nmul t v) v F1 Fv) as [F2 R2]; [apply small_in_range; fold m r; rewrite big; lra|]. fold m r in R2.
  destruct (rnd_error (m * r)) as (e2 & h2 & He2 & Hh2 & Q2). rewrite Q2 in R2. split; [exact F2|].
  set (x := real (nmul (nmul t v) v)) in *.
  assert (R0 : 0 <= r ^ 2) by (replace (r ^ 2) with (Rsqr r) by (unfold Rsqr; ring); apply Rle_0_sqr).
  assert (XE : x - r ^ 2 * T = r ^ 2 * (t0 - T) + r ^ 2 * (t0 * (e1 + e2 + e1 * e2)) + h1 * r * (1 + e2) + h2) by (rewrite R2, R1; ring).
  assert (A1 : Rabs (r ^ 2 * (t0 - T)) <= r ^ 2 * E) by (apply abs_mult_le; [rewrite Rabs_right; lra|exact D]).
  assert (EE : Rabs (e1 + e2 + e1 * e2) <= 3 * uu).
  { eapply Rle_trans; [apply Rabs_triang|]. assert (Rabs (e1 + e2) <= uu + uu) by (eapply Rle_trans; [apply Rabs_triang|]; lra).
    assert (Rabs (e1 * e2) <= uu * uu) by (apply abs_mult_le; assumption). nra. }
  assert (A2 : Rabs (r ^ 2 * (t0 * (e1 + e2 + e1 * e2))) <= r ^ 2 * (S / 190 * (3 * uu))).
  { apply abs_mult_le; [rewrite Rabs_right; lra|]. apply abs_mult_le; assumption. }
  assert (A3 : Rabs (h1 * r * (1 + e2)) <= tiny * 1000 * (1 + uu)).
  { apply abs_mult_le; [apply abs_mult_le; assumption|]. eapply Rle_trans; [apply Rabs_triang|]. rewrite Rabs_R1. lra. }
  assert (A4 : Rabs (x - r ^ 2 * T) <= r ^ 2 * (E + uu * S / 50) + 1002 * tiny).
  { rewrite XE. eapply Rle_trans; [apply Rabs_triang|]. eapply Rle_trans; [apply Rplus_le_compat_r; apply Rabs_triang|].
    eapply Rle_trans; [apply Rplus_le_compat_r, Rplus_le_compat_r; apply Rabs_triang|].
    assert (r ^ 2 * (S / 190 * (3 * uu)) <= r ^ 2 * (uu * S / 50)) by (apply Rmult_le_compat_l; [exact R0|]; nra). nra. }
  split; [exact A4|]. replace x with ((x - r ^ 2 * T) + r ^ 2 * T) by ring. eapply Rle_trans; [apply Rabs_triang|].
  assert (Rabs (r ^ 2 * T) <= r ^ 2 * (S / 252)) by (apply abs_mult_le; [rewrite Rabs_right; lra|exact TB]).
  assert (r ^ 2 * (E + uu * S / 50 + S / 252) <= r ^ 2 * (S / 100)) by (apply Rmult_le_compat_l; [exact R0|]; nra). lra.
Qed.

Lemma day_fraction d : in_day d -> fraction (ddf_frac d).
Proof. intros [F B]. split; [exact F|lra]. Qed.

Lemma leb_exact a b : in_day a -> in_day b -> before (exact_time b) (exact_time a) -> ddf_leb a b = false.
Proof.
  intros [Fa _] [Fb _] H. unfold ddf_leb, ddf_cmp. unfold before, exact_time in H. cbn [ddf_date ddf_frac] in H.
  destruct H as [H|[H L]].
  - destruct (Z.compare_spec (ddf_date a) (ddf_date b)); [lia|lia|reflexivity].
  - rewrite H, Z.compare_refl. pose proof (proj2 (ltb_spec _ _ Fb Fa) L) as Q.
    destruct (nltb (ddf_frac a) (ddf_frac b)) eqn:E; [apply ltb_spec in E; [lra|assumption..]|]. now rewrite Q.
Qed.

Lemma upto_dates a b : upto a b -> (ddf_date a <= ddf_date b)%Z /\ (ddf_date a = ddf_date b -> ddf_frac a <= ddf_frac b).
Proof. intros [[H|[H L]]| ->]; split; try lia; intros; lra. Qed.

Lemma uu_is : uu = bpow radix2 (-53).
Proof. reflexivity. Qed.

Lemma tiny_is : 3000 * tiny <= bpow radix2 (-1060).
Proof.
  unfold tiny. change (-1060)%Z with (15 + -1075)%Z. rewrite bpow_plus. apply Rmult_le_compat_r; [apply bpow_ge_0|]. cbn. lra.
Qed.

Section Flat.
  Context {TR : Trans F64}.
  Variable nan : F64.
  Variables (vol : F64) (cal : calendar F64) (base : ddf F64).
  Hypothesis FW : finite_weights cal.
  Hypothesis P : proper (exact cal).
  Hypothesis NS : (nesting cal <= 1000)%nat.
  Hypothesis FV : finite vol.
  Hypothesis BV : Rabs (real vol) <= 1000.
  Hypothesis DB : in_day base.

  Lemma flat_parts d k x : variance nan (FlatVolSurface vol cal base) d k = Ok x -> exists t, year_fraction cal base d = Ok t /\ x = nmul (nmul t vol) vol.
  Proof. unfold variance, variances. cbn [volatilities]. intros E. destruct (year_fraction cal base d) as [t| |]; cbn in E; try discriminate. injection E as <-. eauto. Qed.

  Lemma flat_small d t : in_day d -> (ddf_date base <= ddf_date d < ddf_date base + 2 ^ 40)%Z -> year_fraction cal base d = Ok t ->
    let days := span (ddf_date base) (ddf_date d) in
    finite (nmul (nmul t vol) vol) /\
    Rabs (real (nmul (nmul t vol) vol) - real vol ^ 2 * weighted_years (exact cal) (exact_time base) (exact_time d))
      <= (1 + INR (nesting cal)) * uu * days * real vol ^ 2 * (14 / 100) + 1002 * tiny /\
    Rabs (real (nmul (nmul t vol) vol)) <= real vol ^ 2 * days / 100 + 1002 * tiny.
  Proof.
    intros Dd L E days. destruct (years_near cal base d t FW P NS (day_fraction _ DB) (day_fraction _ Dd) ltac:(lia) ltac:(lia) E) as (Ft & Et & Bt).
    fold days in Et, Bt. destruct (span_small (ddf_date base) (ddf_date d) ltac:(lia) ltac:(lia)) as [S1 S2]. fold days in S1, S2.
    destruct (nesting_few cal NS) as [N1 N2]. pose proof uu_small as [U1 U2]. set (n := INR (nesting cal)) in *.
    assert (EB : (1 + n) / 9 * uu * days <= days / 1000).
    { replace (days / 1000) with (/ 1000 * days) by field. apply Rmult_le_compat_r; [lra|]. nra. }
    destruct (product_near t vol _ _ _ Ft FV BV Et Bt S1 S2 EB) as (Fx & Ex & Bx). split; [exact Fx|]. split; [|exact Bx].
    eapply Rle_trans; [exact Ex|]. apply Rplus_le_compat_r.
    assert (R0 : 0 <= real vol ^ 2) by (replace (real vol ^ 2) with (Rsqr (real vol)) by (unfold Rsqr; ring); apply Rle_0_sqr).
    replace ((1 + n) * uu * days * real vol ^ 2 * (14 / 100)) with (real vol ^ 2 * ((1 + n) * (uu * days) * (14 / 100))) by ring.
    apply Rmult_le_compat_l; [exact R0|]. assert (0 < uu * days) by nra. assert (0 <= n * (uu * days)) by nra. nra.
  Qed.

  Lemma flat_variance_near d k x : in_day d -> (ddf_date base <= ddf_date d < ddf_date base + 2 ^ 40)%Z ->
    variance nan (FlatVolSurface vol cal base) d k = Ok x ->
    finite x /\ Rabs (real x - real vol ^ 2 * weighted_years (exact cal) (exact_time base) (exact_time d))
      <= allowance cal base d vol.
  Proof.
    intros Dd L E. apply flat_parts in E. destruct E as (t & Et & ->). destruct (flat_small d t Dd L Et) as (F & N & _). split; [exact F|].
    eapply Rle_trans; [exact N|]. unfold allowance. rewrite <- uu_is. unfold span. pose proof tiny_is. pose proof tiny_small as [T1 T2]. pose proof uu_small as [U1 U2].
    destruct (nesting_few cal NS) as [N1 N2].
    assert (R0 : 0 <= real vol ^ 2) by (replace (real vol ^ 2) with (Rsqr (real vol)) by (unfold Rsqr; ring); apply Rle_0_sqr).
    assert (0 <= IZR (ddf_date d - ddf_date base + 1)) by (apply IZR_le; lia).
    assert (0 <= (1 + INR (nesting cal)) * uu * IZR (ddf_date d - ddf_date base + 1) * real vol ^ 2).
    { apply Rmult_le_pos; [|exact R0]. apply Rmult_le_pos; [|assumption]. apply Rmult_le_pos; lra. }
    lra.
  Qed.

  Section Forward.
    Variables (from to : ddf F64) (k t t' : F64).
    Hypothesis DF : in_day from.
    Hypothesis DT : in_day to.
    Hypothesis BF : before (exact_time base) (exact_time from).
    Hypothesis FT : upto (exact_time from) (exact_time to).
    Hypothesis LT : (ddf_date to < ddf_date base + 2 ^ 40)%Z.
    Hypothesis ET : year_fraction cal base from = Ok t.
    Hypothesis ET' : year_fraction cal base to = Ok t'.

    Let x0 := nmul (nmul t vol) vol.
    Let x1 := nmul (nmul t' vol) vol.

    Lemma flat_forward_is : forward_variance nan (FlatVolSurface vol cal base) from to k =
      if nltb (nsub x1 x0) n0 then Err "Negative forward variance" else Ok (nsub x1 x0).
    Proof.
      unfold forward_variance, forward_variances. cbn [vs_base vs_forward]. rewrite (leb_exact from base DF DB BF).
      unfold variances. cbn [volatilities]. rewrite ET, ET'. cbn [bind map combine fst snd checked_vars]. fold x0 x1.
      destruct (nltb (nsub x1 x0) n0); reflexivity.
    Qed.

    Lemma order : (ddf_date base <= ddf_date from)%Z /\ (ddf_date from <= ddf_date to)%Z /\ (ddf_date from = ddf_date to -> real (ddf_frac from) <= real (ddf_frac to)).
    Proof. destruct (upto_dates _ _ (or_introl BF)) as [A _]. destruct (upto_dates _ _ FT) as [B C]. split; [exact A|]. split; [exact B|exact C]. Qed.

    Lemma flat_difference : finite x0 /\ finite x1 /\ finite (nsub x1 x0) /\ real (nsub x1 x0) = rnd (real x1 - real x0) /\
      Rabs (real (nsub x1 x0) - real vol ^ 2 * weighted_years (exact cal) (exact_time from) (exact_time to))
        <= allowance cal base to vol.
    Proof.
      destruct order as (A & B & C).
      destruct (flat_small from t DF ltac:(lia) ET) as (F0 & N0 & B0). destruct (flat_small to t' DT ltac:(lia) ET') as (F1 & N1 & B1). fold x0 in F0, N0, B0. fold x1 in F1, N1, B1.
      destruct (span_small (ddf_date base) (ddf_date from) ltac:(lia) ltac:(lia)) as [S1 S2]. destruct (span_small (ddf_date base) (ddf_date to) ltac:(lia) ltac:(lia)) as [S3 S4].
      assert (SS : span (ddf_date base) (ddf_date from) <= span (ddf_date base) (ddf_date to)) by (unfold span; apply IZR_le; lia).
      set (s0 := span (ddf_date base) (ddf_date from)) in *. set (s1 := span (ddf_date base) (ddf_date to)) in *.
      pose proof tiny_is as TI. pose proof tiny_small as [T1 T2]. pose proof uu_small as [U1 U2]. destruct (nesting_few cal NS) as [NN1 NN2]. set (n := INR (nesting cal)) in *.
      assert (R0 : 0 <= real vol ^ 2) by (replace (real vol ^ 2) with (Rsqr (real vol)) by (unfold Rsqr; ring); apply Rle_0_sqr).
      assert (R1 : real vol ^ 2 <= 1000000). { apply Rabs_le_inv in BV. replace (real vol ^ 2) with (real vol * real vol) by ring. nra. }
      assert (V0 : real vol ^ 2 * s0 / 100 <= real vol ^ 2 * s1 / 100) by nra.
      assert (V1 : real vol ^ 2 * s1 / 100 <= 1000000 * 2199023255552 / 100).
      { assert (real vol ^ 2 * s1 <= 1000000 * 2199023255552) by (apply Rmult_le_compat; lra). lra. }
      assert (AB : Rabs (real x1 - real x0) <= 2 * (real vol ^ 2 * s1 / 100 + 1002 * tiny)).
      { unfold Rminus. eapply Rle_trans; [apply Rabs_triang|]. rewrite Rabs_Ropp. lra. }
      assert (R60 : Rabs (real x1 - real x0) <= bpow radix2 60) by (rewrite big; lra).
      destruct (sub_spec x1 x0 F1 F0 (small_in_range _ R60)) as [Fd Rd]. destruct (sub_err x1 x0 F1 F0 R60) as [_ Ed].
      split; [exact F0|]. split; [exact F1|]. split; [exact Fd|]. split; [exact Rd|].
      assert (W : weighted_years (exact cal) (exact_time from) (exact_time to) =
        weighted_years (exact cal) (exact_time base) (exact_time to) - weighted_years (exact cal) (exact_time base) (exact_time from)).
      { unfold weighted_years, exact_time. cbn [ddf_date ddf_frac].
        rewrite (weighted_time_split (weight (exact cal)) (ddf_date base) (real (ddf_frac base)) (ddf_date from) (real (ddf_frac from)) (ddf_date to) (real (ddf_frac to))) by lia.
        unfold Rdiv. ring. }
      rewrite W. set (Y1 := weighted_years (exact cal) (exact_time base) (exact_time to)) in *. set (Y0 := weighted_years (exact cal) (exact_time base) (exact_time from)) in *.
      replace (real (nsub x1 x0) - real vol ^ 2 * (Y1 - Y0)) with
        ((real (nsub x1 x0) - (real x1 - real x0)) + ((real x1 - real vol ^ 2 * Y1) - (real x0 - real vol ^ 2 * Y0))) by ring.
      eapply Rle_trans; [apply Rabs_triang|]. unfold allowance. fold n. rewrite <- uu_is. change (IZR (ddf_date to - ddf_date base + 1)) with s1.
      assert (D : Rabs ((real x1 - real vol ^ 2 * Y1) - (real x0 - real vol ^ 2 * Y0)) <=
        ((1 + n) * uu * s1 * real vol ^ 2 * (14 / 100) + 1002 * tiny) + ((1 + n) * uu * s0 * real vol ^ 2 * (14 / 100) + 1002 * tiny)).
      { unfold Rminus at 1. eapply Rle_trans; [apply Rabs_triang|]. rewrite Rabs_Ropp. apply Rplus_le_compat; assumption. }
      assert (uv : 0 <= uu * real vol ^ 2) by nra.
      assert (K : (1 + n) * uu * s0 * real vol ^ 2 <= (1 + n) * uu * s1 * real vol ^ 2).
      { apply Rmult_le_compat_r; [exact R0|]. apply Rmult_le_compat_l; [|exact SS]. apply Rmult_le_pos; lra. }
      assert (K1 : uu * (real vol ^ 2 * s1) <= (1 + n) * uu * s1 * real vol ^ 2).
      { replace ((1 + n) * uu * s1 * real vol ^ 2) with (uu * (real vol ^ 2 * s1) + n * (uu * (real vol ^ 2 * s1))) by ring.
        assert (0 <= uu * (real vol ^ 2 * s1)) by (apply Rmult_le_pos; [lra|apply Rmult_le_pos; lra]). nra. }
      assert (E2 : uu * Rabs (real x1 - real x0) <= uu * (2 * (real vol ^ 2 * s1 / 100 + 1002 * tiny))) by (apply Rmult_le_compat_l; lra).
      assert (E3 : uu * (2 * (1002 * tiny)) <= tiny) by nra.
      assert (K0 : 0 <= (1 + n) * uu * s1 * real vol ^ 2).
      { apply Rmult_le_pos; [|exact R0]. apply Rmult_le_pos; [|lra]. apply Rmult_le_pos; lra. }
      lra.
    Qed.

    Lemma flat_forward_near :
      (exists x, forward_variance nan (FlatVolSurface vol cal base) from to k = Ok x /\ finite x /\ 0 <= real x /\
        Rabs (real x - real vol ^ 2 * weighted_years (exact cal) (exact_time from) (exact_time to))
          <= allowance cal base to vol) \/
      (forward_variance nan (FlatVolSurface vol cal base) from to k = Err "Negative forward variance" /\
        real vol ^ 2 * weighted_years (exact cal) (exact_time from) (exact_time to)
          <= allowance cal base to vol).
    Proof.
      destruct flat_difference as (F0 & F1 & Fd & Rd & E). rewrite flat_forward_is. destruct zero_spec as [FZ RZ].
      destruct (nltb (nsub x1 x0) n0) eqn:Q.
      - right. split; [reflexivity|]. apply ltb_spec in Q; [|assumption..]. rewrite RZ in Q. apply Rabs_le_inv in E. lra.
      - left. eexists. split; [reflexivity|]. split; [exact Fd|]. split; [|exact E].
        destruct (Rle_lt_dec 0 (real (nsub x1 x0))) as [G|G]; [exact G|]. exfalso.
        assert (nltb (nsub x1 x0) n0 = true) by (apply ltb_spec; [assumption..|rewrite RZ; exact G]). congruence.
    Qed.

    Lemma mul_twice_mono a b : finite a -> finite b -> real a <= real b ->
      Rabs (real a * real vol) <= bpow radix2 60 -> Rabs (real b * real vol) <= bpow radix2 60 -> finite (nmul (nmul a vol) vol) -> finite (nmul (nmul b vol) vol) ->
      Rabs (real (nmul a vol) * real vol) <= bpow radix2 60 -> Rabs (real (nmul b vol) * real vol) <= bpow radix2 60 ->
      real (nmul (nmul a vol) vol) <= real (nmul (nmul b vol) vol).
    Proof.
      intros Fa Fb L A B _ _ A' B'.
      destruct (mul_spec a vol Fa FV (small_in_range _ A)) as [G1 Q1], (mul_spec b vol Fb FV (small_in_range _ B)) as [G2 Q2].
      destruct (mul_spec _ vol G1 FV (small_in_range _ A')) as [_ ->], (mul_spec _ vol G2 FV (small_in_range _ B')) as [_ ->].
      apply rnd_le. rewrite Q1, Q2. destruct (Rle_lt_dec 0 (real vol)) as [V|V].
      - apply Rmult_le_compat_r; [exact V|]. apply rnd_le. now apply Rmult_le_compat_r.
      - assert (rnd (real b * real vol) <= rnd (real a * real vol)) by (apply rnd_le; nra). nra.
    Qed.

    Lemma flat_forward_ok : real (ddf_frac base) = 0 \/ every_day cal ->
      exists x, forward_variance nan (FlatVolSurface vol cal base) from to k = Ok x /\ finite x /\ 0 <= real x /\
        Rabs (real x - real vol ^ 2 * weighted_years (exact cal) (exact_time from) (exact_time to))
          <= allowance cal base to vol.
    Proof.
      intros Ti. destruct flat_forward_near as [H|[H _]]; [exact H|exfalso].
      destruct flat_difference as (F0 & F1 & Fd & Rd & _). rewrite flat_forward_is in H.
      destruct (nltb (nsub x1 x0) n0) eqn:Q; [|discriminate]. destruct zero_spec as [FZ RZ]. apply ltb_spec in Q; [|assumption..]. rewrite RZ, Rd in Q.
      assert (L : real x0 <= real x1); [|assert (rnd 0 <= rnd (real x1 - real x0)) by (apply rnd_le; lra); rewrite rnd_0 in *; lra].
      destruct order as (A & B & C).
      destruct (years_near cal base from t FW P NS (day_fraction _ DB) (day_fraction _ DF) ltac:(lia) ltac:(lia) ET) as (Ft & Et & Bt).
      destruct (years_near cal base to t' FW P NS (day_fraction _ DB) (day_fraction _ DT) ltac:(lia) ltac:(lia) ET') as (Ft' & Et' & Bt').
      destruct (span_small (ddf_date base) (ddf_date from) ltac:(lia) ltac:(lia)) as [S1 S2]. destruct (span_small (ddf_date base) (ddf_date to) ltac:(lia) ltac:(lia)) as [S3 S4].
      assert (LL : real t <= real t').
      { unfold year_fraction in ET, ET'. apply bind_ok in ET. destruct ET as (c0 & Ec & Q0). injection Q0 as <-. apply bind_ok in ET'. destruct ET' as (c1 & Ec' & Q1). injection Q1 as <-.
        assert (LC := count_later cal FW P NS _ _ _ _ _ _ _ _ (day_fraction _ DB) (day_fraction _ DF) (day_fraction _ DT) Ti (conj A B) ltac:(lia) C Ec Ec').
        destruct (count_small cal FW P NS _ _ _ _ _ (day_fraction _ DB) (day_fraction _ DF) A ltac:(lia) Ec) as [G0 H0].
        destruct (count_small cal FW P NS _ _ _ _ _ (day_fraction _ DB) (day_fraction _ DT) (Z.le_trans _ _ _ A B) ltac:(lia) Ec') as [G1 H1].
        destruct (basis_near cal FW P NS) as [Fs Es]. pose proof (basis_bounds _ P) as BB. destruct (nesting_few cal NS) as [N1 N2]. pose proof uu_small as [U1 U2].
        assert (Es' : Rabs (real (standard_basis cal) - standard_basis (exact cal)) <= 1) by (eapply Rle_trans; [exact Es|]; nra).
        apply Rabs_le_inv in Es'. set (bs := real (standard_basis cal)) in *.
        assert (Ib : 0 < / bs <= 1) by (split; [apply Rinv_0_lt_compat; lra|rewrite <- Rinv_1; apply Rinv_le; lra]).
        assert (I0 : forall y, Rabs y <= bpow radix2 60 -> in_range (y / bs)).
        { intros y Y. apply small_in_range. rewrite <- (Rmult_1_r (bpow radix2 60)). unfold Rdiv. apply abs_mult_le; [exact Y|rewrite Rabs_right; lra]. }
        change (real (ndiv c0 (standard_basis cal)) <= real (ndiv c1 (standard_basis cal))).
        destruct (div_spec c0 (standard_basis cal) G0 Fs) as [_ ->]; [fold bs; lra|fold bs; now apply I0|].
        destruct (div_spec c1 (standard_basis cal) G1 Fs) as [_ ->]; [fold bs; lra|fold bs; now apply I0|].
        apply rnd_le. fold bs. apply Rmult_le_compat_r; lra. }
      pose proof uu_small as [U1 U2]. pose proof tiny_small as [T1 T2]. destruct (nesting_few cal NS) as [N1 N2].
      assert (BT : forall z Z0 s, Rabs (z - Z0) <= (1 + INR (nesting cal)) / 9 * uu * s -> Rabs Z0 <= s / 252 -> 1 <= s -> s <= 2199023255552 -> Rabs z <= 10000000000).
      { intros z Z0 s H1 H2 H3 H4. replace z with ((z - Z0) + Z0) by ring. eapply Rle_trans; [apply Rabs_triang|].
        assert ((1 + INR (nesting cal)) / 9 * uu * s <= 1000 * uu * s) by (apply Rmult_le_compat_r; [lra|]; apply Rmult_le_compat_r; lra).
        assert (1000 * uu * s <= 1000 * uu * 2199023255552) by (apply Rmult_le_compat_l; lra). lra. }
      assert (B0 := BT _ _ _ Et Bt S1 S2). assert (B1 := BT _ _ _ Et' Bt' S3 S4).
      assert (M : forall z : F64, finite z -> Rabs (real z) <= 10000000000 ->
        Rabs (real z * real vol) <= bpow radix2 60 /\ Rabs (real (nmul z vol) * real vol) <= bpow radix2 60).
      { intros z Fz Bz. assert (Q1 : Rabs (real z * real vol) <= 10000000000 * 1000) by (apply abs_mult_le; assumption).
        assert (Q2 : Rabs (real z * real vol) <= bpow radix2 44) by (cbn; lra). split; [rewrite big; lra|].
        destruct (mul_spec z vol Fz FV) as [_ R]; [apply (bound_in_range _ 44); [lia|exact Q2]|].
        assert (Q3 := rnd_bound _ 44 ltac:(lia) Q2). rewrite <- R in Q3.
        assert (Rabs (real (nmul z vol) * real vol) <= bpow radix2 44 * 1000) by (apply abs_mult_le; assumption).
        cbn in H0 |- *. lra. }
      destruct (M t Ft B0), (M t' Ft' B1). apply mul_twice_mono; assumption.
    Qed.
  End Forward.
End Flat.

Lemma at_midnight d : in_day (mkDDF d n0).
Proof. destruct zero_spec as [F R]. split; cbn [ddf_frac]; [exact F|rewrite R; lra]. Qed.

Lemma flat_case : finite_weights three_tenths /\ proper (exact three_tenths) /\
  finite (nlit 1 4) /\ Rabs (real (nlit 1 4)) <= 1000 /\ in_day (mkDDF 7%Z n0) /\ in_day (mkDDF 11%Z n0) /\ in_day (mkDDF 13%Z n0) /\
  exists t t', year_fraction three_tenths (mkDDF 7%Z n0) (mkDDF 11%Z n0) = Ok t /\ year_fraction three_tenths (mkDDF 7%Z n0) (mkDDF 13%Z n0) = Ok t'.
Proof.
  destruct three_tenths_proper as (A & B & _). split; [exact A|]. split; [exact B|].
  destruct (lit_real 1 4 ltac:(lia) ltac:(lia) ltac:(lia)) as (F & _ & R). split; [exact F|]. split; [apply Rabs_le; lra|].
  do 3 (split; [apply at_midnight|]). eexists _, _. split; vm_compute; reflexivity.
Qed.

Lemma weekend_case (TR : Trans F64) nan k : exists vol cal base from to,
  finite vol /\ in_day base /\ in_day from /\ in_day to /\ before (exact_time base) (exact_time from) /\ before (exact_time from) (exact_time to) /\
  forward_variance nan (FlatVolSurface vol cal base) from to k = Err "Negative forward variance".
Proof.
  exists (nlit 1 4), Weekday, (mkDDF 7%Z (nlit 74 1000)), (mkDDF 9%Z n0), (mkDDF 11%Z n0).
  split; [apply lit_real; lia|]. split; [split; cbn [ddf_frac]|].
  - apply lit_real; lia.
  - destruct (lit_real 74 1000 ltac:(lia) ltac:(lia) ltac:(lia)) as (F & _ & R). split; [lra|].
    destruct one_spec as [F1 R1]. rewrite <- R1. apply ltb_spec; [exact F|exact F1|vm_compute; reflexivity].
  - do 2 (split; [apply at_midnight|]). split; [left; cbn; lia|]. split; [left; cbn; lia|]. apply weekend_negative.
Qed.

Lemma nan_hidden (TR : Trans F64) nan : exists s d, forall k,
  (exists t, volatility_is nan s d k F_nan t) /\ (exists t, volatility_is nan (ParallelBumpVol s (nlit 1 100)) d k n0 t) /\
  forall x, variance nan (ParallelBumpVol s (nlit 1 100)) d k = Ok x -> x = n0.
Proof.
  destruct (weekend_nan TR nan) as (v & E & _). vm_compute in E. injection E as E. exists (VolByProbability v), (mkDDF 10%Z n0). intros k. subst v.
  split; [eexists; vm_compute; reflexivity|]. split; [eexists; vm_compute; reflexivity|]. intros x. vm_compute. intros [= <-]. reflexivity.
Qed.
