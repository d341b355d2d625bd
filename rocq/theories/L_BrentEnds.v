(** Root finding ends: how many iterations are enough, and how far from the bracket the trials go. *)
From Coq Require Import ZArith List String Bool Lia Reals Lra.
From Verif Require Import Prelude Num L_Num M_Brent S_Math L_Brent.
Import ListNotations.
Open Scope R_scope.

Definition width (s : brent R) : R := Rabs (bc s - bb s).

Lemma tol_half tol (s : brent R) : 0 < tol -> tol / 2 <= brent_tol tol s.
Proof.
  intros H. unfold brent_tol, epsilon. rnum. pose proof (Rabs_pos (bb s)).
  assert (0 <= 2 * (1 / 4503599627370496) * Rabs (bb s)) by (apply Rmult_le_pos; lra). lra.
Qed.

(** One step: its direction, its size, and the new d and e. *)
Lemma step_shape tol (s : brent R) : 0 < tol -> let tol1 := brent_tol tol s in
  tol1 < Rabs (brent_xm s) ->
  let d := fst (brent_de tol1 s) in let e := snd (brent_de tol1 s) in
  exists u sg, (sg = 1 \/ sg = -1) /\ bc s = bb s + sg * width s /\ brent_trial tol1 d s = bb s + sg * u /\ tol1 <= u /\ tol1 < width s / 2 /\
    ((u = width s / 2 /\ Rabs d = width s / 2 /\ Rabs e = width s / 2) \/
     (tol1 <= Rabs (be s) /\ Rabs d < Rabs (be s) / 2 /\ e = bd s /\ (u = Rabs d \/ (u = tol1 /\ Rabs d <= tol1)))).
Proof.
  intros Ht tol1 Hx. pose proof (tol_half tol s Ht) as T0. fold tol1 in T0. cbv zeta.
  assert (XM : brent_xm s = (bc s - bb s) / 2) by (unfold brent_xm; rnum; lra).
  assert (WX : width s / 2 = Rabs (brent_xm s)).
  { unfold width. rewrite XM. unfold Rdiv. rewrite Rabs_mult, (Rabs_right (/ 2)) by lra. reflexivity. }
  set (sg := if Rlt_dec (brent_xm s) 0 then -1 else 1).
  assert (SG : sg = 1 \/ sg = -1) by (unfold sg; destruct Rlt_dec; tauto).
  assert (XS : brent_xm s = sg * (width s / 2)).
  { rewrite WX. unfold sg. destruct Rlt_dec; [rewrite Rabs_left; lra|rewrite Rabs_right; lra]. }
  assert (SN : signum (brent_xm s) = sg).
  { unfold signum, sg. rnum. rewrite (proj2 (Reqb_iff (brent_xm s) (brent_xm s)) eq_refl). destruct (Rltb_spec (brent_xm s) 0), (Rlt_dec (brent_xm s) 0); lra. }
  assert (CB : bc s = bb s + sg * width s) by lra.
  assert (TR : forall d, brent_trial tol1 d s = if Rltb tol1 (Rabs d) then bb s + d else bb s + sg * tol1).
  { intros d. unfold brent_trial. rewrite SN. rnum. destruct Rltb; [reflexivity|]. rewrite (Rabs_right tol1) by lra. ring. }
  assert (BI : forall P : Prop, P -> exists u sg0, (sg0 = 1 \/ sg0 = -1) /\ bc s = bb s + sg0 * width s /\ brent_trial tol1 (brent_xm s) s = bb s + sg0 * u /\ tol1 <= u /\ tol1 < width s / 2 /\
    ((u = width s / 2 /\ Rabs (brent_xm s) = width s / 2 /\ Rabs (brent_xm s) = width s / 2) \/
     (tol1 <= Rabs (be s) /\ Rabs (brent_xm s) < Rabs (be s) / 2 /\ brent_xm s = bd s /\ (u = Rabs (brent_xm s) \/ (u = tol1 /\ Rabs (brent_xm s) <= tol1))))).
  { intros _ _. exists (width s / 2), sg. split; [exact SG|]. split; [exact CB|]. rewrite TR. destruct (Rltb_spec tol1 (Rabs (brent_xm s))); [|lra].
    split; [rewrite XS at 1; lra|]. split; [lra|]. split; [lra|]. left. lra. }
  unfold brent_de. destruct (andb (tol1 <=? nabs (be s))%num (nabs (bfb s) <? nabs (bfa s))%num) eqn:AC; [|exact (BI True I)].
  destruct (brent_pq s) as (p, q) eqn:PQ.
  assert (Pp : 0 <= p).
  { unfold brent_pq in PQ. destruct (brent_pq0 s) as (p0, q0). inversion PQ. rnum. apply Rabs_pos. }
  destruct (nofZ 2 * p <? nmin (nofZ 3 * brent_xm s * q * nabs (tol1 - q)) (nabs (be s * q)))%num eqn:M; [|exact (BI True I)].
  cbn [fst snd]. rnum. apply Rltb_iff in M. apply andb_true_iff in AC. destruct AC as [A1 _]. apply Rleb_iff in A1.
  assert (M1 : 2 * p < 3 * brent_xm s * q * Rabs (tol1 - q) /\ 2 * p < Rabs (be s * q)).
  { unfold nmin in M. rnum. rewrite (proj2 (Reqb_iff (3 * brent_xm s * q * Rabs (tol1 - q)) _) eq_refl) in M.
    destruct (Rltb_spec (Rabs (be s * q)) (3 * brent_xm s * q * Rabs (tol1 - q))); lra. }
  destruct M1 as [M1 M2]. pose proof (Rabs_pos (tol1 - q)) as A0. assert (XQ : 0 < brent_xm s * q) by nra. assert (Q0 : q <> 0) by nra.
  assert (Pq : p / q * q = p) by (field; exact Q0). rewrite Rabs_mult in M2. assert (QP : 0 < Rabs q) by (apply Rabs_pos_lt; exact Q0).
  assert (DP : Rabs (p / q) = p / Rabs q) by (unfold Rdiv; rewrite Rabs_mult, Rabs_inv, (Rabs_right p) by lra; reflexivity).
  assert (D2 : Rabs (p / q) < Rabs (be s) / 2).
  { rewrite DP. apply (Rmult_lt_reg_r (Rabs q)); [exact QP|]. replace (p / Rabs q * Rabs q) with p by (field; lra). lra. }
  assert (DS : p / q = sg * Rabs (p / q)).
  { rewrite DP. destruct SG as [Sg|Sg]; rewrite Sg in *.
    - assert (0 < q) by nra. rewrite (Rabs_right q) by lra. ring.
    - assert (q < 0) by nra. rewrite (Rabs_left q) by lra. field. exact Q0. }
  destruct (Rltb_spec tol1 (Rabs (p / q))) as [L|L]; rewrite TR.
  - rewrite (proj2 (Rltb_iff _ _) L). exists (Rabs (p / q)), sg. split; [exact SG|]. split; [exact CB|]. split; [rewrite DS at 1; reflexivity|]. split; [lra|]. split; [lra|].
    right. split; [exact A1|]. split; [exact D2|]. split; [reflexivity|]. now left.
  - destruct (Rltb_spec tol1 (Rabs (p / q))); [lra|]. exists tol1, sg. split; [exact SG|]. split; [exact CB|]. split; [reflexivity|]. split; [lra|]. split; [lra|].
    right. split; [exact A1|]. split; [exact D2|]. split; [reflexivity|]. right. split; [reflexivity|lra].
Qed.

(** The next state, prepared. *)
Lemma next_prepared (s : brent R) t d e ft : bfb s <> 0 -> bfb s * bfc s <= 0 ->
  let s' := brent_prepare (mkBrent (bb s) t (bc s) d e (bfb s) ft (bfc s)) in
  bfb s' * bfc s' <= 0 /\
  ((((bb s' = t /\ bc s' = bb s) \/ (bb s' = bb s /\ bc s' = t)) /\ bd s' = t - bb s /\ be s' = t - bb s) \/
   (((bb s' = t /\ bc s' = bc s) \/ (bb s' = bc s /\ bc s' = t)) /\ bd s' = d /\ be s' = e)).
Proof.
  intros NZ O. cbv zeta. unfold brent_prepare, rebracket, rotate. cbn [ba bb bc bd be bfa bfb bfc].
  destruct (same_sign ft (bfc s)) eqn:SS; cbn [ba bb bc bd be bfa bfb bfc].
  - apply same_sign_iff in SS. destruct nltb; cbn [ba bb bc bd be bfa bfb bfc]; (split; [destruct SS as [(P & Q)|(P & Q)]; nra|]); left; rnum; tauto.
  - apply same_sign_false in SS. destruct nltb; cbn [ba bb bc bd be bfa bfb bfc]; (split; [lra|]); right; tauto.
Qed.

(** What holds of a prepared state: [t] is half the tolerance, and [X] is how far the trials may still go. *)
Record bounded (t : R) (j i1 i2 : nat) (lo hi X : R) (s : brent R) : Prop := {
  bd_signs : bfb s * bfc s <= 0;
  bd_width : width s < t * 2 ^ j; bd_e : Rabs (be s) < t * 2 ^ i1; bd_d : Rabs (bd s) < t * 2 ^ i2;
  bd_i1 : (i1 <= j)%nat; bd_i2 : (i2 <= j)%nat;
  bd_X : 0 <= X /\ 3 * width s <= X /\ 2 * Rabs (be s) + 2 * Rabs (bd s) - width s <= X;
  bd_lo : lo + X <= bb s /\ lo + X <= bc s; bd_hi : bb s + X <= hi /\ bc s + X <= hi }.

Definition finished (tol : R) (s : brent R) : Prop := Rabs (brent_xm s) <= brent_tol tol s \/ bfb s = 0.

Lemma pow_le t i j : 0 < t -> (i <= j)%nat -> t * 2 ^ i <= t * 2 ^ j.
Proof. intros T L. apply Rmult_le_compat_l; [lra|]. apply Rle_pow; [lra|exact L]. Qed.
Lemma pow_S t i : t * 2 ^ S i = 2 * (t * 2 ^ i).
Proof. cbn [pow]. ring. Qed.

Lemma width_cases (s : brent R) x y : (bb s = x /\ bc s = y) \/ (bb s = y /\ bc s = x) -> width s = Rabs (x - y).
Proof. unfold width. intros [[-> ->]|[-> ->]]; [apply Rabs_minus_sym|reflexivity]. Qed.

Lemma step_bounded tol j i1 i2 lo hi X (s : brent R) ft : 0 < tol -> bounded (tol / 2) j i1 i2 lo hi X s -> ~ finished tol s ->
  let tol1 := brent_tol tol s in let d := fst (brent_de tol1 s) in let e := snd (brent_de tol1 s) in let u := brent_trial tol1 d s in
  lo <= u <= hi /\
  let s' := brent_prepare (mkBrent (bb s) u (bc s) d e (bfb s) ft (bfc s)) in
  finished tol s' \/
  (exists j' X', j = S j' /\ bounded (tol / 2) j' j' j' lo hi X' s') \/
  (exists i X', i1 = S i /\ bounded (tol / 2) j i2 i lo hi X' s').
Proof.
  intros Ht B NF. cbv zeta. assert (NX : brent_tol tol s < Rabs (brent_xm s)) by (apply Rnot_le_lt; intros L; apply NF; now left).
  assert (NZ : bfb s <> 0) by (intros L; apply NF; now right).
  pose proof (tol_half tol s Ht) as T0.
  destruct (step_shape tol s Ht NX) as (u & sg & SG & CB & TR & TU & TW & SH). rewrite TR in *.
  set (tol1 := brent_tol tol s) in *. set (d := fst (brent_de tol1 s)) in *. set (e := snd (brent_de tol1 s)) in *.
  destruct B as [Bs Bw Be Bd L1 L2 (X0 & X1 & X2) (Lo1 & Lo2) (Hi1 & Hi2)].
  pose proof (next_prepared s (bb s + sg * u) d e ft NZ Bs) as NP. cbv zeta in NP.
  set (s' := brent_prepare _) in *. destruct NP as [Ps NP].
  assert (W0 : 0 <= width s) by apply Rabs_pos. pose proof (Rabs_pos (be s)) as E0. pose proof (Rabs_pos (bd s)) as D0.
  (* where the trial is *)
  assert (UX : u <= width s + X).
  { destruct SH as [(-> & _)|(_ & D2 & _ & [->|(-> & _)])]; lra. }
  assert (RG : lo <= bb s + sg * u <= hi).
  { destruct SG as [->| ->]; lra. }
  split; [exact RG|].
  assert (AW : forall x, Rabs (sg * x) = Rabs x) by (intros x; destruct SG as [->| ->]; [rewrite Rmult_1_l; reflexivity|replace (-1 * x) with (- x) by ring; apply Rabs_Ropp]).
  destruct NP as [(BC & D' & E')|(BC & D' & E')].
  - (* the other end is the previous best *)
    assert (W' : width s' = u).
    { rewrite (width_cases s' _ _ BC). replace (bb s + sg * u - bb s) with (sg * u) by ring. rewrite AW. apply Rabs_right. lra. }
    assert (A' : Rabs (bd s') = u /\ Rabs (be s') = u).
    { rewrite D', E'. replace (bb s + sg * u - bb s) with (sg * u) by ring. rewrite AW, Rabs_right by lra. split; reflexivity. }
    destruct A' as [AD AE].
    assert (SM : u <= tol1 \/ (exists j', j = S j' /\ u < tol / 2 * 2 ^ j' /\ 3 * u <= 3 / 2 * width s + Rabs (be s) + Rabs (be s) / 2 /\ (u <= width s / 2 \/ u < Rabs (be s) / 2))).
    { destruct SH as [(Eu & _)|(_ & D2 & _ & [Eu|(-> & _)])]; [| |left; lra]; right.
      - destruct j as [|j]; [cbn [pow] in Bw; lra|]. exists j. rewrite pow_S in Bw. repeat split; lra.
      - destruct i1 as [|i1]; [cbn [pow] in Be; lra|]. destruct j as [|j]; [lia|]. exists j. rewrite pow_S in Be.
        pose proof (pow_le (tol / 2) i1 j ltac:(lra) ltac:(lia)). repeat split; lra. }
    destruct SM as [SM|(j' & -> & SU & _ & SC)].
    + left. left. assert (XM : Rabs (brent_xm s') = u / 2).
      { rewrite <- W'. unfold brent_xm, width. rnum. rewrite Rabs_mult, (Rabs_right (1 / 2)) by lra. lra. }
      rewrite XM. pose proof (tol_half tol s' Ht) as T1. assert (Eu : u = tol1) by lra.
      assert (Bb : Rabs (bb s) <= Rabs (bb s') + u).
      { destruct BC as [[-> _]|[-> _]]; [|lra]. replace (bb s) with ((bb s + sg * u) + - (sg * u)) at 1 by ring.
        apply Rle_trans with (1 := Rabs_triang _ _). rewrite Rabs_Ropp, AW. rewrite (Rabs_right u) by lra. lra. }
      unfold tol1, brent_tol, epsilon in Eu. unfold brent_tol, epsilon. rnum. 
      set (h := 2 * (1 / 4503599627370496)) in *. assert (Hh : 0 < h < 1 / 4) by (unfold h; lra). nra.
    + right. left. exists j'. exists (Rmax (3 * u) 0). split; [reflexivity|].
      constructor; try (rewrite ?W', ?AD, ?AE; lra); try lia; rewrite ?W', ?AD, ?AE.
      * unfold Rmax. destruct Rle_dec; lra.
      * unfold Rmax. destruct Rle_dec; destruct BC as [[-> ->]|[-> ->]]; destruct SG as [->| ->], SC; split; lra.
      * unfold Rmax. destruct Rle_dec; destruct BC as [[-> ->]|[-> ->]]; destruct SG as [->| ->], SC; split; lra.
  - (* the other end stays *)
    assert (W' : width s' = Rabs (width s - u)).
    { rewrite (width_cases s' _ _ BC). rewrite CB. replace (bb s + sg * u - (bb s + sg * width s)) with (- (sg * (width s - u))) by ring. rewrite Rabs_Ropp. apply AW. }
    destruct SH as [(Eu & Ed & Ee)|(A1 & D2 & Ee & Eu)].
    + right. left. destruct j as [|j]; [cbn [pow] in Bw; lra|]. exists j, (3 / 2 * width s). split; [reflexivity|]. rewrite pow_S in Bw.
      assert (W2 : width s' = width s / 2) by (rewrite W', Eu, Rabs_right; lra).
      constructor; rewrite ?W2, ?D', ?E', ?Ed, ?Ee; try lra; try lia.
      * destruct BC as [[-> ->]|[-> ->]]; destruct SG as [->| ->]; split; lra.
      * destruct BC as [[-> ->]|[-> ->]]; destruct SG as [->| ->]; split; lra.
    + right. right. destruct i1 as [|i]; [cbn [pow] in Be; lra|]. rewrite pow_S in Be. exists i.
      pose proof (pow_le (tol / 2) (S i) j ltac:(lra) L1) as PL. rewrite pow_S in PL. pose proof (Rabs_pos d) as Dd.
      destruct (Rle_dec u (width s)) as [IN|OUT].
      * assert (W2 : width s' = width s - u) by (rewrite W', Rabs_right; lra).
        assert (XX : 3 * (width s - u) <= X /\ 2 * Rabs (bd s) + 2 * Rabs d - (width s - u) <= X) by (destruct Eu as [Eu|[Eu Ed]]; split; lra).
        exists X. split; [reflexivity|]. constructor; rewrite ?W2, ?D', ?E', ?Ee; try lra; try lia.
        -- destruct BC as [[-> ->]|[-> ->]]; destruct SG as [->| ->]; split; lra.
        -- destruct BC as [[-> ->]|[-> ->]]; destruct SG as [->| ->]; split; lra.
      * assert (W2 : width s' = u - width s) by (rewrite W', Rabs_left; lra). assert (Eu' : u = Rabs d) by (destruct Eu as [Eu|[Eu _]]; lra).
        exists (X - (u - width s)). split; [reflexivity|]. constructor; rewrite ?W2, ?D', ?E', ?Ee; try lra; try lia.
        -- destruct BC as [[-> ->]|[-> ->]]; destruct SG as [->| ->]; split; lra.
        -- destruct BC as [[-> ->]|[-> ->]]; destruct SG as [->| ->]; split; lra.
Qed.

(** Iterations enough for a phase and those after it. *)
Lemma loop_ends tol lo hi f : 0 < tol -> (forall x, lo <= x <= hi -> exists y, f x = Ok y) -> forall j m i1 i2 X s log n,
  (i1 + i2 <= m)%nat -> bounded (tol / 2) j i1 i2 lo hi X (brent_prepare s) -> (m + 1 + j * j <= n)%nat -> Forall (fun x => lo <= x <= hi) log ->
  exists b log', brent_loop _ (logged f) tol n s log = (Ok b, log') /\ Forall (fun x => lo <= x <= hi) log'.
Proof.
  intros Ht Tot. induction j as [|j IHj].
  - intros m i1 i2 X s log n Hm B Hn FL. destruct n as [|n]; [lia|]. cbn [brent_loop].
    assert (FX : Rabs (brent_xm (brent_prepare s)) <= brent_tol tol (brent_prepare s)).
    { pose proof (bd_width _ _ _ _ _ _ _ _ B) as Bw. cbn [pow] in Bw. pose proof (tol_half tol (brent_prepare s) Ht).
      unfold width in Bw. unfold brent_xm. rnum. rewrite Rabs_mult, (Rabs_right (1 / 2)) by lra.
      pose proof (Rabs_pos (bc (brent_prepare s) - bb (brent_prepare s))). lra. }
    assert (E : (nabs (brent_xm (brent_prepare s)) <=? brent_tol tol (brent_prepare s))%num = true) by (rnum; now apply Rleb_iff).
    rewrite E. cbn [orb]. eexists _, _. split; [reflexivity|exact FL].
  - induction m as [|m IHm]; intros i1 i2 X s log n Hm B Hn FL; (destruct n as [|n]; [lia|]); cbn [brent_loop].
    all: set (s1 := brent_prepare s) in *;
      destruct ((nabs (brent_xm s1) <=? brent_tol tol s1)%num || (bfb s1 =? n0)%num)%bool eqn:T; [eexists _, _; split; [reflexivity|exact FL]|];
      assert (NF : ~ finished tol s1) by (apply orb_false_iff in T; destruct T as [T1 T2]; rnum; apply Rleb_false in T1; apply Reqb_false in T2; unfold finished; lra);
      pose proof (fun ft => step_bounded tol (S j) i1 i2 lo hi X s1 ft Ht B NF) as ST; cbv zeta in ST;
      destruct (brent_de (brent_tol tol s1) s1) as [d e]; cbn [fst snd] in ST;
      set (u := brent_trial (brent_tol tol s1) d s1) in *;
      destruct (Tot u (proj1 (ST 0))) as (ft & Ef); unfold logged at 1; rewrite Ef; specialize (ST ft); destruct ST as [RG ST];
      (assert (FL' : Forall (fun x => lo <= x <= hi) (u :: log)) by (constructor; assumption)).
    all: match goal with |- exists b log', brent_loop _ _ _ _ ?r _ = _ /\ _ => set (raw := r) in * end.
    all: destruct ST as [FN|[(j' & X' & Ej & B')|(i & X' & Ei & B')]].
    + destruct n as [|n]; [lia|]. cbn [brent_loop].
      assert (E : ((nabs (brent_xm (brent_prepare raw)) <=? brent_tol tol (brent_prepare raw))%num || (bfb (brent_prepare raw) =? n0)%num)%bool = true).
      { apply orb_true_iff. destruct FN as [FN|FN]; rnum; [left; now apply Rleb_iff|right; now apply Reqb_iff]. }
      rewrite E. eexists _, _. split; [reflexivity|exact FL'].
    + injection Ej as <-. apply (IHj (2 * j)%nat j j X' raw (u :: log) n); [lia|exact B'|lia|exact FL'].
    + lia.
    + destruct n as [|n]; [lia|]. cbn [brent_loop].
      assert (E : ((nabs (brent_xm (brent_prepare raw)) <=? brent_tol tol (brent_prepare raw))%num || (bfb (brent_prepare raw) =? n0)%num)%bool = true).
      { apply orb_true_iff. destruct FN as [FN|FN]; rnum; [left; now apply Rleb_iff|right; now apply Reqb_iff]. }
      rewrite E. eexists _, _. split; [reflexivity|exact FL'].
    + injection Ej as <-. apply (IHj (2 * j)%nat j j X' raw (u :: log) n); [lia|exact B'|lia|exact FL'].
    + apply (IHm i2 i X' raw (u :: log) n); [lia|exact B'|lia|exact FL'].
Qed.

(** A root is found after enough iterations, and the trials stay within three widths of the bracket. *)
Lemma zbrent_ends nan x1 x2 tol j n f : 0 < tol -> Rabs (x2 - x1) < tol / 2 * 2 ^ j -> ((j + 1) * (j + 1) <= n)%nat ->
  let near x := Rmin x1 x2 - 3 * Rabs (x2 - x1) <= x <= Rmax x1 x2 + 3 * Rabs (x2 - x1) in
  (forall x, near x -> exists y, f x = Ok y) -> (forall y1 y2, f x1 = Ok y1 -> f x2 = Ok y2 -> y1 * y2 <= 0) ->
  exists b log, zbrent _ (logged f) nan x1 x2 tol n [] = (Ok b, log) /\ Forall near log.
Proof.
  intros Ht Hw Hn near Tot Sg. pose proof (Rabs_pos (x2 - x1)) as W0.
  pose proof (Rmin_l x1 x2). pose proof (Rmin_r x1 x2). pose proof (Rmax_l x1 x2). pose proof (Rmax_r x1 x2).
  assert (N1 : near x1) by (unfold near; lra). assert (N2 : near x2) by (unfold near; lra).
  destruct (Tot x1 N1) as (y1 & E1). destruct (Tot x2 N2) as (y2 & E2). specialize (Sg y1 y2 E1 E2).
  unfold zbrent, logged at 1 2. rewrite E1, E2. rewrite (proj2 (same_sign_false y1 y2) Sg).
  assert (FL : Forall near [x2; x1]) by (constructor; [exact N2|constructor; [exact N1|constructor]]).
  set (s := mkBrent x1 x2 x2 nan nan y1 y2 y2).
  destruct (Req_dec y2 0) as [Z|NZ].
  - destruct n as [|n]; [lia|]. cbn [brent_loop].
    assert (PS : bfb (brent_prepare s) = 0).
    { unfold brent_prepare, rebracket, rotate, s. cbn [ba bb bc bd be bfa bfb bfc]. destruct (same_sign y2 y2) eqn:SS; [apply same_sign_iff in SS; lra|].
      cbn [ba bb bc bd be bfa bfb bfc]. destruct nltb; exact Z. }
    rewrite PS. replace ((0 =? n0)%num) with true by (symmetry; rnum; now apply Reqb_iff). rewrite orb_true_r. eexists _, _. split; [reflexivity|exact FL].
  - apply (loop_ends tol (Rmin x1 x2 - 3 * Rabs (x2 - x1)) (Rmax x1 x2 + 3 * Rabs (x2 - x1)) f Ht Tot j (2 * j) j j (3 * Rabs (x2 - x1))); [lia| |lia|exact FL].
    assert (PS : let s' := brent_prepare s in bfb s' * bfc s' <= 0 /\ ((bb s' = x2 /\ bc s' = x1) \/ (bb s' = x1 /\ bc s' = x2)) /\ bd s' = x2 - x1 /\ be s' = x2 - x1).
    { cbv zeta. unfold brent_prepare, rebracket, rotate, s. cbn [ba bb bc bd be bfa bfb bfc]. destruct (same_sign y2 y2) eqn:SS.
      - cbn [ba bb bc bd be bfa bfb bfc]. destruct nltb; cbn [ba bb bc bd be bfa bfb bfc]; rnum; (split; [lra|]); tauto.
      - apply same_sign_false in SS. exfalso. nra. }
    cbv zeta in PS. destruct PS as (P1 & P2 & P3 & P4). assert (W' : width (brent_prepare s) = Rabs (x2 - x1)) by (apply width_cases; tauto).
    constructor; rewrite ?W', ?P3, ?P4; try assumption; try lia.
    + lra.
    + destruct P2 as [[-> ->]|[-> ->]]; lra.
    + destruct P2 as [[-> ->]|[-> ->]]; lra.
Qed.

(** Every trial is at least the tolerance nearer, or beyond. *)
Lemma trial_moves tol (s : brent R) : 0 < tol -> let tol1 := brent_tol tol s in tol1 < Rabs (brent_xm s) ->
  let u := brent_trial tol1 (fst (brent_de tol1 s)) s in
  0 < (u - bb s) * (bc s - bb s) /\ tol1 <= Rabs (u - bb s).
Proof.
  intros Ht tol1 Hx. destruct (step_shape tol s Ht Hx) as (u & sg & SG & CB & TR & TU & TW & _). fold tol1 in TR, TU, TW. cbv zeta. rewrite TR.
  pose proof (tol_half tol s Ht) as T0. fold tol1 in T0. replace (bb s + sg * u - bb s) with (sg * u) by ring. rewrite CB at 1.
  replace (bb s + sg * width s - bb s) with (sg * width s) by ring. destruct SG as [->| ->].
  - split; [|rewrite Rabs_right by lra; lra]. assert (0 < u * width s) by (apply Rmult_lt_0_compat; lra). lra.
  - split; [|rewrite Rabs_left by lra; lra]. assert (0 < u * width s) by (apply Rmult_lt_0_compat; lra). lra.
Qed.
