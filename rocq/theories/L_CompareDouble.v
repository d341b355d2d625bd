(** Comparing reports whose numbers are of any kind, and reports of doubles. *)
From Coq Require Import ZArith List String Bool Lia Reals Lra.
From Coq.Floats Require Import SpecFloat.
From Flocq Require Import Core BinarySingleNaN.
From Verif Require Import Prelude Num M_Dates M_Risk M_Reports S_Reports S_Double S_Compare L_Num L_Prefetch L_Compare L_Double L_BrentDouble.
Import ListNotations.
Open Scope list_scope.

Section Any.
  Context {T : Type} {N : Num T}.
  Definition passes (x y t : T) : Prop := approx_eq x y t = true.

  Lemma entry_any (x y : T * T) t1 t2 : compare_entry x y t1 t2 = [] <-> passes (fst x) (fst y) t1 /\ passes (snd x) (snd y) t2.
  Proof. unfold compare_entry, passes. rewrite app_nil_iff, !if_nil. reflexivity. Qed.

  Lemma results_any (tol h : T) mine other : NoDup (keys mine) -> NoDup (keys other) ->
    compare_results tol h mine other = [] <-> tables_near passes (ndiv tol h) (ndiv (ndiv tol h) h) mine other.
  Proof.
    intros N1 N2. unfold compare_results. cbv zeta. set (t1 := ndiv tol h). set (t2 := ndiv t1 h). rewrite app_nil_iff, if_nil, Nat.eqb_eq.
    assert (FM : flat_map (fun kv => match get (fst kv) other with Some y => compare_entry (snd kv) y t1 t2 | None => ["missing"%string] end) mine = [] <->
       forall k x, In (k, x) mine -> exists y, get k other = Some y /\ passes (fst x) (fst y) t1 /\ passes (snd x) (snd y) t2).
    { clear N1. induction mine as [|[k x] mine IH]; cbn [flat_map].
      - split; [intros _ k x []|reflexivity].
      - rewrite app_nil_iff, IH. cbn [fst snd]. split.
        + intros [A B] k' x' [I|I]; [|auto]. injection I as <- <-. destruct (get k other) as [y|]; [|discriminate]. exists y. split; [reflexivity|]. now apply entry_any.
        + intros A. split; [|intros k' x' I; apply A; now right]. destruct (A k x (or_introl eq_refl)) as (y & -> & C). now apply entry_any. }
    rewrite FM. clear FM. unfold tables_near. split.
    - intros [LE A]. split.
      + intros id. split.
        * intros I. apply keys_in in I as (x & I). destruct (A id x I) as (y & G & _). apply get_in in G. apply keys_in. eauto.
        * intros I. assert (INC : incl (keys mine) (keys other)).
          { intros k K. apply keys_in in K as (x & K). destruct (A k x K) as (y & G & _). apply get_in in G. apply keys_in. eauto. }
          assert (LK : (List.length (keys other) <= List.length (keys mine))%nat) by (unfold keys; rewrite !map_length; lia).
          exact (NoDup_length_incl N1 LK INC id I).
      + intros id x y G1 G2. apply get_in in G1. destruct (A id x G1) as (y' & G & C). congruence.
    - intros [K C]. split.
      + assert (L1 : (List.length (keys mine) <= List.length (keys other))%nat) by (apply NoDup_incl_length; [exact N1|intros k; apply K]).
        assert (L2 : (List.length (keys other) <= List.length (keys mine))%nat) by (apply NoDup_incl_length; [exact N2|intros k; apply K]).
        unfold keys in L1, L2. rewrite !map_length in L1, L2. lia.
      + intros k x I. assert (KO : In k (keys other)) by (apply K, keys_in; eauto). apply keys_in in KO as (y & KO).
        exists y. split; [now apply in_get|]. apply C with (id := k); now apply in_get.
  Qed.

  Lemma zip_any (cmp : report T -> report T -> list string) (Q : report T -> report T -> Prop) mine :
    Forall (fun x => forall y, proper y -> cmp x y = [] <-> Q x y) mine -> forall other, Forall proper other ->
    ((if Nat.eqb (List.length mine) (List.length other) then [] else ["n"%string]) = [] /\ compare_zip cmp mine other = []) <-> Forall2 Q mine other.
  Proof.
    induction 1 as [|x mine X _ IH]; intros [|y other] PO.
    - cbn. split; auto.
    - cbn. split; [intros [E _]; discriminate|intros F; inversion F].
    - cbn. split; [intros [E _]; discriminate|intros F; inversion F].
    - inversion PO; subst. cbn [compare_zip List.length Nat.eqb]. rewrite app_nil_iff, (X y H1). split.
      + intros (L & C & Z). constructor; [exact C|]. apply IH; auto.
      + intros F. inversion F; subst. apply (IH other H2) in H6 as [A B]. auto.
  Qed.

  Lemma reports_any tol mine : proper mine -> forall other, proper other -> compare_reports tol mine other = [] <-> agree_by passes tol mine other.
  Proof.
    induction mine as [h m|h m|x t subs IH] using report_nested; intros PM other PO; inversion PM; subst.
    - destruct other as [h' o|h' o|x' t' o]; cbn [compare_reports]; try (split; [discriminate|intros A; inversion A]).
      inversion PO; subst. rewrite results_any by assumption. split; [now constructor|intros A; now inversion A].
    - destruct other as [h' o|h' o|x' t' o]; cbn [compare_reports]; try (split; [discriminate|intros A; inversion A]).
      inversion PO; subst. rewrite results_any by assumption. split; [now constructor|intros A; now inversion A].
    - destruct other as [h' o|h' o|x' t' o]; cbn [compare_reports]; try (split; [discriminate|intros A; inversion A]).
      inversion PO; subst. rewrite !app_nil_iff, (change_label (Nat.eqb _ _) _ "n"), 2!if_nil.
      rewrite (zip_any (compare_reports tol) (agree_by passes tol)).
      + split; [intros (A & B & C); now constructor|intros A; now inversion A].
      + apply Forall_forall. intros y I z PZ. rewrite Forall_forall in IH, H0. apply IH; auto.
      + assumption.
  Qed.

  Lemma compared_any tol mine other : Forall proper mine -> Forall proper other ->
    assert_approx_eq_reports tol mine other = Ok tt <-> Forall2 (agree_by (fun x y t => nltb (nabs (nsub x y)) t = true) tol) mine other.
  Proof.
    intros PM PO. change (fun x y t => nltb (nabs (nsub x y)) t = true) with passes. unfold assert_approx_eq_reports.
    assert (A : compare_all tol mine other = [] <-> Forall2 (agree_by passes tol) mine other).
    { unfold compare_all. rewrite app_nil_iff, (change_label _ _ "n"). apply zip_any; [|exact PO].
      apply Forall_forall. intros y I z PZ. rewrite Forall_forall in PM. apply reports_any; auto. }
    rewrite <- A. destruct (compare_all tol mine other); split; intros; try discriminate; reflexivity.
  Qed.
End Any.

Open Scope R_scope.

(** ** Doubles *)

Lemma place_top t : number t -> place t <= bpow radix2 1024.
Proof.
  intros H. assert (P : 0 < bpow radix2 1024) by apply bpow_gt_0. destruct (number_cases t H) as [F|[-> | ->]]; [|cbn [place]; lra|cbn [place]; lra].
  rewrite (finite_place t F). pose proof (finite_bound t F) as B. apply Rabs_def2 in B. lra.
Qed.

Lemma passes_double x y t : double x -> double y -> double t -> passes x y t <-> near_doubles x y t.
Proof.
  intros X Y D. unfold passes, approx_eq. split.
  - intros L. assert (AB : double (nabs (nsub x y))).
    { pose proof (double_sub x y X Y) as S. destruct (double_B _ S) as (b & E). rewrite <- E. cbn [nabs FNum].
      replace (SFabs (B2SF b)) with (B2SF (Babs b)) by (destruct b; reflexivity). apply valid_binary_B2SF. }
    destruct (ltb_numbers _ t AB D L) as [NA NT]. pose proof (proj1 (ltb_place _ t NA NT) L) as PL. pose proof (place_top t NT) as TOP.
    assert (INF : forall s, nsub x y = S754_infinity s -> False).
    { intros s E. rewrite E in PL. cbn [nabs FNum SFabs place] in PL. lra. }
    assert (NAN : nsub x y = F_nan -> False). { intros E. rewrite E in NA. destruct NA as [_ NA]. now apply NA. }
    assert (FX : finite x). { split; [exact X|]. destruct x as [s|s| |s m e]; try reflexivity; exfalso; [|now apply NAN]. destruct y as [s'|s'| |s' m' e']; [now apply (INF s)| |now apply NAN|now apply (INF s)]. destruct s, s'; try (now apply NAN); [now apply (INF true)|now apply (INF false)]. }
    assert (FY : finite y). { split; [exact Y|]. destruct FX as [_ FX]. destruct y as [s'|s'| |s' m' e']; try reflexivity; exfalso; destruct x as [s|s| |s m e]; try discriminate; try (now apply NAN); now apply (INF (negb s')). }
    split; [exact FX|]. split; [exact FY|]. split; [exact NT|].
    destruct (Rlt_dec (Rabs (rnd (real x - real y))) (bpow radix2 1024)) as [R|R].
    + destruct (sub_spec x y FX FY R) as [F E]. destruct (abs_spec _ F) as [FA EA]. rewrite (finite_place _ FA), EA, E in PL. exact PL.
    + exfalso. destruct (finite_B x FX) as (a & <- & fa & ra), (finite_B y FY) as (b & <- & fb & rb). rewrite <- ra, <- rb in R.
      pose proof (Bminus_correct 53 1024 Hprec Hmax mode_NE a b fa fb) as C. rewrite Rlt_bool_false in C by (apply Rnot_lt_le; exact R). destruct C as [C _].
      apply (INF (Bsign a)). change (nsub (B2SF a) (B2SF b)) with (SFsub 53 1024 (B2SF a) (B2SF b)). rewrite sub_equiv, C. reflexivity.
  - intros (FX & FY & NT & L). pose proof (place_top t NT) as TOP. destruct (sub_spec x y FX FY ltac:(unfold in_range; lra)) as [F E]. destruct (abs_spec _ F) as [FA EA].
    apply (ltb_place _ t (finite_number _ FA) NT). rewrite (finite_place _ FA), EA, E. exact L.
Qed.

(** Near doubles. *)
Lemma rnd_opp x : rnd (- x) = - rnd x.
Proof. unfold rnd. apply round_NE_opp. Qed.
Lemma rnd_abs x : Rabs (rnd x) = rnd (Rabs x).
Proof. unfold rnd. symmetry. apply round_NE_abs. apply FLT_exp_valid. reflexivity. Qed.

Lemma place_exact t : number t -> rnd (place t) = place t.
Proof.
  intros H. unfold rnd. apply round_generic; [apply valid_rnd_N|]. destruct (number_cases t H) as [F|[-> | ->]].
  - rewrite (finite_place t F). destruct (finite_B t F) as (b & <- & _ & <-). rewrite <- fexp_eq. apply generic_format_B2R.
  - cbn [place]. apply generic_format_bpow. unfold FLT_exp. lia.
  - cbn [place]. apply generic_format_opp, generic_format_bpow. unfold FLT_exp. lia.
Qed.

Lemma near_facts : forall x y t,
  (near_doubles x y t -> Rabs (real x - real y) < place t /\ near_doubles y x t) /\
  (finite x -> finite y -> number t -> Rabs (real x - real y) < place t -> near_doubles x y t \/ rnd (Rabs (real x - real y)) = place t).
Proof.
  intros x y t. split.
  - intros (FX & FY & NT & L). split.
    + rewrite rnd_abs in L. apply Rnot_le_lt. intros G. apply rnd_le in G. rewrite (place_exact t NT) in G. lra.
    + split; [exact FY|]. split; [exact FX|]. split; [exact NT|]. replace (real y - real x) with (- (real x - real y)) by ring. rewrite rnd_opp, Rabs_Ropp. exact L.
  - intros FX FY NT L. pose proof (rnd_le _ _ (Rlt_le _ _ L)) as G. rewrite (place_exact t NT) in G. rewrite <- rnd_abs in *.
    destruct (Rle_lt_or_eq_dec _ _ G) as [G'|G']; [left; now repeat split; auto; apply FX || apply FY || apply NT|right; exact G'].
Qed.

(** ** Reports of doubles *)

Lemma tables_change (near near' : F64 -> F64 -> F64 -> Prop) t1 t2 m o :
  (forall x y t, double x -> double y -> double t -> near x y t <-> near' x y t) -> double t1 -> double t2 ->
  (forall id x, In (id, x) m -> double (fst x) /\ double (snd x)) -> (forall id x, In (id, x) o -> double (fst x) /\ double (snd x)) ->
  tables_near near t1 t2 m o <-> tables_near near' t1 t2 m o.
Proof.
  intros E T1 T2 M O. unfold tables_near. split; intros [K C]; (split; [exact K|]); intros id x y G1 G2; specialize (C id x y G1 G2);
    apply get_in in G1; apply get_in in G2; destruct (M _ _ G1), (O _ _ G2), C; split; apply E; assumption.
Qed.

Lemma sub_change (Q Q' : report F64 -> report F64 -> Prop) subs : Forall (fun r => of_doubles r -> forall r', of_doubles r' -> Q r r' <-> Q' r r') subs ->
  Forall of_doubles subs -> forall o, Forall of_doubles o -> Forall2 Q subs o <-> Forall2 Q' subs o.
Proof.
  intros IH A. induction IH as [|r subs R _ IHF]; intros o B; [split; intros F; inversion F; constructor|].
  inversion A; subst. destruct o as [|r' o]; [split; intros F; inversion F|]. inversion B; subst.
  split; intros F; inversion F; subst; constructor; try (apply (R H1 r' H3); assumption); apply (IHF H2 o H4); assumption.
Qed.

Lemma agree_change (near near' : F64 -> F64 -> F64 -> Prop) tol mine :
  (forall x y t, double x -> double y -> double t -> near x y t <-> near' x y t) -> double_tolerances tol ->
  of_doubles mine -> forall other, of_doubles other -> agree_by near tol mine other <-> agree_by near' tol mine other.
Proof.
  intros E (TP & TU & TC). induction mine as [h m|h m|x t subs IH] using report_nested; intros DM other DO; inversion DM; subst;
    destruct other as [h' o|h' o|x' t' o]; try (split; intros A; inversion A; fail); inversion DO; subst.
  - split; intros A; inversion A; subst; constructor; eapply tables_change; eauto using double_div; intros; symmetry; auto.
  - split; intros A; inversion A; subst; constructor; eapply tables_change; eauto using double_div; intros; symmetry; auto.
  - match goal with |- agree_by _ _ (TimeBumpedReport _ _ ?a) (TimeBumpedReport _ _ ?b) <-> _ => assert (F : Forall2 (agree_by near tol) a b <-> Forall2 (agree_by near' tol) a b) end.
    { eapply sub_change; eassumption. }
    split; intros A; inversion A; subst; constructor; try (apply E; assumption); apply F; assumption.
Qed.

Lemma forall2_change {A} (Q Q' : A -> A -> Prop) (P : A -> Prop) l l' : (forall a b, P a -> P b -> Q a b <-> Q' a b) -> Forall P l -> Forall P l' ->
  Forall2 Q l l' <-> Forall2 Q' l l'.
Proof.
  intros E L. revert l'. induction L as [|a l PA _ IH]; intros l' L'; [split; intros F; inversion F; constructor|].
  destruct L' as [|b l' PB L']; [split; intros F; inversion F|]. split; intros F; inversion F; subst; constructor; try (apply E; assumption); apply IH; assumption.
Qed.

Lemma compared_doubles tol mine other : double_tolerances tol -> Forall of_doubles mine -> Forall of_doubles other -> Forall proper mine -> Forall proper other ->
  assert_approx_eq_reports tol mine other = Ok tt <-> Forall2 (agree_by near_doubles tol) mine other.
Proof.
  intros TD DM DO PM PO. rewrite (compared_any tol mine other PM PO). apply (forall2_change _ _ of_doubles); [|exact DM|exact DO].
  intros a b A B. apply agree_change; auto. intros x y t X Y D. exact (passes_double x y t X Y D).
Qed.

(** Everything in reports that agree is finite. *)
Lemma agree_finite tol mine : proper mine -> forall other, proper other -> agree_by near_doubles tol mine other ->
  all_numbers finite (fun _ => True) mine /\ all_numbers finite (fun _ => True) other.
Proof.
  assert (TAB : forall t1 t2 m o, NoDup (keys m) -> NoDup (keys o) -> tables_near near_doubles t1 t2 m o ->
    (forall id x, In (id, x) m -> finite (fst x) /\ finite (snd x)) /\ (forall id x, In (id, x) o -> finite (fst x) /\ finite (snd x))).
  { intros t1 t2 m o N1 N2 [K C]. split; intros id x I.
    - assert (J : In id (keys o)) by (apply K, keys_in; eauto). apply keys_in in J as (y & J). destruct (C id x y) as [(F & _) (F' & _)]; [now apply in_get|now apply in_get|]. auto.
    - assert (J : In id (keys m)) by (apply K, keys_in; eauto). apply keys_in in J as (y & J). destruct (C id y x) as [(_ & F & _) (_ & F' & _)]; [now apply in_get|now apply in_get|]. auto. }
  induction mine as [h m|h m|x t subs IH] using report_nested; intros PM other PO A; inversion A; subst; inversion PM; subst; inversion PO; subst.
  - match goal with X : tables_near _ _ _ _ _ |- _ => apply TAB in X as [X1 X2]; [|assumption|assumption] end. split; constructor; auto.
  - match goal with X : tables_near _ _ _ _ _ |- _ => apply TAB in X as [X1 X2]; [|assumption|assumption] end. split; constructor; auto.
  - match goal with X : near_doubles x _ _, Y : near_doubles t _ _ |- _ => destruct X as (X1 & X2 & _), Y as (Y1 & Y2 & _) end.
    assert (S : Forall (all_numbers finite (fun _ => True)) subs /\ Forall (all_numbers finite (fun _ => True)) subs').
    { match goal with F : Forall2 _ subs subs', P1 : Forall proper subs, P2 : Forall proper subs' |- _ => revert IH P1 P2; clear - F; induction F as [|r r' l l' R F IHF] end; intros IH P1 P2; [split; constructor|].
      inversion IH; subst. inversion P1; subst. inversion P2; subst. destruct (IHF H2 H4 H7). destruct (H1 H3 r' H6 R). split; constructor; assumption. }
    destruct S. split; constructor; auto.
Qed.

Lemma compared_finite : forall tol mine other, double_tolerances tol -> Forall of_doubles mine -> Forall of_doubles other -> Forall proper mine -> Forall proper other ->
  assert_approx_eq_reports tol mine other = Ok tt -> Forall (all_numbers finite (fun _ => True)) mine /\ Forall (all_numbers finite (fun _ => True)) other.
Proof.
  intros tol mine other TD DM DO PM PO E. apply (compared_doubles tol mine other TD DM DO PM PO) in E. clear TD DM DO. induction E as [|r r' l l' R _ IH]; [split; constructor|].
  inversion PM; subst. inversion PO; subst. destruct (IH H2 H4). destruct (agree_finite tol r H1 r' H3 R). split; constructor; assumption.
Qed.

(** Reports of finite numbers agree with themselves if no tolerance has become zero. *)
Definition positive (t : F64) : Prop := number t /\ 0 < place t.
Lemma near_self x t : finite x -> positive t -> near_doubles x x t.
Proof. intros F [NT P]. split; [exact F|]. split; [exact F|]. split; [exact NT|]. replace (real x - real x) with 0 by ring. rewrite rnd_0, Rabs_R0. exact P. Qed.

Lemma agree_itself tol r : all_numbers finite (fun _ => True) r -> all_tolerances positive tol r -> agree_by near_doubles tol r r.
Proof.
  assert (TAB : forall t1 t2 (m : smap (F64 * F64)), positive t1 -> positive t2 -> (forall id x, In (id, x) m -> finite (fst x) /\ finite (snd x)) -> tables_near near_doubles t1 t2 m m).
  { intros t1 t2 m P1 P2 F. split; [tauto|]. intros id x y G1 G2. rewrite G1 in G2. injection G2 as <-. apply get_in in G1. destruct (F _ _ G1). split; now apply near_self. }
  induction r as [h m|h m|x t subs IH] using report_nested; intros A T; inversion A; subst; inversion T; subst.
  - constructor. now apply TAB.
  - constructor. now apply TAB.
  - constructor; try (now apply near_self).
    match goal with P1 : Forall (all_numbers _ _) subs, P2 : Forall (all_tolerances _ _) subs |- _ => revert IH P1 P2; clear; induction subs as [|r subs IHF] end; intros IH P1 P2; [constructor|].
    inversion IH; subst. inversion P1; subst. inversion P2; subst. constructor; auto.
Qed.

Lemma compared_itself : forall tol rs, double_tolerances tol -> Forall of_doubles rs -> Forall proper rs ->
  Forall (all_numbers finite (fun _ => True)) rs -> Forall (all_tolerances (fun t => number t /\ 0 < place t) tol) rs -> assert_approx_eq_reports tol rs rs = Ok tt.
Proof.
  intros tol rs TD D P F T. apply (compared_doubles tol rs rs TD D D P P). clear TD D P. induction rs as [|r rs IH]; [constructor|].
  inversion F; subst. inversion T; subst. constructor; [now apply agree_itself|auto].
Qed.

(** No bump at all: the tolerances are infinite. *)
Lemma compared_unbumped : forall tol h' m o, finite (tol_unit_risk tol) -> 0 < real (tol_unit_risk tol) -> NoDup (keys m) -> NoDup (keys o) ->
  (forall id, In id (keys m) <-> In id (keys o)) ->
  (forall id x y, get id m = Some x -> get id o = Some y -> (finite (fst x) /\ finite (fst y) /\ in_range (real (fst x) - real (fst y))) /\
    finite (snd x) /\ finite (snd y) /\ in_range (real (snd x) - real (snd y))) ->
  assert_approx_eq_reports tol [DeltaGammaReport n0 m] [DeltaGammaReport h' o] = Ok tt.
Proof.
  intros tol h' m o FT PT N1 N2 K C. apply compared_any; [repeat constructor; assumption|repeat constructor; assumption|]. constructor; [|constructor]. constructor.
  assert (E1 : ndiv (tol_unit_risk tol) n0 = S754_infinity false).
  { destruct FT as [_ FT]. destruct (tol_unit_risk tol) as [s|s| |s mm e]; try discriminate; [cbn in PT; lra|]. destruct s; [|reflexivity].
    exfalso. assert (real (S754_finite true mm e) <= 0) by (apply F2R_le_0; cbn; lia). lra. }
  rewrite E1. change (ndiv (S754_infinity false) n0) with (S754_infinity false : F64).
  assert (NI : number (S754_infinity false)) by (split; [reflexivity|discriminate]).
  assert (PA : forall x y, finite x -> finite y -> in_range (real x - real y) -> passes x y (S754_infinity false)).
  { intros x y X Y R. apply passes_double; [apply X|apply Y|apply NI|]. split; [exact X|]. split; [exact Y|]. split; [exact NI|]. exact R. }
  split; [exact K|]. intros id x y G1 G2. destruct (C id x y G1 G2) as ((A & B & D) & A' & B' & D'). split; apply PA; assumption.
Qed.

(** Worked cases. *)
Definition unit_tolerances : tolerances F64 := mkTol (nlit 1 1024) (nlit 1 1024) (nlit 1 1024).
Definition sample_report (x : F64) : report F64 := TimeBumpedReport x n0 [DeltaGammaReport (nlit 1 128) [("BP"%string, (nlit 1 2, n0))]].

Lemma double_literal (p q : Z) : double (nlit p q : F64).
Proof. apply double_div; apply double_ofZ. Qed.
Lemma sample_double x : double x -> of_doubles (sample_report x).
Proof.
  intros X. constructor; [exact X|reflexivity|]. constructor; [|constructor]. constructor; [apply double_literal|]. intros id y [E|[]]. apply (f_equal snd) in E. cbn [snd] in E. rewrite <- E. cbn [fst snd]. split; [apply double_literal|reflexivity].
Qed.
Lemma sample_proper x : proper (sample_report x).
Proof. constructor. constructor; [|constructor]. constructor. constructor; [intros []|constructor]. Qed.

Lemma compare_case : double_tolerances unit_tolerances /\ Forall of_doubles [sample_report n1] /\ Forall of_doubles [sample_report (nlit 4097 4096)] /\
  Forall proper [sample_report n1] /\ Forall proper [sample_report (nlit 4097 4096)] /\
  assert_approx_eq_reports unit_tolerances [sample_report n1] [sample_report (nlit 4097 4096)] = Ok tt /\
  assert_approx_eq_reports unit_tolerances [sample_report n1] [sample_report (nlit 1025 1024)] <> Ok tt.
Proof.
  split; [repeat split; apply double_literal|]. split; [constructor; [|constructor]; now apply sample_double|]. split; [constructor; [|constructor]; apply sample_double, double_literal|].
  split; [constructor; [|constructor]; apply sample_proper|]. split; [constructor; [|constructor]; apply sample_proper|]. split; [reflexivity|]. intros E. vm_compute in E. discriminate.
Qed.

Lemma itself_case : Forall (all_numbers finite (fun _ => True)) [sample_report n1] /\
  Forall (all_tolerances (fun t => number t /\ 0 < place t) unit_tolerances) [sample_report n1].
Proof.
  assert (P : forall t : F64, finite t -> nltb n0 t = true -> number t /\ 0 < place t).
  { intros t F L. split; [now apply finite_number|]. rewrite (finite_place t F). apply (ltb_spec n0 t) in L; [exact L|split; reflexivity|exact F]. }
  split; (constructor; [|constructor]).
  - constructor; [split; reflexivity|split; reflexivity|]. constructor; [|constructor]. constructor; [exact Logic.I|]. intros id x [E|[]]. apply (f_equal snd) in E. cbn [snd] in E. rewrite <- E. cbn [fst snd]. split; split; reflexivity.
  - constructor; [apply P; [split; reflexivity|reflexivity]|]. constructor; [|constructor]. constructor; apply P; try (split; reflexivity); reflexivity.
Qed.

Lemma nan_case : forall tol h y, assert_approx_eq_reports tol [DeltaGammaReport h [("BP"%string, (F_nan, y))]] [DeltaGammaReport h [("BP"%string, (F_nan, y))]] <> Ok tt.
Proof.
  intros tol h y E. unfold assert_approx_eq_reports, compare_all in E. cbn [List.length Nat.eqb app compare_zip compare_reports] in E. unfold compare_results, compare_entry in E.
  cbn [List.length Nat.eqb app flat_map get fst snd] in E. rewrite String.eqb_refl in E. change (approx_eq F_nan F_nan _) with false in E. discriminate.
Qed.

Lemma unbumped_case : exists big : F64, finite big /\ real big = bpow radix2 1000 /\
  assert_approx_eq_reports unit_tolerances [DeltaGammaReport n0 [("BP"%string, (n0, n0))]] [DeltaGammaReport n0 [("BP"%string, (big, big))]] = Ok tt.
Proof.
  exists (S754_finite false 4503599627370496 948). split; [split; reflexivity|]. split; [|reflexivity].
  unfold real, SF2R. cbn [cond_Zopp]. rewrite (F2R_change_exp radix2 0 (Zpos 4503599627370496) 948) by lia. unfold F2R. cbn [Fnum Fexp Z.sub]. rewrite Rmult_1_r. rewrite <- (IZR_Zpower radix2 1000) by lia. reflexivity.
Qed.
