(** Comparing risk reports. *)
From Coq Require Import ZArith List String Bool Lia Reals Lra.
From Verif Require Import Prelude Num M_Dates M_Risk M_Reports S_Reports L_Num L_Prefetch.
Import ListNotations.
Open Scope list_scope.
Open Scope R_scope.

Lemma report_nested {T} (Q : report T -> Prop) :
  (forall h m, Q (DeltaGammaReport h m)) -> (forall h m, Q (VegaVolgaReport h m)) ->
  (forall x t subs, Forall Q subs -> Q (TimeBumpedReport x t subs)) -> forall r, Q r.
Proof. intros A B C. fix IH 1. intros [h m|h m|x t subs]; [apply A|apply B|]. apply C. induction subs; constructor; auto. Qed.

Lemma approx_close x y tol : approx_eq x y tol = true <-> close x y tol.
Proof. unfold approx_eq, close. rnum. destruct (Rltb_spec (Rabs (x - y)) tol); split; intros; try discriminate; try lra; reflexivity. Qed.

Lemma app_nil_iff {A} (l m : list A) : l ++ m = [] <-> l = [] /\ m = [].
Proof. destruct l, m; cbn; split; intros; try discriminate; intuition discriminate. Qed.

Lemma if_nil (b : bool) (s : string) : (if b then [] else [s]) = [] <-> b = true.
Proof. destruct b; split; intros; congruence. Qed.

Lemma entry_spec x y t1 t2 : compare_entry x y t1 t2 = [] <-> entries_close t1 t2 x y.
Proof. unfold compare_entry, entries_close. rewrite app_nil_iff, !if_nil, !approx_close. reflexivity. Qed.

Lemma keys_in {A} (m : smap A) k : In k (keys m) <-> exists x, In (k, x) m.
Proof.
  unfold keys. rewrite in_map_iff. split.
  - intros ((k' & x) & <- & I). eauto.
  - intros (x & I). exists (k, x). auto.
Qed.

Lemma results_spec tol h mine other : NoDup (keys mine) -> NoDup (keys other) ->
  compare_results tol h mine other = [] <-> tables_close (tol / h) (tol / h / h) mine other.
Proof.
  intros N1 N2. unfold compare_results. cbv zeta. rewrite app_nil_iff, if_nil, Nat.eqb_eq.
  assert (FM : flat_map (fun kv => match get (fst kv) other with
       | Some y => compare_entry (snd kv) y (ndiv tol h) (ndiv (ndiv tol h) h) | None => ["missing"%string] end) mine = [] <->
     forall k x, In (k, x) mine -> exists y, get k other = Some y /\ entries_close (tol / h) (tol / h / h) x y).
  { rnum. clear N1. induction mine as [|[k x] mine IH]; cbn [flat_map].
    - split; [intros _ k x []|reflexivity].
    - rewrite app_nil_iff, IH. cbn [fst snd]. split.
      + intros [A B] k' x' [I|I]; [|auto]. injection I as <- <-. destruct (get k other) as [y|]; [|discriminate]. exists y. split; [reflexivity|]. now apply entry_spec.
      + intros A. split; [|intros k' x' I; apply A; now right]. destruct (A k x (or_introl eq_refl)) as (y & -> & C). now apply entry_spec. }
  rewrite FM. clear FM. unfold tables_close. split.
  - intros [LE A]. split.
    + intros id. split.
      * intros I. apply keys_in in I as (x & I). destruct (A id x I) as (y & G & _). apply get_in in G. apply keys_in. eauto.
      * intros I. assert (INC : incl (keys mine) (keys other)).
        { intros k K. apply keys_in in K as (x & K). destruct (A k x K) as (y & G & _). apply get_in in G. apply keys_in. eauto. }
        assert (LK : (List.length (keys other) <= List.length (keys mine))%nat) by (unfold keys; rewrite !map_length; lia).
        exact (NoDup_length_incl N1 LK INC id I).
    + intros id x y G1 G2. apply get_in in G1. destruct (A id x G1) as (y' & G & C). congruence.
  - intros [K C]. split.
    + assert (L1 : (List.length (keys mine) <= List.length (keys other))%nat) by (apply NoDup_incl_length; [exact N1|intros k; apply K]).
      assert (L2 : (List.length (keys other) <= List.length (keys mine))%nat) by (apply NoDup_incl_length; [exact N2|intros k; apply K]).
      unfold keys in L1, L2. rewrite !map_length in L1, L2. lia.
    + intros k x I. assert (KO : In k (keys other)) by (apply K, keys_in; eauto). apply keys_in in KO as (y & KO).
      exists y. split; [now apply in_get|]. apply C with (id := k); now apply in_get.
Qed.

Lemma zip_spec (cmp : report R -> report R -> list string) (Q : report R -> report R -> Prop) mine : 
  Forall (fun x => forall y, proper y -> cmp x y = [] <-> Q x y) mine -> forall other, Forall proper other ->
  ((if Nat.eqb (List.length mine) (List.length other) then [] else ["n"%string]) = [] /\ compare_zip cmp mine other = []) <-> Forall2 Q mine other.
Proof.
  induction 1 as [|x mine X _ IH]; intros [|y other] PO.
  - cbn. split; auto.
  - cbn. split; [intros [E _]; discriminate|intros F; inversion F].
  - cbn. split; [intros [E _]; discriminate|intros F; inversion F].
  - inversion PO; subst. cbn [compare_zip List.length Nat.eqb]. rewrite app_nil_iff, (X y H1). split.
    + intros (L & C & Z). constructor; [exact C|]. apply IH; auto.
    + intros F. inversion F; subst. apply (IH other H2) in H6 as [A B]. auto.
Qed.

Lemma change_label (b : bool) (s s' : string) : (if b then [] else [s]) = [] <-> (if b then [] else [s']) = [].
Proof. rewrite !if_nil. reflexivity. Qed.

(** C46: no differences exactly when the reports agree. *)
Lemma reports_spec tol mine : proper mine -> forall other, proper other -> compare_reports tol mine other = [] <-> agree tol mine other.
Proof.
  induction mine as [h m|h m|x t subs IH] using report_nested; intros PM other PO; inversion PM; subst.
  - destruct other as [h' o|h' o|x' t' o]; cbn [compare_reports]; try (split; [discriminate|intros A; inversion A]).
    inversion PO; subst. rewrite results_spec by assumption. split; [now constructor|intros A; now inversion A].
  - destruct other as [h' o|h' o|x' t' o]; cbn [compare_reports]; try (split; [discriminate|intros A; inversion A]).
    inversion PO; subst. rewrite results_spec by assumption. split; [now constructor|intros A; now inversion A].
  - destruct other as [h' o|h' o|x' t' o]; cbn [compare_reports]; try (split; [discriminate|intros A; inversion A]).
    inversion PO; subst. rewrite !app_nil_iff, (change_label (Nat.eqb _ _) _ "n"), 2!if_nil, !approx_close.
    rewrite (zip_spec (compare_reports tol) (agree tol)).
    + split; [intros (A & B & C); now constructor|intros A; now inversion A].
    + apply Forall_forall. intros y I z PZ. rewrite Forall_forall in IH, H0. apply IH; auto.
    + assumption.
Qed.

Lemma all_spec tol mine other : Forall proper mine -> Forall proper other ->
  assert_approx_eq_reports tol mine other = Ok tt <-> Forall2 (agree tol) mine other.
Proof.
  intros PM PO. unfold assert_approx_eq_reports.
  assert (A : compare_all tol mine other = [] <-> Forall2 (agree tol) mine other).
  { unfold compare_all. rewrite app_nil_iff, (change_label _ _ "n"). apply zip_spec; [|exact PO].
    apply Forall_forall. intros y I z PZ. rewrite Forall_forall in PM. apply reports_spec; auto. }
  rewrite <- A. destruct (compare_all tol mine other); split; intros; try discriminate; reflexivity.
Qed.

Lemma close_sym x y t : close x y t -> close y x t.
Proof. unfold close. now rewrite Rabs_minus_sym. Qed.

Lemma tables_sym a b m o : tables_close a b m o -> tables_close a b o m.
Proof.
  intros [K C]. split; [intros id; symmetry; apply K|]. intros id x y G1 G2. destruct (C id y x G2 G1) as [A B]. split; now apply close_sym.
Qed.

(** C46: symmetric for equal bump sizes. *)
Lemma agree_sym tol mine : forall other, same_sizes mine other -> agree tol mine other -> agree tol other mine.
Proof.
  induction mine as [h m|h m|x t subs IH] using report_nested; intros other S A; inversion S; subst; inversion A; subst.
  - constructor. now apply tables_sym.
  - constructor. now apply tables_sym.
  - constructor; try (now apply close_sym).
    match goal with S : Forall2 same_sizes _ ?l, A : Forall2 (agree tol) _ ?l |- _ => revert S A; generalize l end.
    clear - IH. induction IH as [|y subs Y _ IH]; intros l S A; inversion A; subst; [constructor|]. inversion S; subst. constructor; auto.
Qed.

(** C46: which bump size the other report has does not matter. *)
Lemma size_ignored {T} {N : Num T} (tol : tolerances T) h h' h'' m o :
  compare_reports tol (DeltaGammaReport h m) (DeltaGammaReport h' o) = compare_reports tol (DeltaGammaReport h m) (DeltaGammaReport h'' o) /\
  compare_reports tol (VegaVolgaReport h m) (VegaVolgaReport h' o) = compare_reports tol (VegaVolgaReport h m) (VegaVolgaReport h'' o).
Proof. auto. Qed.

Lemma not_close_self x tol : tol <= 0 -> ~ close x x tol.
Proof. unfold close. intros T. replace (x - x) with 0 by ring. rewrite Rabs_R0. lra. Qed.

(** C46: negative bump sizes. *)
Lemma negative_never tol h (m : smap (R * R)) : 0 <= tol -> h < 0 -> m <> [] -> compare_results tol h m m <> [].
Proof.
  intros T H M. destruct m as [|[k x] m]; [congruence|]. unfold compare_results. cbv zeta. rewrite app_nil_iff. intros [_ E].
  cbn [flat_map] in E. rewrite app_nil_iff in E. destruct E as [E _]. cbn [fst get] in E. rewrite String.eqb_refl in E. apply entry_spec in E as [E _].
  revert E. apply not_close_self. rnum. unfold Rdiv. apply Rinv_lt_0_compat in H. nra.
Qed.

Lemma negative_delta tol h m : 0 <= tol_unit_risk tol -> h < 0 -> m <> [] ->
  assert_approx_eq_reports tol [DeltaGammaReport h m] [DeltaGammaReport h m] <> Ok tt.
Proof.
  intros T H M. pose proof (negative_never _ h m T H M) as Q. unfold assert_approx_eq_reports, compare_all.
  cbn [List.length Nat.eqb app compare_zip compare_reports]. rewrite app_nil_r. destruct (compare_results _ h m m); [congruence|discriminate].
Qed.

Lemma negative_vega tol h m : 0 <= tol_currency_risk tol -> h < 0 -> m <> [] ->
  assert_approx_eq_reports tol [VegaVolgaReport h m] [VegaVolgaReport h m] <> Ok tt.
Proof.
  intros T H M. pose proof (negative_never _ h m T H M) as Q. unfold assert_approx_eq_reports, compare_all.
  cbn [List.length Nat.eqb app compare_zip compare_reports]. rewrite app_nil_r. destruct (compare_results _ h m m); [congruence|discriminate].
Qed.
Lemma negative_sizes tol h m : 0 <= tol_unit_risk tol -> 0 <= tol_currency_risk tol -> h < 0 -> m <> [] ->
  assert_approx_eq_reports tol [DeltaGammaReport h m] [DeltaGammaReport h m] <> Ok tt /\
  assert_approx_eq_reports tol [VegaVolgaReport h m] [VegaVolgaReport h m] <> Ok tt.
Proof. intros. split; [now apply negative_delta|now apply negative_vega]. Qed.

(** A report agrees with itself if tolerances and bump sizes are positive. *)
Lemma close_self x tol : 0 < tol -> close x x tol.
Proof. intros T. unfold close. replace (x - x) with 0 by ring. now rewrite Rabs_R0. Qed.
Lemma tables_self a b m : 0 < a -> 0 < b -> tables_close a b m m.
Proof. intros A B. split; [tauto|]. intros id x y G1 G2. rewrite G1 in G2. injection G2 as <-. split; now apply close_self. Qed.
Lemma sized_self tol h m : 0 < tol_unit_risk tol -> 0 < tol_currency_risk tol -> 0 < h ->
  agree tol (DeltaGammaReport h m) (DeltaGammaReport h m) /\ agree tol (VegaVolgaReport h m) (VegaVolgaReport h m).
Proof.
  intros T T' H. pose proof (Rdiv_lt_0_compat _ _ T H). pose proof (Rdiv_lt_0_compat _ _ T' H).
  split; constructor; (apply tables_self; [assumption|]); now apply Rdiv_lt_0_compat.
Qed.
Lemma delta_self tol h m : 0 < tol_unit_risk tol -> 0 < h -> agree tol (DeltaGammaReport h m) (DeltaGammaReport h m).
Proof.
  intros T H. pose proof (Rdiv_lt_0_compat _ _ T H). constructor. apply tables_self; [assumption|]. now apply Rdiv_lt_0_compat.
Qed.
