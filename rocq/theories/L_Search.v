From Coq Require Import List Arith Lia.
From Verif Require Import M_Search.
Import ListNotations.

(** The list is ordered with respect to the probe: first Less, then at most one Equal, then Greater. *)
Definition probe_sorted {A} (l : list A) (f : A -> comparison) : Prop :=
  forall i j a b, i < j -> nth_error l i = Some a -> nth_error l j = Some b ->
    (f b <> Gt -> f a = Lt) /\ (f a <> Lt -> f b = Gt).

Lemma div2_bounds n : 1 < n -> 0 < Nat.div2 n /\ Nat.div2 n + Nat.div2 n <= n.
Proof.
  intros H. rewrite Nat.div2_div. pose proof (Nat.div_mod n 2 ltac:(lia)).
  pose proof (Nat.mod_upper_bound n 2 ltac:(lia)). lia.
Qed.

Lemma bs_loop_spec {A} (l : list A) f : probe_sorted l f ->
  forall fuel size base, size <= fuel -> 0 < size -> base + size <= length l ->
  (forall i a, nth_error l i = Some a -> i < base -> f a = Lt) ->
  (forall i a, nth_error l i = Some a -> base + size <= i -> f a = Gt) ->
  let b := bs_loop l f fuel size base in
  b < length l /\
  (forall i a, nth_error l i = Some a -> i < b -> f a = Lt) /\
  (forall i a, nth_error l i = Some a -> b < i -> f a = Gt).
Proof.
  intros S. induction fuel as [|fuel IH]; intros size base Hf Hs Hl Lo Hi; [lia|].
  cbn [bs_loop]. destruct (Nat.leb_spec size 1) as [E|E].
  - cbv zeta. split; [lia|]. split; [exact Lo|]. intros i a Ha Hb. apply (Hi i a Ha). lia.
  - cbv zeta. pose proof (div2_bounds size E) as D. set (half := Nat.div2 size) in *. clearbody half.
    set (mid := base + half).
    assert (Hmid : mid < length l) by (unfold mid; lia).
    destruct (nth_error l mid) as [m|] eqn:Em; [|apply nth_error_None in Em; lia].
    destruct (f m) eqn:Fm.
    + apply IH; try (unfold mid in *; lia).
      * intros i a Ha Hb. apply (S i mid a m Hb Ha Em). congruence.
      * intros i a Ha Hb. apply (Hi i a Ha). unfold mid in *; lia.
    + apply IH; try (unfold mid in *; lia).
      * intros i a Ha Hb. apply (S i mid a m Hb Ha Em). congruence.
      * intros i a Ha Hb. apply (Hi i a Ha). unfold mid in *; lia.
    + apply IH; try (unfold mid in *; lia); [exact Lo|].
      intros i a Ha Hb. destruct (Nat.eq_dec i mid) as [->|N]; [congruence|].
      apply (S mid i m a ltac:(unfold mid in *; lia) Em Ha). congruence.
Qed.

(** The documented contract of [binary_search_by]. *)
Lemma binary_search_spec {A} (l : list A) f : probe_sorted l f ->
  match binary_search_by l f with
  | Found i => exists a, nth_error l i = Some a /\ f a = Eq
  | Missing i => i <= length l /\
      (forall j a, nth_error l j = Some a -> j < i -> f a = Lt) /\
      (forall j a, nth_error l j = Some a -> i <= j -> f a = Gt)
  end.
Proof.
  intros S. unfold binary_search_by.
    destruct (Nat.eq_dec (length l) 0) as [Z|Z].
    + destruct l; [|discriminate]. cbn. split; [lia|]. split; intros j a Ha; destruct j; discriminate.
    + destruct (bs_loop_spec l f S (length l) (length l) 0) as (B & Lo & Hi); try lia.
      * intros i a Ha Hb. assert (nth_error l i <> None) by congruence. apply nth_error_Some in H. lia.
      * set (b := bs_loop l f (length l) (length l) 0) in *. clearbody b.
        destruct (nth_error l b) as [a|] eqn:Eb; [|apply nth_error_None in Eb; lia].
        destruct (f a) eqn:Fa.
        -- exists a. split; assumption.
        -- split; [lia|]. split.
           ++ intros j c Hc Hj. destruct (Nat.eq_dec j b) as [->|N]; [congruence|]. apply (Lo j c Hc). lia.
           ++ intros j c Hc Hj. apply (Hi j c Hc). lia.
        -- split; [lia|]. split; [exact Lo|].
           intros j c Hc Hj. destruct (Nat.eq_dec j b) as [->|N]; [congruence|]. apply (Hi j c Hc). lia.
Qed.

(** What the search looks at. *)
Lemma bs_probes_in {A} (l : list A) f : forall fuel size base a, In a (bs_probes l f fuel size base) -> In a l.
Proof.
  induction fuel as [|k IH]; intros size base a; cbn [bs_probes]; [easy|].
  destruct (size <=? 1)%nat; [easy|]. destruct (nth_error l (base + Nat.div2 size)) as [b|] eqn:E; [|apply IH].
  intros [<-|H]; [now apply nth_error_In in E|now apply IH in H].
Qed.
Lemma probes_in {A} (l : list A) f a : In a (probes l f) -> In a l.
Proof.
  unfold probes. rewrite in_app_iff. intros [H|H]; [now apply bs_probes_in in H|].
  destruct (nth_error l _) as [b|] eqn:E; [|easy]. destruct H as [<-|[]]. now apply nth_error_In in E.
Qed.
Lemma bs_loop_bound {A} (l : list A) f : forall fuel size base, (base < length l)%nat -> (bs_loop l f fuel size base < length l)%nat.
Proof.
  induction fuel as [|k IH]; intros size base B; cbn [bs_loop]; [exact B|].
  destruct (size <=? 1)%nat; [exact B|]. apply IH. destruct (nth_error l (base + Nat.div2 size)) as [b|] eqn:E; [|exact B].
  destruct (f b); try exact B; apply nth_error_Some; congruence.
Qed.
Lemma probes_some {A} (l : list A) f : l <> [] -> exists a, In a (probes l f).
Proof.
  intros NE. assert (B : (bs_loop l f (length l) (length l) 0 < length l)%nat) by (apply bs_loop_bound; destruct l; [easy|cbn; lia]).
  apply nth_error_Some in B. unfold probes. destruct (nth_error l _) as [a|] eqn:E; [|easy]. exists a. apply in_app_iff. right. now left.
Qed.
