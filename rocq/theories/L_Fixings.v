From Coq Require Import ZArith List String Bool Lia Reals.
From Verif Require Import Prelude Num L_Num M_Dates M_Fixings S_Data.
Import ListNotations.
Open Scope list_scope.

Lemma dt_eqb_iff a b : dt_eqb a b = true <-> a = b.
Proof.
  destruct a as (d1, t1), b as (d2, t2). unfold dt_eqb, tod_eqb. cbn [dt_date dt_tod].
  rewrite andb_true_iff, !Z.eqb_eq. split.
  - intros (-> & E). f_equal. destruct t1, t2; cbn in E; congruence.
  - intros E. inversion E. auto.
Qed.
Lemma dt_eqb_refl a : dt_eqb a a = true.
Proof. now apply dt_eqb_iff. Qed.

(** ** Association lists by string *)
Section Smap.
  Context {A : Type}.
  Lemma get_put_same k (v : A) m : get k (put k v m) = Some v.
  Proof.
    induction m as [|(k', v') m IH]; cbn [put get].
    - now rewrite String.eqb_refl.
    - destruct (String.eqb k k') eqn:E; cbn [get]; rewrite E; auto.
  Qed.
  Lemma get_put_other k k' (v : A) m : k <> k' -> get k' (put k v m) = get k' m.
  Proof.
    intros N. induction m as [|(k2, v2) m IH]; cbn [put get].
    - destruct (String.eqb_spec k' k); congruence.
    - destruct (String.eqb_spec k k2) as [<-|N2]; cbn [get].
      + destruct (String.eqb_spec k' k); [congruence|reflexivity].
      + destruct (String.eqb k' k2); auto.
  Qed.
  Lemma get_del_same k (m : smap A) : get k (del k m) = None.
  Proof.
    induction m as [|(k', v') m IH]; [reflexivity|]. cbn [del]. destruct (String.eqb k k') eqn:E; [exact IH|].
    cbn [get]. now rewrite E.
  Qed.
  Lemma get_del_other k k' (m : smap A) : k <> k' -> get k' (del k m) = get k' m.
  Proof.
    intros N. induction m as [|(k2, v2) m IH]; [reflexivity|]. cbn [del get].
    destruct (String.eqb_spec k k2) as [<-|N2].
    - destruct (String.eqb_spec k' k); [congruence|]. exact IH.
    - cbn [get]. destruct (String.eqb k' k2); auto.
  Qed.
End Smap.

Section Fixings.
  Context {T : Type}.
  Implicit Types m : fixings T.

  Lemma dt_get_put_same k v m : dt_get k (dt_put k v m) = Some v.
  Proof.
    induction m as [|(k', v') m IH]; cbn [dt_put dt_get].
    - now rewrite dt_eqb_refl.
    - destruct (dt_eqb k k') eqn:E; cbn [dt_get]; rewrite E; auto.
  Qed.
  Lemma dt_get_put_other k k' v m : k <> k' -> dt_get k' (dt_put k v m) = dt_get k' m.
  Proof.
    intros N. induction m as [|(k2, v2) m IH]; cbn [dt_put dt_get].
    - destruct (dt_eqb k' k) eqn:E; [apply dt_eqb_iff in E; congruence|reflexivity].
    - destruct (dt_eqb k k2) eqn:E; cbn [dt_get].
      + apply dt_eqb_iff in E as <-. destruct (dt_eqb k' k) eqn:E; [apply dt_eqb_iff in E; congruence|reflexivity].
      + destruct (dt_eqb k' k2); auto.
  Qed.

  (** A lookup after adding a list that has no key twice and none already present. *)
  Lemma add_all (l : list (datetime * T)) : forall m, match foldM fixings_add m l with
    | Ok m' => NoDup (map fst l) /\ (forall k, In k (map fst l) -> dt_get k m = None) /\
               forall k v, dt_get k m' = Some v <-> dt_get k m = Some v \/ In (k, v) l
    | Err _ => ~ (NoDup (map fst l) /\ forall k, In k (map fst l) -> dt_get k m = None)
    | Panic _ => False
    end.
  Proof.
    induction l as [|(k0, v0) l IH]; intros m; cbn [foldM map fst].
    - split; [constructor|]. split; [easy|]. intros. cbn. tauto.
    - unfold fixings_add at 1. cbn [fst snd]. destruct (dt_get k0 m) as [x|] eqn:E; cbn [bind].
      + intros (_ & N). rewrite (N k0) in E; [discriminate|now left].
      + specialize (IH (dt_put k0 v0 m)). destruct (foldM fixings_add (dt_put k0 v0 m) l) as [m'|e|e]; [| |exact IH].
        * destruct IH as (ND & Fresh & Look).
          assert (NI : ~ In k0 (map fst l)). { intros I. apply Fresh in I. now rewrite dt_get_put_same in I. }
          split; [now constructor|]. split.
          { intros k [<-|I]; [exact E|]. rewrite <- (dt_get_put_other k0 k v0 m); [now apply Fresh|]. congruence. }
          intros k v. rewrite Look. cbn [In]. destruct (dt_eqb k0 k) eqn:Q.
          -- apply dt_eqb_iff in Q as <-. rewrite dt_get_put_same, E. split.
             ++ intros [H|H]; [inversion H; auto|]. auto.
             ++ intros [H|[H|H]]; [discriminate|inversion H; auto|auto].
          -- assert (N : k0 <> k) by (intros ->; rewrite dt_eqb_refl in Q; discriminate).
             rewrite dt_get_put_other by exact N. split; [tauto|]. intros [H|[H|H]]; auto. inversion H; congruence.
        * intros (ND & Fresh). apply IH. inversion ND; subst. split; [assumption|].
          intros k I. rewrite dt_get_put_other; [apply Fresh; now right|]. intros ->. contradiction.
  Qed.

  Lemma fixings_new_spec (l : list (datetime * T)) : match fixings_new l with
    | Ok m => NoDup (map fst l) /\ forall k v, dt_get k m = Some v <-> In (k, v) l
    | Err _ => ~ NoDup (map fst l)
    | Panic _ => False
    end.
  Proof.
    unfold fixings_new. pose proof (add_all l []) as A. destruct (foldM fixings_add [] l); [| |exact A].
    - destruct A as (N & _ & L). split; [exact N|]. intros k v. rewrite L. cbn. split; [|auto]. intros [H|H]; [discriminate|exact H].
    - intros N. apply A. split; [exact N|]. reflexivity.
  Qed.

  Lemma insert_state t id f : snd (table_insert t id f) = @mkTable T (known_until t) (put id f (by_id t)).
  Proof. unfold table_insert. now destruct (get id (by_id t)). Qed.

  Lemma table_all (l : list (string * list (datetime * T))) : forall t, match foldM table_add t l with
    | Ok t' => no_duplicates l /\ (forall id, In id (map fst l) -> get id (by_id t) = None) /\
               known_until t' = known_until t /\
               forall id dt v, get_optional t' id dt = Some v <-> get_optional t id dt = Some v \/ supplied l id dt v
    | Err _ => ~ (no_duplicates l /\ forall id, In id (map fst l) -> get id (by_id t) = None)
    | Panic _ => False
    end.
  Proof.
    induction l as [|(id0, f0) l IH]; intros t; cbn [foldM].
    - split; [split; [constructor|easy]|]. split; [easy|]. split; [reflexivity|]. intros id dt v.
      split; [auto|]. intros [H|(fs & [] & _)]. exact H.
    - unfold table_add at 1. cbn [fst snd]. pose proof (fixings_new_spec f0) as F.
      destruct (fixings_new f0) as [m| |]; cbn [bind]; [| |contradiction].
      + destruct F as (F1 & F2). unfold table_insert. destruct (get id0 (by_id t)) as [x|] eqn:E; cbn [bind].
        * intros (_ & N). rewrite (N id0) in E; [discriminate|now left].
        * set (t1 := mkTable (known_until t) (put id0 m (by_id t))). specialize (IH t1).
          destruct (foldM table_add t1 l) as [t'| |]; [| |exact IH].
          -- destruct IH as ((ND & Inner) & Fresh & KU & Look).
             assert (NI : ~ In id0 (map fst l)). { intros I. apply Fresh in I. cbn [by_id t1] in I. now rewrite get_put_same in I. }
             split. { split; [now constructor|]. intros id fs [H|H]; [inversion H; now subst|]. eapply Inner; eassumption. }
             split. { intros id [<-|I]; [exact E|]. rewrite <- (get_put_other id0 id m (by_id t)); [now apply Fresh|]. cbn [map fst] in *. congruence. }
             split; [exact KU|]. intros id dt v. rewrite Look. unfold get_optional at 1. cbn [by_id t1].
             unfold supplied. destruct (String.eqb_spec id0 id) as [<-|N].
             ++ rewrite get_put_same. unfold get_optional. rewrite E, F2. split.
                ** intros [H|(fs & H & K)]; [right; exists f0; cbn; auto|]. right; exists fs; cbn; auto.
                ** intros [H|(fs & [H|H] & K)]; [discriminate| |].
                   --- inversion H; subst. auto.
                   --- elim NI. apply in_map_iff. exists (id0, fs). auto.
             ++ rewrite get_put_other by exact N. fold (get_optional t id dt). split.
                ** intros [H|(fs & H & K)]; [auto|]. right; exists fs; cbn; auto.
                ** intros [H|(fs & [H|H] & K)]; [auto| |right; exists fs; auto]. inversion H; congruence.
          -- intros ((ND & Inner) & Fresh). apply IH. cbn [map fst] in ND. inversion ND; subst. split.
             ++ split; [assumption|]. intros id fs H. apply (Inner id). now right.
             ++ intros id I. cbn [by_id t1]. rewrite get_put_other; [apply Fresh; now right|]. intros ->. contradiction.
      + intros ((_ & Inner) & _). apply F. apply (Inner id0). now left.
  Qed.

  Lemma from_fixings_ok until l t : @from_fixings T until l = Ok t ->
    forall id dt v, get_optional t id dt = Some v <-> supplied l id dt v.
  Proof.
    unfold from_fixings. intros E. pose proof (table_all l (table_new until)) as A. rewrite E in A.
    destruct A as (_ & _ & _ & L). intros. rewrite L. split; [|auto]. intros [H|H]; [discriminate|exact H].
  Qed.

  Lemma from_fixings_get until l t : @from_fixings T until l = Ok t -> forall id dt,
    (forall v, supplied l id dt v -> get_fixing t id dt = Ok (Some v)) /\
    ((forall v, ~ supplied l id dt v) -> (dt_date dt < until)%Z -> exists e : string, get_fixing t id dt = Err e) /\
    ((forall v, ~ supplied l id dt v) -> (until <= dt_date dt)%Z -> get_fixing t id dt = Ok None).
  Proof.
    intros E id dt. pose proof (from_fixings_ok until l t E id dt) as L.
    assert (K : known_until t = until).
    { pose proof (table_all l (table_new until)) as A. unfold from_fixings in E. rewrite E in A. apply A. }
    unfold get_fixing. rewrite K. split; [|split].
    - intros v S. apply L in S. now rewrite S.
    - intros N B. destruct (get_optional t id dt) as [v|]; [elim (N v); now apply L|].
      destruct (Z.ltb_spec (dt_date dt) until); [eauto|lia].
    - intros N B. destruct (get_optional t id dt) as [v|]; [elim (N v); now apply L|].
      destruct (Z.ltb_spec (dt_date dt) until); [lia|reflexivity].
  Qed.

  Lemma from_fixings_iff until l : (exists t, @from_fixings T until l = Ok t) <-> no_duplicates l.
  Proof.
    unfold from_fixings. pose proof (table_all l (table_new until)) as A. split.
    - intros (t & E). rewrite E in A. tauto.
    - intros N. destruct (foldM table_add (table_new until) l); [eauto| |contradiction].
      elim A. split; [exact N|reflexivity].
  Qed.

  Lemma from_fixings_no_panic until l e : @from_fixings T until l <> Panic e.
  Proof.
    unfold from_fixings. pose proof (table_all l (table_new until)) as A. intros E. now rewrite E in A.
  Qed.

  Lemma insert_overwrites (t : fixing_table T) id f g dt : get id (by_id t) = Some g ->
    (exists e : string, fst (table_insert t id f) = Err e) /\
    get_optional (snd (table_insert t id f)) id dt = dt_get dt f.
  Proof.
    intros E. rewrite insert_state. unfold table_insert. rewrite E. split; [eexists; reflexivity|].
    unfold get_optional. cbn [by_id]. now rewrite get_put_same.
  Qed.

  Lemma load_last k (v w : T) : fixings_load [(k, v); (k, w)] = [(k, w)].
  Proof. unfold fixings_load. cbn [fold_left dt_put fst snd]. now rewrite dt_eqb_refl. Qed.
  Lemma new_refuses k (v w : T) : exists e : string, fixings_new [(k, v); (k, w)] = Err e.
  Proof. unfold fixings_new, fixings_add. cbn [foldM dt_get dt_put bind fst snd]. rewrite dt_eqb_refl. eexists; reflexivity. Qed.
End Fixings.
