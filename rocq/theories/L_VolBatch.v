(** Forward variances of several strikes. *)
From Coq Require Import ZArith List.
From Verif Require Import Prelude Num L_Num M_Dates M_Search M_Calendar M_Interp M_Forward M_Vol S_Vol L_Vol.
Import ListNotations.
Open Scope list_scope.

Section Any.
  Context {T : Type} {N : Num T} {TR : Trans T}.
  Variable nan : T.

  Lemma checked_each l xs : checked_vars l = Ok xs <-> xs = l /\ Forall (fun x => nltb x n0 = false) l.
  Proof.
    revert xs. induction l as [|x l IH]; intros xs; cbn [checked_vars].
    - split; [intros E; injection E as <-; auto|intros [-> _]; reflexivity].
    - destruct (nltb x n0) eqn:L; [split; [discriminate|intros [_ F]; inversion F; congruence]|].
      split.
      + intros E. inv_bind E. injection E as <-. apply IH in E0. destruct E0 as [-> F]. auto.
      + intros [-> F]. inversion_clear F as [|? ? _ G]. rewrite (proj2 (IH l)) by auto. reflexivity.
  Qed.

  Lemma variances_one s d k x : variance nan s d k = Ok x <-> variances nan s d [k] = Ok [x].
  Proof.
    unfold variance. split.
    - intros E. inv_bind E. pose proof (variances_each _ _ _ _ _ E0) as F. inversion F as [|? y ? r Ev Fr]; subst. inversion Fr; subst. cbn in E. injection E as ->. exact E0.
    - intros ->. reflexivity.
  Qed.

  Lemma forall2_one {A B} (P : A -> B -> Prop) a r : Forall2 P [a] r -> exists b, r = [b] /\ P a b.
  Proof. intros F. inversion F as [|? b ? r' Pb Fr]; subst. inversion Fr; subst. eauto. Qed.

  Lemma variances_some s d ks vars : ks <> [] -> Forall2 (fun k x => variance nan s d k = Ok x) ks vars -> variances nan s d ks = Ok vars.
  Proof.
    intros NE F. destruct F as [|k x ks vars V F]; [congruence|]. destruct (variance_inv nan s d k x V) as (vol & t & W & _).
    apply (variances_all nan s d (k :: ks) (x :: vars) t); [|constructor; assumption].
    apply volatilities_each in W. tauto.
  Qed.

  Lemma forward_variances_cons s from to ks xs : ks <> [] ->
    (forward_variances nan s from to ks = Ok xs <-> Forall2 (fun k x => forward_variance nan s from to k = Ok x) ks xs).
  Proof.
    intros NE. unfold forward_variance.
    assert (One : forall k x, (forall l, forward_variances nan s from to [k] = Ok l -> exists y, l = [y]) ->
      ((let* l := forward_variances nan s from to [k] in at_ l 0) = Ok x <-> forward_variances nan s from to [k] = Ok [x])).
    { intros k x S. split; [|intros ->; reflexivity]. intros E. inv_bind E. destruct (S _ E0) as (y & ->). cbn in E. congruence. }
    unfold forward_variances in *. destruct (ddf_leb from (vs_base s)).
    - split.
      + intros E. apply variances_each in E. exact E.
      + intros F. now apply variances_some.
    - destruct (vs_forward s) as [fwd|].
      + destruct (forward_at nan fwd (ddf_date from)) as [ff| |]; cbn [bind] in *;
          [|split; [discriminate|intros F; destruct F; [congruence|discriminate]]..].
        destruct (forward_at nan fwd (ddf_date to)) as [tf| |]; cbn [bind] in *;
          [|split; [discriminate|intros F; destruct F; [congruence|discriminate]]..].
        destruct (variance nan s from tf) as [fv| |]; cbn [bind] in *;
          [|split; [discriminate|intros F; destruct F; [congruence|discriminate]]..].
        destruct (variance nan s from ff) as [tv| |]; cbn [bind] in *;
          [|split; [discriminate|intros F; destruct F; [congruence|discriminate]]..].
        destruct (nltb (nsub tv fv) n0); cbn [bind] in *; [split; [discriminate|intros F; destruct F; [congruence|discriminate]]|].
        destruct (find_smile_date s from to) as [sd| |]; cbn [bind] in *;
          [|split; [discriminate|intros F; destruct F; [congruence|discriminate]]..].
        destruct (forward_at nan fwd (ddf_date sd)) as [sf| |]; cbn [bind] in *;
          [|split; [discriminate|intros F; destruct F; [congruence|discriminate]]..].
        destruct (variance nan s sd sf) as [sv| |]; cbn [bind] in *;
          [|split; [discriminate|intros F; destruct F; [congruence|discriminate]]..].
        set (g := fun x => nadd (nsub x sv) (nsub tv fv)) in *.
        assert (K : forall k x, (let* l := let* vars := variances nan s sd [k] in checked_vars (map g vars) in at_ l 0) = Ok x <->
          exists y, variance nan s sd k = Ok y /\ x = g y /\ nltb x n0 = false).
        { intros k x. split.
          - intros E. inv_bind E. inv_bind E0. pose proof (variances_each _ _ _ _ _ E1) as F. apply forall2_one in F. destruct F as (y & -> & V).
            apply checked_each in E0. destruct E0 as [-> G]. cbn in E. injection E as <-. cbn [map] in G. inversion_clear G. eauto.
          - intros (y & V & -> & L). apply variances_one in V. rewrite V. cbn [bind map checked_vars]. rewrite L. reflexivity. }
        split.
        * intros E. inv_bind E. apply checked_each in E. destruct E as [-> G]. apply variances_each in E0. clear NE One. induction E0 as [|k y ks ys V F IH]; cbn [map] in *; [constructor|].
          inversion_clear G as [|? ? G1 G2]. constructor; [apply K; eauto|now apply IH].
        * intros F. assert (Q : exists ys, Forall2 (fun k y => variance nan s sd k = Ok y) ks ys /\ xs = map g ys /\ Forall (fun x => nltb x n0 = false) xs).
          { clear NE One. induction F as [|k x ks xs V F IH]; [exists []; auto using Forall2|]. destruct IH as (ys & Fy & -> & G). apply K in V. destruct V as (y & V & -> & L).
            exists (y :: ys). repeat split; constructor; assumption. }
          destruct Q as (ys & Fy & -> & G). rewrite (variances_some s sd ks ys NE Fy). cbn [bind]. apply checked_each. auto.
      + set (g := fun p : T * T => nsub (fst p) (snd p)) in *.
        assert (K : forall k x, (let* l := let* from_vars := variances nan s from [k] in let* to_vars := variances nan s to [k] in checked_vars (map g (combine to_vars from_vars)) in at_ l 0) = Ok x <->
          exists y z, variance nan s from k = Ok y /\ variance nan s to k = Ok z /\ x = nsub z y /\ nltb x n0 = false).
        { intros k x. split.
          - intros E. inv_bind E. inv_bind E0. inv_bind E0. pose proof (variances_each _ _ _ _ _ E1) as F. apply forall2_one in F. destruct F as (y & -> & V).
            pose proof (variances_each _ _ _ _ _ E2) as F. apply forall2_one in F. destruct F as (z & -> & W).
            apply checked_each in E0. destruct E0 as [-> G]. cbn in E. injection E as <-. cbn [combine map g fst snd] in G. inversion_clear G. eauto 6.
          - intros (y & z & V & W & -> & L). apply variances_one in V, W. rewrite V, W. cbn [bind combine map]. change (g (z, y)) with (nsub z y). cbn [checked_vars]. rewrite L. reflexivity. }
        split.
        * intros E. inv_bind E. inv_bind E. apply checked_each in E. destruct E as [-> G]. apply variances_each in E0, E1. clear NE One. revert a0 E1 G.
          induction E0 as [|k y ks ys V F IH]; intros zs W G; inversion W as [|? z ? zs' W1 W2]; subst; cbn [combine map] in *; [constructor|].
          inversion_clear G as [|? ? G1 G2]. constructor; [apply K; exists y, z; auto|now apply IH].
        * intros F. assert (Q : exists ys zs, Forall2 (fun k y => variance nan s from k = Ok y) ks ys /\ Forall2 (fun k z => variance nan s to k = Ok z) ks zs /\ xs = map g (combine zs ys) /\ Forall (fun x => nltb x n0 = false) xs).
          { clear NE One. induction F as [|k x ks xs V F IH]; [exists [], []; auto using Forall2|]. destruct IH as (ys & zs & Fy & Fz & -> & G). apply K in V. destruct V as (y & z & V & W & -> & L).
            exists (y :: ys), (z :: zs). repeat split; try constructor; assumption. }
          destruct Q as (ys & zs & Fy & Fz & -> & G). rewrite (variances_some s from ks ys NE Fy). cbn [bind]. rewrite (variances_some s to ks zs NE Fz). cbn [bind]. apply checked_each. auto.
  Qed.
End Any.
