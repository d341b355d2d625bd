(** Lemmas about the Black diffusion model under bumps: restoring it, and its paths being up to date. *)
From Coq Require Import ZArith List String Bool Lia.
From Verif Require Import Prelude Num M_Dates M_Calendar M_Curves M_Fixings M_Forward M_Vol M_Instruments M_Deps M_Risk M_Reports M_MonteCarlo
  S_Risk S_Reports S_MonteCarlo L_Num L_Fixings L_Risk L_Prefetch L_SelfPricer.
Import ListNotations.
Open Scope list_scope.

(** ** Lists and finite maps by position *)

Section Positions.
  Context {A : Type}.

  Fixpoint look_nat (k : nat) (m : list (nat * A)) : option A :=
    match m with [] => None | (k', x) :: m' => if Nat.eqb k k' then Some x else look_nat k m' end.

  Lemma look_put k x m k' : look_nat k' (put_nat k x m) = if Nat.eqb k' k then Some x else look_nat k' m.
  Proof.
    induction m as [|[k1 y] m IH]; cbn [put_nat look_nat].
    - destruct (Nat.eqb_spec k' k); reflexivity.
    - destruct (Nat.eqb_spec k k1) as [->|D]; cbn [look_nat].
      + destruct (Nat.eqb_spec k' k1); reflexivity.
      + rewrite IH. destruct (Nat.eqb_spec k' k1), (Nat.eqb_spec k' k); congruence.
  Qed.

  Lemma put_keys k x m : look_nat k m = None -> map fst (put_nat k x m) = map fst m ++ [k].
  Proof.
    induction m as [|[k1 y] m IH]; cbn [put_nat look_nat map fst app]; [reflexivity|]. destruct (Nat.eqb_spec k k1); [discriminate|].
    intros Q. cbn [map fst]. now rewrite IH.
  Qed.

  Lemma look_none k m : look_nat k m = None <-> ~ In k (map fst m).
  Proof.
    induction m as [|[k1 y] m IH]; cbn [look_nat map fst In]; [tauto|]. destruct (Nat.eqb_spec k k1) as [->|D].
    - split; [discriminate|]. intros N. exfalso. apply N. now left.
    - rewrite IH. split; [intros N [Q|I]; congruence|tauto].
  Qed.

  Lemma set_length k (x : A) l : List.length (set_nth k x l) = List.length l.
  Proof. revert k. induction l as [|y l IH]; intros [|k]; cbn; auto. Qed.

  Lemma set_get k (x : A) l k' : nth_error (set_nth k x l) k' = if Nat.eqb k' k then (if Nat.ltb k (List.length l) then Some x else None) else nth_error l k'.
  Proof.
    revert k k'. induction l as [|y l IH]; intros [|k] [|k']; cbn [set_nth nth_error List.length Nat.eqb]; try reflexivity.
    - destruct (Nat.eqb k' k) eqn:Q; reflexivity.
    - rewrite IH. destruct (Nat.eqb k' k); [|reflexivity]. reflexivity.
  Qed.

  Lemma nth_ext_error (l l' : list A) : (forall k, nth_error l k = nth_error l' k) -> l = l'.
  Proof.
    revert l'. induction l as [|x l IH]; intros [|y l'] E; [reflexivity|specialize (E 0%nat); discriminate|specialize (E 0%nat); discriminate|].
    f_equal; [specialize (E 0%nat); cbn in E; congruence|]. apply IH. intros k. exact (E (S k)).
  Qed.

  Definition put_all (saved : list (nat * A)) (l : list A) : list A := fold_left (fun l kx => set_nth (fst kx) (snd kx) l) saved l.

  Lemma put_all_length saved : forall l, List.length (put_all saved l) = List.length l.
  Proof. induction saved as [|[k x] saved IH]; intros l; [reflexivity|]. cbn. rewrite IH. apply set_length. Qed.

  Lemma put_all_get saved : forall l k, NoDup (map fst saved) ->
    nth_error (put_all saved l) k = match look_nat k saved with
                                    | Some x => if Nat.ltb k (List.length l) then Some x else None
                                    | None => nth_error l k
                                    end.
  Proof.
    induction saved as [|[k1 x] saved IH]; intros l k ND; [reflexivity|]. cbn [map fst] in ND. inversion ND as [|? ? N1 N2]; subst.
    change (put_all ((k1, x) :: saved) l) with (put_all saved (set_nth k1 x l)). rewrite (IH _ _ N2), set_length. cbn [look_nat].
    destruct (Nat.eqb_spec k k1) as [->|D].
    - apply look_none in N1. rewrite N1, set_get, Nat.eqb_refl. reflexivity.
    - destruct (look_nat k saved); [reflexivity|]. rewrite set_get. apply Nat.eqb_neq in D. now rewrite D.
  Qed.

  (** Saving what is there and then changing it makes no difference once it is put back. *)
  Lemma put_all_saved saved l k old new : NoDup (map fst saved) -> look_nat k saved = None -> nth_error l k = Some old ->
    put_all (put_nat k old saved) (set_nth k new l) = put_all saved l.
  Proof.
    intros ND L E. apply nth_ext_error. intros j. assert (B : (k < List.length l)%nat) by (apply nth_error_Some; congruence).
    rewrite !put_all_get; [|exact ND|].
    - rewrite look_put, set_length, set_get. destruct (Nat.eqb_spec j k) as [->|D].
      + rewrite L, E. apply Nat.ltb_lt in B. now rewrite B.
      + reflexivity.
    - rewrite put_keys by exact L. apply look_none in L. apply NoDup_rev in ND. rewrite <- (rev_involutive (map fst saved ++ [k])). apply NoDup_rev. rewrite rev_app_distr. cbn. constructor; [now rewrite <- in_rev|exact ND].
  Qed.

  (** Nor does changing what has been saved. *)
  Lemma put_all_again saved l k new : NoDup (map fst saved) -> look_nat k saved <> None ->
    put_all saved (set_nth k new l) = put_all saved l.
  Proof.
    intros ND L. apply nth_ext_error. intros j. rewrite !put_all_get by exact ND. rewrite set_length, set_get.
    destruct (look_nat j saved) eqn:Q; [reflexivity|]. destruct (Nat.eqb_spec j k) as [->|D]; [congruence|reflexivity].
  Qed.

  Lemma put_all_same saved l k x : NoDup (map fst saved) -> look_nat k saved = None -> nth_error l k = Some x ->
    put_all (put_nat k x saved) l = put_all saved l.
  Proof.
    intros ND L E. rewrite <- (put_all_saved saved l k x x ND L E). f_equal. symmetry. apply nth_ext_error. intros j.
    rewrite set_get. destruct (Nat.eqb_spec j k) as [->|D]; [|reflexivity].
    assert (B : (k < List.length l)%nat) by (apply nth_error_Some; congruence). apply Nat.ltb_lt in B. now rewrite B, E.
  Qed.
End Positions.

(** ** Restoring *)
Section Restoring.
  Context {T : Type} {N : Num T} {TR : Trans T}.
  Variable nan : T.
  Implicit Types d : diffusion T.
  Implicit Types p : prefetch T.

  Lemma with_same d : with_paths d (bd_context d) (bd_paths d) = d.
  Proof. now destruct d. Qed.

  Lemma with_with d c c' x y : with_paths (with_paths d c x) c' y = with_paths d c' y.
  Proof. reflexivity. Qed.

  Lemma asset_spec id (ins : list (instrument T)) : forall k, asset_of id ins = Some k -> exists u, nth_error ins k = Some u /\ instrument_id u = id.
  Proof.
    induction ins as [|u ins IH]; cbn [asset_of]; intros k E; [discriminate|]. destruct (String.eqb_spec id (instrument_id u)) as [->|D].
    - injection E as <-. exists u. split; reflexivity.
    - destruct (asset_of id ins) as [j|]; [|discriminate]. injection E as <-. exact (IH _ eq_refl).
  Qed.

  Lemma asset_inj id id' (ins : list (instrument T)) k : asset_of id ins = Some k -> asset_of id' ins = Some k -> id = id'.
  Proof. intros A B. apply asset_spec in A as (u & Q & <-). apply asset_spec in B as (u' & Q' & <-). congruence. Qed.

  Lemma refetch_path_each id a saved d : refetch_path nan id a saved d = refetch_each_path nan [id] a saved d.
  Proof.
    cbn [refetch_each_path]. destruct (refetch_path nan id a saved d) as [[r d'] s'] eqn:E. unfold refetch_path in E.
    destruct a; cbn [negb] in E; [|injection E as <- <- <-; reflexivity].
    destruct (asset_of id (bd_instruments d)); [|injection E as <- <- <-; reflexivity].
    destruct (nth_error (bd_paths d) n), (nth_error (bd_instruments d) n), (nth_error (bd_gaussians d) n);
      try (injection E as <- <- <-; reflexivity). destruct (fetch_path _ _ _ _ _ _); injection E as <- <- <-; reflexivity.
  Qed.

  Lemma each_path_none ids : forall saved d, refetch_each_path nan ids false saved d = (Ok false, d, saved).
  Proof. induction ids as [|id ids IH]; intros saved d; [reflexivity|]. cbn. apply IH. Qed.

  (** A bump of a datum is a bump of the context, then new paths for what the datum moves. *)
  Lemma diffusion_dispatch b t d inner saved : target b = Some t ->
    diffusion_bump_saved nan b d inner saved =
    let '(r, c, inner') := prefetch_bump nan b (bd_context d) inner in
    let d' := with_paths d c (bd_paths d) in
    match r with
    | Ok bumped => let '(r', d'', saved') := refetch_each_path nan (moves (pf_deps c) t) bumped saved d' in (r', d'', inner', saved')
    | Err m => (Err m, d', inner', saved)
    | Panic m => (Panic m, d', inner', saved)
    end.
  Proof.
    intros TB. unfold diffusion_bump_saved. destruct (prefetch_bump nan b (bd_context d) inner) as [[r c] i'].
    destruct r; try reflexivity. destruct b; cbn [target] in TB; try discriminate; injection TB as <-; cbn [moves];
      rewrite ?refetch_path_each; reflexivity.
  Qed.

  (** One new path, saved. *)
  Lemma path_saving id saved d r d' s' : refetch_path nan id true (Some saved) d = (r, d', s') ->
    NoDup (map fst saved) -> (forall k, look_nat k saved <> None -> (k < List.length (bd_paths d))%nat) ->
    (forall k, asset_of id (bd_instruments d) = Some k -> look_nat k saved = None) ->
    exists saved' paths', s' = Some saved' /\ d' = with_paths d (bd_context d) paths' /\
      put_all saved' paths' = put_all saved (bd_paths d) /\ List.length paths' = List.length (bd_paths d) /\
      NoDup (map fst saved') /\ (forall k, look_nat k saved' <> None -> (k < List.length paths')%nat) /\
      (forall k, asset_of id (bd_instruments d) <> Some k -> look_nat k saved' = look_nat k saved) /\
      (forall k, look_nat k saved <> None -> look_nat k saved' <> None) /\
      (is_ok r = true -> exists k, asset_of id (bd_instruments d) = Some k /\ look_nat k saved' <> None).
  Proof.
    intros E ND BD FR. unfold refetch_path in E. cbn [negb] in E.
    assert (SAME : forall r0, (r0, d, Some saved) = (r, d', s') -> is_ok r0 = false ->
      exists saved' paths', s' = Some saved' /\ d' = with_paths d (bd_context d) paths' /\
      put_all saved' paths' = put_all saved (bd_paths d) /\ List.length paths' = List.length (bd_paths d) /\
      NoDup (map fst saved') /\ (forall k, look_nat k saved' <> None -> (k < List.length paths')%nat) /\
      (forall k, asset_of id (bd_instruments d) <> Some k -> look_nat k saved' = look_nat k saved) /\
      (forall k, look_nat k saved <> None -> look_nat k saved' <> None) /\
      (is_ok r = true -> exists k, asset_of id (bd_instruments d) = Some k /\ look_nat k saved' <> None)).
    { intros r0 Q O. injection Q as -> <- <-. exists saved, (bd_paths d). rewrite with_same, O. repeat split; auto. discriminate. }
    destruct (asset_of id (bd_instruments d)) as [k|] eqn:A; [|now apply (SAME _ E)].
    destruct (nth_error (bd_paths d) k) as [path|] eqn:EP; [|now apply (SAME _ E)].
    destruct (nth_error (bd_instruments d) k) as [u|] eqn:EI; [|now apply (SAME _ E)].
    destruct (nth_error (bd_gaussians d) k) as [g|] eqn:EG; [|now apply (SAME _ E)]. clear SAME.
    specialize (FR k eq_refl). cbn [option_map] in E. assert (KB : (k < List.length (bd_paths d))%nat) by (apply nth_error_Some; congruence).
    assert (KN : NoDup (map fst (put_nat k path saved))).
    { rewrite put_keys by exact FR. apply look_none in FR. apply NoDup_rev in ND. rewrite <- (rev_involutive (map fst saved ++ [k])). apply NoDup_rev.
      rewrite rev_app_distr. cbn. constructor; [now rewrite <- in_rev|exact ND]. }
    assert (LO : forall j, Some k <> Some j -> look_nat j (put_nat k path saved) = look_nat j saved).
    { intros j D. rewrite look_put. destruct (Nat.eqb_spec j k); [congruence|reflexivity]. }
    assert (LK : forall j, look_nat j saved <> None -> look_nat j (put_nat k path saved) <> None).
    { intros j Q. rewrite look_put. destruct (Nat.eqb_spec j k); [discriminate|exact Q]. }
    assert (LS : look_nat k (put_nat k path saved) <> None) by (rewrite look_put, Nat.eqb_refl; discriminate).
    assert (LB : forall j, look_nat j (put_nat k path saved) <> None -> (j < List.length (bd_paths d))%nat).
    { intros j. rewrite look_put. destruct (Nat.eqb_spec j k) as [->|]; auto. }
    destruct (fetch_path _ _ _ _ _ _) as [path'|m|m]; injection E as <- <- <-.
    - exists (put_nat k path saved), (set_nth k path' (bd_paths d)). rewrite set_length. repeat split; eauto. now apply put_all_saved.
    - exists (put_nat k path saved), (bd_paths d). rewrite with_same. repeat split; eauto. now apply put_all_same.
    - exists (put_nat k path saved), (bd_paths d). rewrite with_same. repeat split; eauto. now apply put_all_same.
  Qed.

  Lemma each_path_saving ids : forall saved d r d' s', refetch_each_path nan ids true (Some saved) d = (r, d', s') -> NoDup ids ->
    NoDup (map fst saved) -> (forall k, look_nat k saved <> None -> (k < List.length (bd_paths d))%nat) ->
    (forall id k, In id ids -> asset_of id (bd_instruments d) = Some k -> look_nat k saved = None) ->
    exists saved' paths', s' = Some saved' /\ d' = with_paths d (bd_context d) paths' /\
      put_all saved' paths' = put_all saved (bd_paths d) /\ List.length paths' = List.length (bd_paths d) /\
      NoDup (map fst saved') /\ (forall k, look_nat k saved' <> None -> (k < List.length paths')%nat) /\
      (forall k, (forall id, In id ids -> asset_of id (bd_instruments d) <> Some k) -> look_nat k saved' = look_nat k saved) /\
      (forall k, look_nat k saved <> None -> look_nat k saved' <> None) /\
      (is_ok r = true -> forall id, In id ids -> exists k, asset_of id (bd_instruments d) = Some k /\ look_nat k saved' <> None).
  Proof.
    induction ids as [|id ids IH]; intros saved d r d' s' E NI ND BD FR.
    - cbn in E. injection E as <- <- <-. exists saved, (bd_paths d). rewrite with_same. repeat split; auto. intros _ id [].
    - cbn [refetch_each_path] in E. destruct (refetch_path nan id true (Some saved) d) as [[r1 d1] s1] eqn:E1. inversion NI as [|? ? N1 N2]; subst.
      destruct (path_saving _ _ _ _ _ _ E1 ND BD (fun k => FR id k (or_introl eq_refl))) as (sv1 & p1 & -> & -> & A1 & A2 & A3 & A4 & A5 & A6 & A7).
      destruct r1 as [x|m|m].
      + destruct (IH _ _ _ _ _ E N2 A3 A4) as (sv2 & p2 & -> & -> & B1 & B2 & B3 & B4 & B5 & B6 & B7).
        { cbn [with_paths bd_instruments]. intros id' k I A. rewrite A5; [eapply FR; [right; exact I|exact A]|].
          intros A'. assert (id' = id) by (eapply asset_inj; eauto). congruence. }
        cbn [with_paths bd_paths bd_context bd_instruments] in *. exists sv2, p2. rewrite with_with. split; [reflexivity|]. split; [reflexivity|]. split; [congruence|].
        split; [congruence|]. split; [exact B3|]. split; [exact B4|]. split; [|split].
        * intros k U. rewrite B5 by (intros id' I; apply U; now right). apply A5. apply U. now left.
        * intros k Q. apply B6, A6, Q.
        * intros O id' [<-|I]; [|now apply B7]. destruct (A7 eq_refl) as (k & Q & L). exists k. split; [exact Q|]. now apply B6.
      + injection E as <- <- <-. exists sv1, p1. repeat split; auto; [|discriminate]. intros k U. apply A5. apply U. now left.
      + injection E as <- <- <-. exists sv1, p1. repeat split; auto; [|discriminate]. intros k U. apply A5. apply U. now left.
  Qed.

  Lemma each_path_again ids saved : NoDup (map fst saved) -> forall d r d' s', refetch_each_path nan ids true None d = (r, d', s') ->
    (forall id k, In id ids -> asset_of id (bd_instruments d) = Some k -> look_nat k saved <> None) ->
    s' = None /\ exists paths', d' = with_paths d (bd_context d) paths' /\
      put_all saved paths' = put_all saved (bd_paths d) /\ List.length paths' = List.length (bd_paths d).
  Proof.
    intros ND. induction ids as [|id ids IH]; intros d r d' s' E FR.
    - cbn in E. injection E as <- <- <-. split; [reflexivity|]. exists (bd_paths d). now rewrite with_same.
    - cbn [refetch_each_path] in E. destruct (refetch_path nan id true None d) as [[r1 d1] s1] eqn:E1.
      assert (X : s1 = None /\ exists paths', d1 = with_paths d (bd_context d) paths' /\
        put_all saved paths' = put_all saved (bd_paths d) /\ List.length paths' = List.length (bd_paths d)).
      { unfold refetch_path in E1. cbn [negb option_map] in E1.
        assert (SAME : forall r0, (r0, d, None) = (r1, d1, s1) -> s1 = None /\ exists paths', d1 = with_paths d (bd_context d) paths' /\
          put_all saved paths' = put_all saved (bd_paths d) /\ List.length paths' = List.length (bd_paths d)).
        { intros r0 Q. injection Q as _ <- <-. split; [reflexivity|]. exists (bd_paths d). now rewrite with_same. }
        destruct (asset_of id (bd_instruments d)) as [k|] eqn:A; [|eauto].
        destruct (nth_error (bd_paths d) k), (nth_error (bd_instruments d) k), (nth_error (bd_gaussians d) k); eauto.
        destruct (fetch_path _ _ _ _ _ _) as [path'|m|m]; eauto. injection E1 as _ <- <-. split; [reflexivity|].
        exists (set_nth k path' (bd_paths d)). split; [reflexivity|]. rewrite set_length. split; [|reflexivity].
        apply put_all_again; [exact ND|]. eapply FR; [now left|exact A]. }
      destruct X as (-> & p1 & -> & A1 & A2). destruct r1 as [x|m|m].
      + destruct (IH _ _ _ _ E) as (-> & p2 & -> & B1 & B2).
        { intros id' k I A. eapply FR; [right; exact I|exact A]. }
        split; [reflexivity|]. cbn [with_paths bd_paths] in *. exists p2. repeat split; congruence.
      + injection E as _ <- <-. eauto.
      + injection E as _ <- <-. eauto.
  Qed.

  (** The saved paths, against the model. *)
  Record holds (seen : list datum) d (saved : list (nat * matrix T)) : Prop := {
    ho_nodup : NoDup (map fst saved);
    ho_bound : forall k, look_nat k saved <> None -> (k < List.length (bd_paths d))%nat;
    ho_seen : forall t id k, In t seen -> look (pf_data (bd_context d)) t <> None -> In id (moves (pf_deps (bd_context d)) t) ->
      asset_of id (bd_instruments d) = Some k -> look_nat k saved <> None;
    ho_only : forall k, (forall t id, In t seen -> In id (moves (pf_deps (bd_context d)) t) -> asset_of id (bd_instruments d) <> Some k) ->
      look_nat k saved = None
  }.

  Lemma moves_feeds (deps : collector T) t id : In (ForwardFor id) (feeds deps t) \/ In (SurfaceFor id) (feeds deps t) -> In id (moves deps t).
  Proof.
    intros [I|I]; destruct t; cbn [feeds moves] in *.
    all: try (destruct I as [I|I]; [|destruct I]; try discriminate I; injection I as ->; now left).
    all: apply in_map_iff in I; destruct I as (x & Q & I); try discriminate Q; injection Q as ->; exact I.
  Qed.

  Lemma feeds_nodup (deps : collector T) t : NoDup (moves deps t) -> NoDup (feeds deps t).
  Proof.
    destruct t; cbn [feeds moves]; intros ND; try (constructor; [intros []|constructor]).
    induction (forward_ids_of credit deps) as [|a l IH]; cbn [map]; [constructor|]. inversion ND; subst. constructor; [|auto].
    intros I. apply in_map_iff in I. destruct I as (x & [= ->] & I). auto.
  Qed.

  Lemma feeds_apart (deps : collector T) t t' : (forall id, In id (moves deps t) -> ~ In id (moves deps t')) ->
    forall x, In x (feeds deps t) -> ~ In x (feeds deps t').
  Proof. intros DJ [id|id] I I'; apply (DJ id); apply moves_feeds; auto. Qed.

  Definition restored_model sd sf sv saved d : diffusion T :=
    with_paths d (restored sd sf sv (bd_context d)) (put_all saved (bd_paths d)).

  Lemma known_stays b t md : target b = Some t -> forall x, look (bumped_md b md) x <> None -> look md x <> None.
  Proof. intros TB x Q Z. apply Q. now apply (bumped_unknown b _ t). Qed.

  Lemma context_data b t p save r p' save' : for_prefetch save -> target b = Some t -> prefetch_bump nan b p save = (r, p', save') ->
    pf_data p' = bumped_md b (pf_data p).
  Proof.
    intros F TB E. destruct (prefetch_data nan b t p save _ _ _ F TB E) as [D _]. rewrite D.
    destruct (md_bump b (pf_data p) None) as [[r0 md0] s0] eqn:M. now destruct (bump_md_shape b (pf_data p) None r0 md0 s0 t Logic.I TB M) as [_ ->].
  Qed.

  Lemma model_first_step seen b t d sd sf sv saved r d' s' : covers seen (bd_context d) sd sf sv -> holds seen d saved ->
    target b = Some t -> ~ In t seen -> NoDup (moves (pf_deps (bd_context d)) t) ->
    (forall t' id, In t' seen -> In id (moves (pf_deps (bd_context d)) t) -> ~ In id (moves (pf_deps (bd_context d)) t')) ->
    diffusion_bump nan b d (Some (SaveDiffusion (SavePrefetch sd sf sv) saved)) = (r, d', s') ->
    pf_deps (bd_context d') = pf_deps (bd_context d) /\
    exists sd' sf' sv' saved', s' = Some (SaveDiffusion (SavePrefetch sd' sf' sv') saved') /\
      restored_model sd' sf' sv' saved' d' = restored_model sd sf sv saved d /\ NoDup (map fst saved') /\
      (forall k, look_nat k saved' <> None -> (k < List.length (bd_paths d'))%nat) /\
      (is_ok r = true -> covers (t :: seen) (bd_context d') sd' sf' sv' /\ holds (t :: seen) d' saved').
  Proof.
    intros C H TB NI ND DJ E. unfold diffusion_bump in E. rewrite (diffusion_dispatch b t d _ _ TB) in E.
    destruct (prefetch_bump nan b (bd_context d) (Some (SavePrefetch sd sf sv))) as [[r1 c1] i1] eqn:E1. cbn beta iota zeta in E.
    destruct (restore_first_step nan seen b t _ _ _ _ _ _ _ C TB NI (feeds_nodup _ _ ND)
      (fun t' x I => feeds_apart _ _ _ (fun id I' => DJ t' id I I') x) E1) as (ED & sd' & sf' & sv' & -> & R & C').
    assert (DA : pf_data c1 = bumped_md b (pf_data (bd_context d))) by (eapply context_data; [|exact TB|exact E1]; exact Logic.I).
    destruct H as [H1 H2 H3 H4].
    assert (FR : forall id k, In id (moves (pf_deps c1) t) -> asset_of id (bd_instruments d) = Some k -> look_nat k saved = None).
    { intros id k I A. apply H4. intros t' id' I' M A'. assert (id = id') by (eapply asset_inj; eauto). subst id'. rewrite ED in I. exact (DJ t' id I' I M). }
    destruct r1 as [bumped|m|m].
    - destruct (refetch_each_path nan (moves (pf_deps c1) t) bumped (Some saved) (with_paths d c1 (bd_paths d))) as [[r2 d2] s2] eqn:E2.
      destruct (bump_outcome nan b _ _ _ _ _ t TB E1) as [KB _]. destruct bumped.
      + apply each_path_saving in E2; [|now rewrite ED|exact H1|exact H2|exact FR].
        destruct E2 as (saved' & paths' & -> & -> & A1 & A2 & A3 & A4 & A5 & A6 & A7).
        cbn [with_paths bd_paths bd_context bd_instruments] in *. injection E as <- <- <-. cbn [bd_context]. split; [exact ED|].
        exists sd', sf', sv', saved'. split; [reflexivity|]. split; [|split; [exact A3|split; [exact A4|]]].
        * unfold restored_model. cbn [with_paths bd_paths bd_context bd_observations bd_flows bd_instruments bd_substepping bd_n_paths bd_gaussians]. now rewrite R, A1.
        * intros O. split; [now apply C'|]. constructor; cbn [with_paths bd_paths bd_context bd_instruments]; auto.
          -- intros t' id k I L M A. destruct I as [<-|I].
             ++ destruct (A7 O id M) as (k' & A' & L'). assert (k' = k) as <- by (cbn in A; congruence). exact L'.
             ++ apply A6. rewrite ED in M. eapply H3; eauto. rewrite DA in L. eapply known_stays; eauto.
          -- intros k U. rewrite A5; [apply H4|].
             ++ intros t' id I M. apply (U t' id); [now right|now rewrite ED].
             ++ intros id M. apply (U t id); [now left|exact M].
      + rewrite each_path_none in E2. injection E2 as <- <- <-. injection E as <- <- <-. cbn [with_paths bd_context]. split; [exact ED|].
        exists sd', sf', sv', saved. split; [reflexivity|]. split; [|split; [exact H1|split; [exact H2|]]].
        * unfold restored_model. cbn [with_paths bd_paths bd_context bd_observations bd_flows bd_instruments bd_substepping bd_n_paths bd_gaussians]. now rewrite R.
        * intros O. split; [now apply C'|]. constructor; cbn [with_paths bd_paths bd_context bd_instruments]; auto.
          -- intros t' id k I L M A. rewrite ED in M. rewrite DA in L. apply (known_stays b t _ TB) in L. destruct I as [<-|I]; [|eapply H3; eauto].
             unfold known in KB. destruct (look (pf_data (bd_context d)) t); [discriminate|congruence].
          -- intros k U. apply H4. intros t' id I M. apply (U t' id); [now right|now rewrite ED].
    - injection E as <- <- <-. cbn [with_paths bd_context bd_paths]. split; [exact ED|]. exists sd', sf', sv', saved. split; [reflexivity|]. split; [|split; [exact H1|split; [exact H2|discriminate]]].
      unfold restored_model. cbn [with_paths bd_paths bd_context bd_observations bd_flows bd_instruments bd_substepping bd_n_paths bd_gaussians]. now rewrite R.
    - injection E as <- <- <-. cbn [with_paths bd_context bd_paths]. split; [exact ED|]. exists sd', sf', sv', saved. split; [reflexivity|]. split; [|split; [exact H1|split; [exact H2|discriminate]]].
      unfold restored_model. cbn [with_paths bd_paths bd_context bd_observations bd_flows bd_instruments bd_substepping bd_n_paths bd_gaussians]. now rewrite R.
  Qed.

  Lemma model_again_step seen b t d sd sf sv saved r d' s' : covers seen (bd_context d) sd sf sv -> holds seen d saved ->
    target b = Some t -> In t seen -> diffusion_bump nan b d None = (r, d', s') ->
    s' = None /\ pf_deps (bd_context d') = pf_deps (bd_context d) /\ restored_model sd sf sv saved d' = restored_model sd sf sv saved d /\
    (forall k, look_nat k saved <> None -> (k < List.length (bd_paths d'))%nat) /\
    covers seen (bd_context d') sd sf sv /\ holds seen d' saved.
  Proof.
    intros C H TB I E. unfold diffusion_bump in E. rewrite (diffusion_dispatch b t d _ _ TB) in E.
    destruct (prefetch_bump nan b (bd_context d) None) as [[r1 c1] i1] eqn:E1. cbn beta iota zeta in E.
    destruct (restore_again_step nan seen b t _ _ _ _ _ _ _ C TB I E1) as (-> & ED & R & C').
    assert (DA : pf_data c1 = bumped_md b (pf_data (bd_context d))) by (eapply context_data; [|exact TB|exact E1]; exact Logic.I).
    destruct H as [H1 H2 H3 H4].
    assert (DONE : forall paths', put_all saved paths' = put_all saved (bd_paths d) -> List.length paths' = List.length (bd_paths d) ->
      d' = with_paths d c1 paths' -> pf_deps (bd_context d') = pf_deps (bd_context d) /\ restored_model sd sf sv saved d' = restored_model sd sf sv saved d /\
      (forall k, look_nat k saved <> None -> (k < List.length (bd_paths d'))%nat) /\
      covers seen (bd_context d') sd sf sv /\ holds seen d' saved).
    { intros paths' A1 A2 ->. cbn [with_paths bd_context bd_paths]. split; [exact ED|]. split; [|split; [now rewrite A2|split; [exact C'|]]].
      - unfold restored_model. cbn [with_paths bd_paths bd_context bd_observations bd_flows bd_instruments bd_substepping bd_n_paths bd_gaussians]. now rewrite R, A1.
      - constructor; cbn [with_paths bd_paths bd_context bd_instruments]; auto; [now rewrite A2| |].
        + intros t' id k I' L M A. rewrite ED in M. rewrite DA in L. apply (known_stays b t _ TB) in L. eapply H3; eauto.
        + intros k U. apply H4. now rewrite ED in U. }
    destruct r1 as [bumped|m|m].
    - destruct (refetch_each_path nan (moves (pf_deps c1) t) bumped None (with_paths d c1 (bd_paths d))) as [[r2 d2] s2] eqn:E2.
      destruct (bump_outcome nan b _ _ _ _ _ t TB E1) as [KB _]. destruct bumped.
      + apply (each_path_again _ saved H1) in E2.
        * destruct E2 as (-> & paths' & -> & A1 & A2). injection E as <- <- <-. split; [reflexivity|]. exact (DONE paths' A1 A2 eq_refl).
        * cbn [with_paths bd_instruments]. intros id k M A. rewrite ED in M. eapply H3; eauto. unfold known in KB.
          destruct (look (pf_data (bd_context d)) t); [discriminate|]. discriminate KB.
      + rewrite each_path_none in E2. injection E2 as <- <- <-. injection E as <- <- <-. split; [reflexivity|]. now apply (DONE (bd_paths d)).
    - injection E as <- <- <-. split; [reflexivity|]. now apply (DONE (bd_paths d)).
    - injection E as <- <- <-. split; [reflexivity|]. now apply (DONE (bd_paths d)).
  Qed.

  Lemma put_back_all saved : forall paths : list (matrix T), NoDup (map fst saved) -> (forall k, look_nat k saved <> None -> (k < List.length paths)%nat) ->
    put_back saved paths = (Ok tt, put_all saved paths).
  Proof.
    induction saved as [|[k x] saved IH]; intros paths ND BD; [reflexivity|]. cbn [put_back]. inversion ND as [|? ? N1 N2]; subst.
    assert (B : (k < List.length paths)%nat) by (apply BD; cbn [look_nat]; rewrite Nat.eqb_refl; discriminate).
    apply Nat.ltb_lt in B. rewrite B, IH; [reflexivity|exact N2|]. rewrite set_length. intros j Q. apply BD. cbn [look_nat].
    destruct (Nat.eqb j k); [discriminate|exact Q].
  Qed.

  Variable cdf : T -> T.
  Variable visit : smap (instrument T * list (ddf T)) -> smap (instrument T * list (ddf T)).
  Variable redraws : bump_time -> mc_pricer T -> nat -> nat -> T.
  Let ops := mc_ops nan cdf visit redraws.

  Lemma model_restore_ops h : forall seen mp sd sf sv saved mp' s', covers seen (bd_context (mp_model mp)) sd sf sv -> holds seen (mp_model mp) saved ->
    careful (pf_deps (bd_context (mp_model mp))) seen h ->
    pricer_bumps ops h mp (SaveDiffusion (SavePrefetch sd sf sv) saved) mp' s' ->
    mp_factory mp' = mp_factory mp /\ mp_instruments mp' = mp_instruments mp /\
    exists sd' sf' sv' saved', s' = SaveDiffusion (SavePrefetch sd' sf' sv') saved' /\
      restored_model sd' sf' sv' saved' (mp_model mp') = restored_model sd sf sv saved (mp_model mp) /\
      NoDup (map fst saved') /\ (forall k, look_nat k saved' <> None -> (k < List.length (bd_paths (mp_model mp')))%nat).
  Proof.
    induction h as [|[b saving] h IH]; intros seen mp sd sf sv saved mp' s' C H D B.
    - inversion B; subst. destruct H. do 2 (split; [reflexivity|]). eauto 10.
    - inversion B as [|? ? ? ? ? r p1 s1 ? ? E B'|? ? ? ? r ? s1 E]; subst.
      + unfold ops in E. cbn [op_bump mc_ops] in E. unfold mc_bump in E.
        inversion D as [|? ? d ? TB NI ND DJ D'|? ? d ? TB I D']; subst; cbn [if_saving] in E;
        destruct (diffusion_bump nan b (mp_model mp) _) as [[r1 d1] s2] eqn:E1 in E; injection E as -> <- <-.
        * destruct (model_first_step _ _ _ _ _ _ _ _ _ _ _ C H TB NI ND DJ E1) as (ED & sd' & sf' & sv' & saved' & -> & R & _ & _ & C').
          cbn [keep] in B'. destruct (C' eq_refl) as [C1 C2]. eapply (IH (d :: seen)) in B'; cbn [mp_model]; [|eassumption|eassumption|now rewrite ED].
          destruct B' as (Q1 & Q2 & x & y & z & w & -> & Q & R2). do 2 (split; [assumption|]). exists x, y, z, w. split; [reflexivity|]. split; [|exact R2].
          cbn [mp_model] in Q. congruence.
        * destruct (model_again_step _ _ _ _ _ _ _ _ _ _ _ C H TB I E1) as (-> & ED & R & _ & C1 & C2).
          cbn [keep] in B'. eapply (IH seen) in B'; cbn [mp_model]; [|eassumption|eassumption|now rewrite ED].
          destruct B' as (Q1 & Q2 & x & y & z & w & -> & Q & R2). do 2 (split; [assumption|]). exists x, y, z, w. split; [reflexivity|]. split; [|exact R2].
          cbn [mp_model] in Q. congruence.
      + unfold ops in E. cbn [op_bump mc_ops] in E. unfold mc_bump in E.
        inversion D as [|? ? d ? TB NI ND DJ D'|? ? d ? TB I D']; subst; cbn [if_saving] in E;
        destruct (diffusion_bump nan b (mp_model mp) _) as [[r1 d1] s2] eqn:E1 in E; injection E as -> <- <-.
        * destruct (model_first_step _ _ _ _ _ _ _ _ _ _ _ C H TB NI ND DJ E1) as (ED & sd' & sf' & sv' & saved' & -> & R & X1 & X2 & C').
          cbn [keep mp_factory mp_instruments mp_model]. do 2 (split; [reflexivity|]). exists sd', sf', sv', saved'. auto.
        * destruct (model_again_step _ _ _ _ _ _ _ _ _ _ _ C H TB I E1) as (-> & ED & R & X & C1 & C2).
          cbn [keep mp_factory mp_instruments mp_model]. do 2 (split; [reflexivity|]). exists sd, sf, sv, saved. destruct H. auto.
  Qed.

  Lemma mc_restore_undoes h mp mp' s' : careful (pf_deps (bd_context (mp_model mp))) [] h ->
    pricer_bumps ops h mp (op_new_saveable ops mp) mp' s' -> op_restore ops s' mp' = (Ok tt, mp).
  Proof.
    intros D B. unfold ops in *. cbn [op_new_saveable op_restore mc_ops] in *. unfold diffusion_saveable, saved_prefetch_new in B.
    eapply (model_restore_ops h []) in B; [|constructor; [intros d []|intros d _; now destruct d|intros d id []|reflexivity|intros d id []|reflexivity]
      |constructor; [constructor|intros k Q; now contradiction Q|intros t id k []|reflexivity]|exact D].
    destruct B as (Q1 & Q2 & sd' & sf' & sv' & saved' & -> & R & ND & BD). unfold mc_restore, diffusion_restore, prefetch_restore.
    fold (restored sd' sf' sv' (bd_context (mp_model mp'))). rewrite put_back_all by assumption. fold (restored_model sd' sf' sv' saved' (mp_model mp')).
    rewrite R. unfold restored_model, restored. rewrite restore_nothing. rewrite Q1, Q2. destruct mp as [f ins m]. cbn. destruct m as [? ? c]. now destruct c.
  Qed.

  Lemma path_saving_same id a saved d : fst (refetch_path nan id a saved d) = fst (refetch_path nan id a None d).
  Proof.
    unfold refetch_path. destruct a; cbn [negb]; [|reflexivity]. destruct (asset_of _ _) as [k|]; [|reflexivity].
    destruct (nth_error (bd_paths d) k), (nth_error (bd_instruments d) k), (nth_error (bd_gaussians d) k); try reflexivity. now destruct (fetch_path _ _ _ _ _ _).
  Qed.

  Lemma each_path_saving_same ids a : forall saved d, fst (refetch_each_path nan ids a saved d) = fst (refetch_each_path nan ids a None d).
  Proof.
    induction ids as [|id ids IH]; intros saved d; [reflexivity|]. cbn [refetch_each_path]. pose proof (path_saving_same id a saved d) as Q.
    destruct (refetch_path nan id a saved d) as [[r1 d1] s1], (refetch_path nan id a None d) as [[r2 d2] s2] eqn:E. cbn [fst] in Q. injection Q as -> ->.
    destruct r2; try reflexivity. rewrite (IH s1), (IH s2). reflexivity.
  Qed.

  Lemma model_saving_same b d sd sf sv saved :
    fst (diffusion_bump nan b d (Some (SaveDiffusion (SavePrefetch sd sf sv) saved))) = fst (diffusion_bump nan b d None).
  Proof.
    unfold diffusion_bump, diffusion_bump_saved. pose proof (prefetch_saving_same nan b (bd_context d) sd sf sv) as Q.
    destruct (prefetch_bump nan b (bd_context d) (Some _)) as [[r1 c1] i1], (prefetch_bump nan b (bd_context d) None) as [[r2 c2] i2].
    cbn [fst] in Q. injection Q as -> ->. destruct r2 as [a|m|m]; try reflexivity.
    destruct b as [id g|id g|id g|id g|cr g|g]; cbn beta iota zeta.
    5: { pose proof (each_path_saving_same (forward_ids_of cr (pf_deps c2)) a (Some saved) (with_paths d c2 (bd_paths d))) as Q.
      destruct (refetch_each_path _ _ a (Some saved) _) as [[? ?] ?], (refetch_each_path _ _ a None _) as [[? ?] ?]. cbn [fst] in *. exact Q. }
    5: { destruct a; [|reflexivity]. now destruct (refetch_all_paths _ _). }
    all: pose proof (path_saving_same id a (Some saved) (with_paths d c2 (bd_paths d))) as Q;
      destruct (refetch_path _ _ a (Some saved) _) as [[? ?] ?], (refetch_path _ _ a None _) as [[? ?] ?]; cbn [fst] in *; exact Q.
  Qed.

  Lemma each_path_outcome ids a : forall saved d r d' s', refetch_each_path nan ids a saved d = (Ok r, d', s') -> r = a.
  Proof.
    induction ids as [|id ids IH]; cbn [refetch_each_path]; intros saved d r d' s' E; [congruence|].
    destruct (refetch_path nan id a saved d) as [[[x|m|m] d1] s1]; try discriminate. eauto.
  Qed.

  Lemma model_unknown_same b d save d' save' : diffusion_bump nan b d save = (Ok false, d', save') -> d' = d.
  Proof.
    assert (X : forall inner saved d' i' s', diffusion_bump_saved nan b d inner saved = (Ok false, d', i', s') -> d' = d).
    { clear. intros inner saved d' i' s'. destruct (target b) as [t|] eqn:TB.
      - rewrite (diffusion_dispatch b t d inner saved TB). destruct (prefetch_bump nan b (bd_context d) inner) as [[r c] i] eqn:E. cbv zeta.
        destruct r as [a|m|m]; try discriminate. destruct (refetch_each_path _ _ _ _ _) as [[r2 d2] s2] eqn:E2. intros Q. inversion Q; subst.
        apply each_path_outcome in E2 as F. subst a. rewrite each_path_none in E2. inversion E2; subst.
        apply prefetch_unknown_same in E as ->. apply with_same.
      - unfold diffusion_bump_saved. destruct b as [| | | | |g]; try discriminate. destruct (prefetch_bump _ _ _ _) as [[r c] i] eqn:E.
        destruct r as [[|]|m|m]; try discriminate.
        + destruct (refetch_all_paths _ _) as [[x|m|m] d2]; discriminate.
        + intros Q. inversion Q; subst. apply prefetch_unknown_same in E as ->. apply with_same. }
    unfold diffusion_bump. destruct save as [[x|x y z|x y]|]; try discriminate.
    - destruct (diffusion_bump_saved _ _ _ _ _) as [[[r d1] i1] s1] eqn:E. intros Q. inversion Q; subst. eapply X; eauto.
    - destruct (diffusion_bump_saved _ _ _ _ _) as [[[r d1] i1] s1] eqn:E. intros Q. inversion Q; subst. eapply X; eauto.
  Qed.

  Lemma model_outcome b t d save r d' save' : target b = Some t -> diffusion_bump nan b d save = (Ok r, d', save') ->
    r = known (pf_data (bd_context d)) t /\ pf_data (bd_context d') = bumped_md b (pf_data (bd_context d)).
  Proof.
    intros TB. assert (X : forall inner saved d' i' s', diffusion_bump_saved nan b d inner saved = (Ok r, d', i', s') ->
      r = known (pf_data (bd_context d)) t /\ pf_data (bd_context d') = bumped_md b (pf_data (bd_context d))).
    { clear d' save'. intros inner saved d' i' s'. rewrite (diffusion_dispatch b t d inner saved TB).
      destruct (prefetch_bump nan b (bd_context d) inner) as [[[a|m|m] c] i] eqn:E; cbv zeta; try discriminate.
      destruct (refetch_each_path _ _ _ _ _) as [[r2 d2] s2] eqn:E2. intros Q. inversion Q; subst. apply each_path_outcome in E2 as F. subst a.
      destruct (bump_outcome nan b _ _ _ _ _ t TB E) as [K D]. split; [exact K|]. rewrite <- D.
      assert (Y : forall ids a saved d r d' s', refetch_each_path nan ids a saved d = (r, d', s') -> bd_context d' = bd_context d).
      { clear. induction ids as [|id ids IH]; cbn [refetch_each_path]; intros a saved d r d' s' E; [now inversion E|].
        destruct (refetch_path nan id a saved d) as [[x d1] s1] eqn:E1.
        assert (Z : bd_context d1 = bd_context d).
        { unfold refetch_path in E1. destruct a; cbn [negb] in E1; [|now inversion E1]. destruct (asset_of _ _) as [k|]; [|now inversion E1].
          destruct (nth_error (bd_paths d) k), (nth_error (bd_instruments d) k), (nth_error (bd_gaussians d) k); try now inversion E1.
          destruct (fetch_path _ _ _ _ _ _); now inversion E1. }
        destruct x; try (inversion E; subst; exact Z). rewrite <- Z. eauto. }
      now rewrite (Y _ _ _ _ _ _ _ E2). }
    unfold diffusion_bump. destruct save as [[x|x y z|x y]|]; try discriminate.
    - destruct (diffusion_bump_saved _ _ _ _ _) as [[[r1 d1] i1] s1] eqn:E. intros Q. inversion Q; subst. eapply X; eauto.
    - destruct (diffusion_bump_saved _ _ _ _ _) as [[[r1 d1] i1] s1] eqn:E. intros Q. inversion Q; subst. eapply X; eauto.
  Qed.

  Lemma pair_careful deps (b b' : bump T) : same_target b b' -> careful deps [] [(b, true); (b', false)] /\ target b <> None /\ target b' = target b.
  Proof.
    intros [(id & f & f' & -> & ->)|(id & f & f' & -> & ->)]; (split; [|split; [discriminate|reflexivity]]).
    - apply (ca_first _ _ _ (SpotFor id)); [reflexivity|intros []|repeat constructor; intros []|intros ? ? []|].
      apply (ca_again _ _ _ (SpotFor id)); [reflexivity|now left|constructor].
    - apply (ca_first _ _ _ (VolFor id)); [reflexivity|intros []|repeat constructor; intros []|intros ? ? []|].
      apply (ca_again _ _ _ (VolFor id)); [reflexivity|now left|constructor].
  Qed.

  Lemma mc_well_behaved : well_behaved ops diffusion_saveable.
  Proof.
    unfold ops. constructor; cbn [mc_ops op_new_saveable op_bump op_restore].
    - reflexivity.
    - intros b mp. unfold mc_bump, diffusion_saveable, saved_prefetch_new. pose proof (model_saving_same b (mp_model mp) saved_data_new [] [] []) as Q.
      destruct (diffusion_bump nan b (mp_model mp) (Some _)) as [[r1 p1] s1], (diffusion_bump nan b (mp_model mp) None) as [[r2 p2] s2].
      cbn [fst] in *. now injection Q as -> ->.
    - intros b mp save p' save'. unfold mc_bump. destruct (diffusion_bump nan b (mp_model mp) save) as [[r1 p1] s1] eqn:Q. intros E.
      inversion E; subst. apply model_unknown_same in Q as ->. now destruct mp.
    - intros b b' mp r p1 s1 r' p2 s2 ST E1 E2. destruct (pair_careful (pf_deps (bd_context (mp_model mp))) b b' ST) as (D & NT & TT).
      destruct (target b) as [t|] eqn:TB; [|congruence]. unfold mc_bump in E1, E2.
      destruct (diffusion_bump nan b (mp_model mp) (Some diffusion_saveable)) as [[r1 q1] t1] eqn:Q1. injection E1 as -> <- ->. cbn [mp_model] in E2.
      destruct (diffusion_bump nan b' q1 None) as [[r2 q2] t2] eqn:Q2. injection E2 as -> <- ->.
      destruct (model_outcome _ _ _ _ _ _ _ TB Q1) as [-> D1]. destruct (model_outcome _ _ _ _ _ _ _ TT Q2) as [-> D2]. split.
      { rewrite D1. unfold known. destruct (look (pf_data (bd_context (mp_model mp))) t) eqn:L.
        - rewrite (bumped_target b _ t _ TB L). reflexivity.
        - rewrite (bumped_unknown b _ t t TB L). reflexivity. }
      inversion D as [|? ? t1 ? TB' NI ND DJ D'|]; subst. rewrite TB in TB'. injection TB' as <-.
      pose proof Q1 as QA. unfold diffusion_saveable, saved_prefetch_new in QA. eapply (model_first_step []) in QA;
        [|constructor; [intros d []|intros d _; now destruct d|intros d id []|reflexivity|intros d id []|reflexivity]
        |constructor; [constructor|intros k Q; now contradiction Q|intros x id k []|reflexivity]|exact TB|exact NI|exact ND|exact DJ].
      destruct QA as (_ & sd' & sf' & sv' & saved' & -> & _). exists (SaveDiffusion (SavePrefetch sd' sf' sv') saved'). split; [reflexivity|].
      split; [|reflexivity]. assert (s2 = None) as ->. { unfold diffusion_bump in Q2. destruct (diffusion_bump_saved _ _ _ _ _) as [[[? ?] ?] ?]. now inversion Q2. }
      apply (mc_restore_undoes [(b, true); (b', false)]); [exact D|]. unfold ops. cbn [mc_ops op_new_saveable].
      eapply pb_step; [cbn [mc_ops op_bump if_saving]; unfold mc_bump; rewrite Q1; reflexivity|]. cbn [keep].
      eapply pb_step; [cbn [mc_ops op_bump if_saving]; unfold mc_bump; cbn [mp_model]; rewrite Q2; reflexivity|]. apply pb_nil.
  Qed.
End Restoring.
