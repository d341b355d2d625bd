(** Lemmas about pricing by Monte-Carlo. *)
From Coq Require Import ZArith List String Bool Lia Reals Lra Permutation.
From Verif Require Import Prelude Num M_Dates M_Calendar M_Curves M_Fixings M_Forward M_Vol M_Instruments M_Deps M_Risk M_Reports M_MonteCarlo
  S_Deps S_Instruments S_Risk S_Reports S_MonteCarlo L_Num L_Fixings L_Risk L_Vol L_Prefetch L_SelfReports L_Diffusion L_Models L_Paths.
Import ListNotations.
Open Scope list_scope.
Open Scope R_scope.

Section Pricing.
  Variable nan : R.
  Variable cdf : R -> R.
  Variable visit : smap (instrument R * list (ddf R)) -> smap (instrument R * list (ddf R)).
  Hypothesis visits : forall l, Permutation (visit l) l.
  Variable redraws : bump_time -> mc_pricer R -> nat -> nat -> R.
  Variable draws : nat -> nat -> R.
  Let ops := mc_ops nan cdf visit redraws.

  Lemma visit_one a : visit [a] = [a].
  Proof. apply Permutation_length_1_inv. apply Permutation_sym, visits. Qed.

  (** Every path is the growth of what the market says now, with the draws and the steps the pricer was made with. *)
  Lemma reached_paths instruments f md mp : mc_pricer_new nan visit draws instruments f md = Ok mp ->
    exists u steps, let obs := bd_observations (mp_model mp) in
      List.length steps = List.length obs /\ (forall n, In n steps -> (1 <= n)%nat) /\ (0 < List.length obs)%nat /\ (0 < df_n_paths f)%nat /\
      bd_instruments (mp_model mp) = [u] /\
      (exists t id, visit (tl_observations t) = [(id, (u, obs))] /\ bd_flows (mp_model mp) = tl_flows t /\ bd_n_paths (mp_model mp) = df_n_paths f /\
         bd_substepping (mp_model mp) = steps /\ exists deps, mc_portfolio instruments (md_spot_date md) = Ok (deps, t)) /\
      (forall curve surface marks, ctx_forward_curve (op_context ops mp) u (last_date obs) = Ok curve ->
         ctx_vol_surface (op_context ops mp) u (last_date obs) (Ok curve) = Ok surface -> marked nan curve surface obs marks ->
         0 < df_path_substep f -> enough_steps (df_path_substep f) marks steps) /\
      forall mp', pricer_reaches ops mp mp' -> exists curve surface marks,
        ctx_forward_curve (op_context ops mp') u (last_date obs) = Ok curve /\
        ctx_vol_surface (op_context ops mp') u (last_date obs) (Ok curve) = Ok surface /\ marked nan curve surface obs marks /\
        Forall2 (fun v n => 0 <= v / INR n) (gained 0 marks) steps /\
        mc_paths (mp_model mp') u = Ok (map (fun k => path_of marks steps (map (draws k) (seq 0 (list_sum steps)))) (seq 0 (df_n_paths f))) /\
        mp_instruments mp' = instruments /\ bd_flows (mp_model mp') = bd_flows (mp_model mp) /\ bd_n_paths (mp_model mp') = df_n_paths f /\
        bd_instruments (mp_model mp') = [u].
  Proof.
    intros E. apply mc_new in E. destruct E as (deps & t & p & EP & EC & EM & Q0).
    destruct (new_model_fresh _ _ _ _ _ _ _ EM) as [FM CP].
    destruct (new_model _ _ _ _ _ _ _ EM) as (id & u & obs & g & path & V1 & V2 & V3 & V4 & V5 & V6 & V7).
    set (steps := bd_substepping (mp_model mp)) in *. exists u, steps. cbn zeta.
    assert (O : bd_observations (mp_model mp) = obs) by (rewrite V7; reflexivity). rewrite O.
    destruct (substeps_length _ _ _ _ _ _ V2) as [SL S1]. split; [exact SL|]. split; [exact S1|]. split; [exact V5|]. split; [exact V4|].
    split; [rewrite V7; reflexivity|]. split.
    { exists t, id. split; [exact V1|]. split; [rewrite V7; reflexivity|]. split; [rewrite V7; reflexivity|]. split; [reflexivity|]. eauto. }
    split.
    { intros curve surface marks C S M P. unfold ops in C, S. cbn [mc_ops op_context] in C, S. rewrite CP in C, S. eapply substeps_spec; eauto. }
    intros mp' B. pose proof (fresh_reaches _ _ _ _ _ _ B FM) as ((u' & g' & path' & (A1 & A2 & A3) & FP) & _ & Q).
    unfold fresh_path in FP.
    assert (I : bd_instruments (mp_model mp') = [u]) by (rewrite Q, V7; reflexivity).
    assert (G : bd_gaussians (mp_model mp') = [g]) by (rewrite Q, V7; reflexivity).
    assert (OB : bd_observations (mp_model mp') = obs) by (rewrite Q, V7; reflexivity).
    assert (SB : bd_substepping (mp_model mp') = steps) by (rewrite Q; reflexivity).
    rewrite A1 in I. injection I as ->. rewrite A2 in G. injection G as ->. rewrite OB, SB in FP.
    change (prefetch_context nan (bd_context (mp_model mp'))) with (op_context ops mp') in FP.
    assert (X : exists curve surface, ctx_forward_curve (op_context ops mp') u (last_date obs) = Ok curve /\
      ctx_vol_surface (op_context ops mp') u (last_date obs) (Ok curve) = Ok surface).
    { unfold fetch_path in FP. repeat inv_bind FP. eauto. }
    destruct X as (curve & surface & C & S). exists curve, surface.
    destruct (fetch_path_spec _ _ _ _ _ _ _ _ _ FP SL C S) as (marks & M & GP & PP). exists marks.
    split; [exact C|]. split; [exact S|]. split; [exact M|]. split; [exact GP|].
    assert (B1 : mp_instruments mp' = instruments) by (rewrite Q; cbn [mp_instruments]; rewrite Q0; reflexivity).
    assert (B2 : bd_flows (mp_model mp') = bd_flows (mp_model mp)) by (rewrite Q; reflexivity).
    assert (B3 : bd_n_paths (mp_model mp') = df_n_paths f) by (rewrite Q, V7; reflexivity).
    split; [|auto].
    unfold mc_paths. rewrite A1, A3. cbn [asset_of]. rewrite String.eqb_refl. cbn [nth_error]. rewrite PP, V3, map_map. reflexivity.
  Qed.

  (** Averages. *)
  Lemma nsum_total l : nsum l = total l.
  Proof.
    unfold nsum, total. change n0 with 0. assert (G : forall x, fold_left nadd l x = x + fold_right Rplus 0 l); [|rewrite G; lra].
    induction l as [|y l IH]; intros x; cbn [fold_left fold_right]; [lra|]. rewrite IH. rnum. lra.
  Qed.

  Lemma mean_total (l : list R) n : List.length l = n -> total l / IZR (Z.of_nat n) = mean l.
  Proof. intros <-. unfold mean. now rewrite <- INR_IZR_INZ. Qed.

  (** The average of the payoffs along the paths, times the value of a unit paid. *)
  Lemma one_flow d flow (quantities : list R) : bd_flows d = [flow] -> is_pure_rates flow = true -> List.length quantities = bd_n_paths d ->
    evaluate_flows nan cdf d (map (fun q => [q]) quantities) =
    rmap (fun value => mean quantities * value)
      (price nan cdf (prefetch_context nan (bd_context d)) flow (mkDT (md_spot_date (pf_data (bd_context d))) Open_)).
  Proof.
    intros F P L. unfold evaluate_flows. rewrite map_length, L, Nat.eqb_refl, F. cbn [assert_ bind].
    replace (forallb (fun row => Nat.eqb (List.length row) (List.length [flow])) (map (fun q => [q]) quantities)) with true
      by (symmetry; rewrite forallb_forall; intros row I; apply in_map_iff in I; destruct I as (q & <- & _); reflexivity).
    cbn [assert_ bind flow_total]. rewrite P, !map_map. cbn [hd]. rewrite map_id, nsum_total. rnum. rewrite mean_total by exact L.
    unfold prefetch_context at 2. cbn [ctx_spot_date]. destruct (price _ _ _ _ _); cbn [bind rmap]; try reflexivity. f_equal. lra.
  Qed.

  Lemma option_pays i v : option_of i = Some v -> forall path, List.length path = List.length (looks_at i) ->
    exists strike_leg s, match i with ISpotEuropean _ k => path = [s] /\ strike_leg = k
                               | IForwardEuropean _ f _ _ => exists start, path = [start; s] /\ strike_leg = f * start | _ => False end /\
    pays i path = Rmax (option_sign (van_put_or_call v) * (s - strike_leg)) 0.
  Proof.
    intros O path L. destruct i; try discriminate; cbn [option_of looks_at List.length] in *; injection O as ->.
    - destruct path as [|s [|? ?]]; try discriminate. exists strike, s. split; [auto|]. cbn [pays]. unfold option_sign. destruct (van_put_or_call v); f_equal; rnum; lra.
    - destruct path as [|s0 [|s [|? ?]]]; try discriminate. exists (strike_fraction * s0), s. split; [eauto|]. cbn [pays]. unfold option_sign.
      destruct (van_put_or_call v); f_equal; rnum; lra.
  Qed.

  Lemma nmax_max x y : nmax x y = Rmax x y.
  Proof. unfold nmax. rnum. unfold Rmax. repeat rcase; destruct (Rle_dec x y); lra. Qed.

  (** The value of an option given its paths. *)
  Lemma mc_price_mean d i v paths : option_of i = Some v -> mc_paths d (van_underlying v) = Ok paths ->
    Forall (fun path => List.length path = List.length (looks_at i)) paths -> bd_flows d = [expiry_flow v] -> List.length paths = bd_n_paths d ->
    mc_price nan cdf d i = rmap (fun value => Some (mean (map (pays i) paths) * value))
      (price nan cdf (prefetch_context nan (bd_context d)) (expiry_flow v) (mkDT (md_spot_date (pf_data (bd_context d))) Open_)).
  Proof.
    intros O P L F NP.
    assert (X : evaluate_flows nan cdf d (map (fun q => [q]) (map (pays i) paths)) = rmap (fun value => mean (map (pays i) paths) * value)
      (price nan cdf (prefetch_context nan (bd_context d)) (expiry_flow v) (mkDT (md_spot_date (pf_data (bd_context d))) Open_))).
    { apply one_flow; [exact F|reflexivity|rewrite map_length; exact NP]. }
    rewrite map_map in X. destruct i; try discriminate; cbn [option_of] in O; injection O as ->; cbn [mc_price]; rewrite P; cbn [bind looks_at List.length] in *.
    - replace (forallb (fun path => Nat.eqb (List.length path) 1) paths) with true
        by (symmetry; rewrite forallb_forall; intros row I; apply Nat.eqb_eq; exact (proj1 (Forall_forall _ _) L _ I)).
      cbn [assert_ bind]. rewrite (map_ext_in _ (fun x => [pays (ISpotEuropean v strike) x])).
      + rewrite X. now destruct (price _ _ _ _ _).
      + intros path I. destruct (option_pays (ISpotEuropean v strike) v eq_refl path (proj1 (Forall_forall _ _) L _ I)) as (k & s & [-> ->] & ->). now rewrite nmax_max.
    - replace (forallb (fun path => Nat.eqb (List.length path) 2) paths) with true
        by (symmetry; rewrite forallb_forall; intros row I; apply Nat.eqb_eq; exact (proj1 (Forall_forall _ _) L _ I)).
      cbn [assert_ bind]. rewrite (map_ext_in _ (fun x => [pays (IForwardEuropean v strike_fraction strike_date strike_time) x])).
      + rewrite X. now destruct (price _ _ _ _ _).
      + intros path I. destruct (option_pays (IForwardEuropean v strike_fraction strike_date strike_time) v eq_refl path (proj1 (Forall_forall _ _) L _ I)) as (k & s & (s0 & -> & ->) & ->). now rewrite nmax_max.
  Qed.

  (** The timeline of one option. *)
  Lemma one_timeline w i v today deps t : option_of i = Some v -> mc_portfolio [(w, i)] today = Ok (deps, t) ->
    tl_observations t = [(instrument_id (van_underlying v), (van_underlying v, looks_at i))] /\ tl_flows t = [expiry_flow v].
  Proof.
    intros O E. unfold mc_portfolio in E. cbn [foldM fst snd] in E. inv_bind E. injection E as ->.
    match goal with H : bind _ _ = Ok _ |- _ => inv_bind H; inv_bind H; injection H as <- <- end.
    match goal with H : mc_dependencies _ _ = Ok _ |- _ => destruct i; try discriminate; cbn [option_of] in O; injection O as ->; cbn [mc_dependencies] in H; injection H as <- end;
      unfold add_flow, observe; cbn [tl_observations tl_flows get put app looks_at]; rewrite ?String.eqb_refl; cbn [app]; split; reflexivity.
  Qed.

  Lemma one_option w i v f md mp mp' : option_of i = Some v -> mc_pricer_new nan visit draws [(w, i)] f md = Ok mp -> pricer_reaches ops mp mp' ->
    exists paths, mc_paths (mp_model mp') (van_underlying v) = Ok paths /\ List.length paths = df_n_paths f /\ (0 < df_n_paths f)%nat /\
      Forall (fun path => List.length path = List.length (looks_at i)) paths /\
      op_price ops mp' = rmap (fun value => w * (mean (map (pays i) paths) * value))
        (price nan cdf (op_context ops mp') (expiry_flow v) (mkDT (ctx_spot_date (op_context ops mp')) Open_)).
  Proof.
    intros O E B. destruct (reached_paths _ _ _ _ E) as (u & steps & SL & S1 & OL & NP & BI & (t & id & VT & FT & BN & BS & deps & EP) & _ & H).
    destruct (H mp' B) as (curve & surface & marks & _ & _ & M & _ & P & MI & BF & BN' & BI').
    destruct (one_timeline _ _ _ _ _ _ O EP) as [TO TF]. rewrite TO, visit_one in VT. injection VT as _ U OB. subst u.
    rewrite <- OB in *. eexists. split; [exact P|].
    set (paths := map _ _) in *. assert (L : List.length paths = df_n_paths f) by (unfold paths; now rewrite map_length, seq_length).
    assert (FL : Forall (fun path => List.length path = List.length (looks_at i)) paths).
    { apply Forall_forall. intros row I. unfold paths in I. apply in_map_iff in I. destruct I as (k & <- & _). rewrite path_length. exact (forall2_length _ _ _ M). }
    split; [exact L|]. split; [exact NP|]. split; [exact FL|]. unfold ops. cbn [op_price op_context mc_ops]. unfold mc_pricer_price. rewrite MI. cbn [foldM fst snd].
    rewrite (mc_price_mean _ i v paths O P FL); [|rewrite BF, FT; exact TF|now rewrite BN'].
    unfold prefetch_context at 3. cbn [ctx_spot_date]. destruct (price _ _ _ _ _); cbn [rmap bind]; try reflexivity. f_equal. rnum. lra.
  Qed.

  (** Means. *)
  Lemma mean_nonneg {A} (g : A -> R) l : (0 < List.length l)%nat -> (forall x, 0 <= g x) -> 0 <= mean (map g l).
  Proof.
    intros L P. unfold mean. rewrite map_length. apply Rmult_le_pos; [|left; apply Rinv_0_lt_compat, lt_0_INR, L].
    clear L. induction l as [|x l IH]; cbn; [lra|]. specialize (P x). lra.
  Qed.

  Lemma mean_minus {A} (g h : A -> R) l : mean (map g l) - mean (map h l) = mean (map (fun x => g x - h x) l).
  Proof.
    unfold mean. rewrite !map_length. unfold Rdiv. rewrite <- Rmult_minus_distr_r. f_equal. induction l as [|x l IH]; cbn; [lra|]. rewrite <- IH. lra.
  Qed.

  Lemma mean_ext {A} (g h : A -> R) l : (forall x, In x l -> g x = h x) -> mean (map g l) = mean (map h l).
  Proof. intros E. f_equal. now apply map_ext_in. Qed.

  Lemma mean_const {A} k (l : list A) : (0 < List.length l)%nat -> mean (map (fun _ => k) l) = k.
  Proof. intros L. unfold mean. change (fold_right Rplus 0 ?l) with (total l). rewrite total_const, map_length. field. apply lt_0_INR in L. lra. Qed.

  Lemma mean_affine {A} (g : A -> R) a b l : (0 < List.length l)%nat -> mean (map (fun x => a * g x + b) l) = a * mean (map g l) + b.
  Proof.
    intros L. unfold mean. change (fold_right Rplus 0 ?l) with (total l). rewrite total_affine, !map_length. field. apply lt_0_INR in L. lra.
  Qed.

  Lemma pays_nonneg i path : 0 <= pays i path.
  Proof. unfold pays. destruct i; try lra; destruct path as [|s0 [|s [|? ?]]]; try lra; destruct (van_put_or_call v); apply Rmax_r. Qed.

  (** Flows. *)
  Lemma flow_total_spec c when n flows : forall (q : matrix R) start x, List.length q = n -> flow_total nan cdf c when n flows q start = Ok x ->
    exists values, Forall2 (fun flow v => price nan cdf c flow when = Ok v) flows values /\
      x = start + total (map (fun jv => mean (column (fst jv) q) * snd jv) (combine (seq 0 (List.length flows)) values)).
  Proof.
    induction flows as [|flow flows IH]; intros q start x L E; cbn [flow_total] in E.
    - injection E as <-. exists []. split; [constructor|]. cbn. lra.
    - destruct (is_pure_rates flow); [|discriminate]. inv_bind E. apply IH in E; [|now rewrite map_length]. destruct E as (values & F & ->).
      match goal with H : price _ _ _ _ _ = Ok ?v |- _ => exists (v :: values); split; [now constructor|] end. cbn [List.length seq combine map].
      change (total (?a :: ?l)) with (a + total l). rewrite <- seq_shift. rewrite nsum_total. rnum. rewrite mean_total by (now rewrite map_length). cbn [fst snd].
      assert (H0 : forall l : matrix R, map (hd 0) l = column 0 l) by (intros l; unfold column; apply map_ext; now intros []). change n0 with 0. rewrite H0.
      rewrite Rplus_assoc. f_equal. f_equal. f_equal.
      assert (G : forall ks vs, map (fun jv => mean (column (fst jv) (map (@tl R) q)) * snd jv) (combine ks vs) =
                                map (fun jv => mean (column (fst jv) q) * snd jv) (combine (map S ks) vs)); [|apply G].
      induction ks as [|k ks IHk]; intros [|v vs]; try reflexivity. cbn [combine map fst snd]. rewrite IHk. do 3 f_equal.
      unfold column. rewrite map_map. apply map_ext. intros [|? ?]; [now destruct k|reflexivity].
  Qed.

  Lemma flows_spec d q x : evaluate_flows nan cdf d q = Ok x -> exists values,
    Forall2 (fun flow v => price nan cdf (prefetch_context nan (bd_context d)) flow (mkDT (md_spot_date (pf_data (bd_context d))) Open_) = Ok v) (bd_flows d) values /\
    x = total (map (fun jv => mean (column (fst jv) q) * snd jv) (combine (seq 0 (List.length (bd_flows d))) values)).
  Proof.
    unfold evaluate_flows. intros E. inv_bind E. inv_bind E. repeat match goal with H : assert_ _ _ = Ok _ |- _ => apply assert_ok in H end.
    apply flow_total_spec in E; [|now apply Nat.eqb_eq]. destruct E as (values & F & ->). exists values. split; [exact F|]. change n0 with 0. lra.
  Qed.

  (** And they can be evaluated exactly when they are all payments of cash, of known price, with a quantity each on every path. *)
  Lemma flow_total_ok c when n flows : forall (q : matrix R) start, Forall (fun flow => is_pure_rates flow = true) flows ->
    (forall flow, In flow flows -> exists v, price nan cdf c flow when = Ok v) -> exists x, flow_total nan cdf c when n flows q start = Ok x.
  Proof.
    induction flows as [|flow flows IH]; intros q start F V; cbn [flow_total]; [eauto|]. inversion F; subst. rewrite H1.
    destruct (V flow (or_introl eq_refl)) as (v & ->). cbn [bind]. apply IH; [assumption|]. intros g G. apply V. now right.
  Qed.

  Lemma flow_total_pure c when n flows : forall (q : matrix R) start x, flow_total nan cdf c when n flows q start = Ok x -> Forall (fun flow => is_pure_rates flow = true) flows.
  Proof.
    induction flows as [|flow flows IH]; intros q start x E; cbn [flow_total] in E; [constructor|]. destruct (is_pure_rates flow) eqn:P; [|discriminate].
    inv_bind E. constructor; [exact P|eauto].
  Qed.

  Lemma pure_zero_coupon (flow : instrument R) : is_pure_rates flow = true <-> exists a b c d e f, flow = IZeroCoupon a b c d e f.
  Proof. destruct flow; cbn; split; try discriminate; try (intros (? & ? & ? & ? & ? & ? & [=])); eauto 10. Qed.

  Lemma flows_possible d (q : matrix R) : (exists x, evaluate_flows nan cdf d q = Ok x) <->
    List.length q = bd_n_paths d /\ Forall (fun row => List.length row = List.length (bd_flows d)) q /\
    Forall (fun flow => (exists a b c d e f, flow = IZeroCoupon a b c d e f) /\
      exists v, price nan cdf (prefetch_context nan (bd_context d)) flow (mkDT (md_spot_date (pf_data (bd_context d))) Open_) = Ok v) (bd_flows d).
  Proof.
    split.
    - intros (x & E). destruct (flows_spec d q x E) as (values & F & _). unfold evaluate_flows in E. inv_bind E. inv_bind E.
      repeat match goal with H : assert_ _ _ = Ok _ |- _ => apply assert_ok in H end. apply flow_total_pure in E.
      split; [now apply Nat.eqb_eq|]. split; [apply Forall_forall; intros row I; match goal with H : forallb _ _ = true |- _ => rewrite forallb_forall in H; now apply Nat.eqb_eq, H end|].
      rewrite Forall_forall in E |- *. intros flow I. split; [now apply pure_zero_coupon, E|].
      clear - F I. revert I. induction F as [|g v l l' Hv F IH]; [intros []|]. intros [->|I]; [eauto|exact (IH I)].
    - intros (L & W & F). unfold evaluate_flows. rewrite L, Nat.eqb_refl. cbn [assert_ bind].
      replace (forallb (fun row => Nat.eqb (List.length row) (List.length (bd_flows d))) q) with true
        by (symmetry; rewrite forallb_forall; intros row I; rewrite Forall_forall in W; apply Nat.eqb_eq; auto).
      cbn [assert_ bind]. apply flow_total_ok.
      + eapply Forall_impl; [|exact F]. intros flow [P _]. now apply pure_zero_coupon.
      + intros flow I. rewrite Forall_forall in F. exact (proj2 (F flow I)).
  Qed.

  (** Portfolios. *)
  Definition looks (obs : smap (instrument R * list (ddf R))) : nat := list_sum (map (fun a => List.length (snd (snd a))) obs).

  Lemma looks_put k x y l l' (m : smap (instrument R * list (ddf R))) : get k m = Some (x, l) -> (looks (put k (y, l') m) + List.length l = looks m + List.length l')%nat.
  Proof.
    unfold looks. induction m as [|[k' [x' l1]] m IH]; cbn [get put]; [discriminate|]. destruct (String.eqb k k'); cbn [map list_sum fold_right snd].
    - intros [= -> ->]. unfold list_sum. cbn [fold_right]. lia.
    - intros E. specialize (IH E). unfold list_sum in *. cbn [fold_right]. lia.
  Qed.

  Lemma looks_new k x (l : list (ddf R)) (m : smap (instrument R * list (ddf R))) : get k m = None -> looks (put k (x, l) m) = (looks m + List.length l)%nat.
  Proof.
    unfold looks. induction m as [|[k' [x' l1]] m IH]; cbn [get put]; [cbn; lia|]. destruct (String.eqb k k'); [discriminate|].
    intros E. specialize (IH E). unfold list_sum in *. cbn [map fold_right snd]. lia.
  Qed.

  Lemma looks_observe u when (t : timeline R) : looks (tl_observations (observe u when t)) = S (looks (tl_observations t)).
  Proof.
    unfold observe. cbn [tl_observations]. destruct (get (instrument_id u) (tl_observations t)) as [[key l]|] eqn:G.
    - pose proof (looks_put _ _ key l (l ++ [when]) _ G) as Q. rewrite app_length in Q. cbn in Q. lia.
    - rewrite looks_new by exact G. cbn. lia.
  Qed.

  Lemma observe_keys u when (t : timeline R) id : In id (keys (tl_observations (observe u when t))) <-> id = instrument_id u \/ In id (keys (tl_observations t)).
  Proof.
    unfold observe. cbn [tl_observations].
    assert (G : forall x (m : smap (instrument R * list (ddf R))), In id (keys (put (instrument_id u) x m)) <-> id = instrument_id u \/ In id (keys m)).
    { intros x m. induction m as [|[k y] m IH]; cbn [put]; [cbn; intuition|]. destruct (String.eqb_spec (instrument_id u) k) as [->|D]; cbn [keys map fst In].
      - cbn. intuition. - unfold keys in *. cbn [map fst In]. rewrite IH. intuition. }
    destruct (get (instrument_id u) (tl_observations t)) as [[key l]|]; apply G.
  Qed.

  Definition own (t : timeline R) : Prop := Forall (fun a => instrument_id (fst (snd a)) = fst a) (tl_observations t).

  Lemma own_observe u when t : own t -> own (observe u when t).
  Proof.
    unfold own, observe. cbn [tl_observations]. intros O.
    assert (G : forall x (m : smap (instrument R * list (ddf R))), instrument_id (fst x) = instrument_id u -> Forall (fun a => instrument_id (fst (snd a)) = fst a) m ->
      Forall (fun a => instrument_id (fst (snd a)) = fst a) (put (instrument_id u) x m)).
    { intros x m Q. induction m as [|[k y] m IH]; cbn [put]; intros F; [now repeat constructor|]. inversion F; subst.
      destruct (String.eqb_spec (instrument_id u) k) as [<-|D]; constructor; auto. }
    destruct (get (instrument_id u) (tl_observations t)) as [[key l]|] eqn:E; apply G; auto. cbn [fst].
    apply get_in in E. exact (proj1 (Forall_forall _ _) O _ E).
  Qed.

  Lemma portfolio_own instruments today deps t : mc_portfolio instruments today = Ok (deps, t) -> own t.
  Proof.
    unfold mc_portfolio. assert (O : own (mkTimeline (T := R) [] [])) by constructor. revert O. generalize (mkTimeline (T := R) [] []). generalize (collector_new (T := R) today).
    induction instruments as [|[w i] l IH]; intros s0 t0 O E; cbn [foldM fst snd] in E; [now injection E as _ ->|].
    inv_bind E. match goal with H : bind _ _ = Ok ?a |- _ => inv_bind H; inv_bind H; injection H as <- end. eapply IH; [|exact E].
    match goal with H : mc_dependencies _ _ = Ok _ |- _ => destruct i; cbn [mc_dependencies] in H; try discriminate; injection H as <- end.
    - change (own (observe (van_underlying v) (van_expiry_time v) t0)). now apply own_observe.
    - change (own (observe (van_underlying v) (van_expiry_time v) (observe (van_underlying v) strike_time t0))). now apply own_observe, own_observe.
  Qed.

  Lemma portfolio_spec instruments today deps t : mc_portfolio instruments today = Ok (deps, t) ->
    looks (tl_observations t) = list_sum (map (fun h => List.length (looks_at (snd h))) instruments) /\
    List.length (tl_flows t) = List.length instruments /\
    (forall h, In h instruments -> exists v, option_of (snd h) = Some v /\ In (instrument_id (van_underlying v)) (keys (tl_observations t))).
  Proof.
    unfold mc_portfolio. assert (G : forall (s0 : collector R) (t0 : timeline R) (l : holdings R) deps t, foldM (fun s (h : R * instrument R) => let* deps := collect_spot (snd h) (fst s) in let* t := mc_dependencies (snd h) (snd s) in Ok (deps, t)) (s0, t0) l = Ok (deps, t) ->
      looks (tl_observations t) = (looks (tl_observations t0) + list_sum (map (fun h => List.length (looks_at (snd h))) l))%nat /\
      List.length (tl_flows t) = (List.length (tl_flows t0) + List.length l)%nat /\
      (forall id, In id (keys (tl_observations t0)) -> In id (keys (tl_observations t))) /\
      (forall h, In h l -> exists v, option_of (snd h) = Some v /\ In (instrument_id (van_underlying v)) (keys (tl_observations t)))).
    { clear instruments today deps t. intros s0 t0 l. revert s0 t0. induction l as [|[w i] l IH]; intros s0 t0 deps t E; cbn [foldM fst snd] in E.
      - injection E as -> ->. cbn. repeat split; [lia|lia|auto|intros h []].
      - inv_bind E. match goal with H : bind _ _ = Ok ?a |- _ => inv_bind H; inv_bind H; injection H as <- end.
        apply IH in E. destruct E as (X1 & X2 & X3 & X4).
        match goal with H : mc_dependencies _ _ = Ok ?t1 |- _ => assert (D : looks (tl_observations t1) = (looks (tl_observations t0) + List.length (looks_at i))%nat /\
          List.length (tl_flows t1) = S (List.length (tl_flows t0)) /\ (forall id, In id (keys (tl_observations t0)) -> In id (keys (tl_observations t1))) /\
          exists v, option_of i = Some v /\ In (instrument_id (van_underlying v)) (keys (tl_observations t1)));
          [destruct i; cbn [mc_dependencies] in H; try discriminate; injection H as <-|] end.
        + cbn [add_flow tl_observations tl_flows looks_at option_of]. split; [|split; [|split]].
          * rewrite looks_observe. cbn. lia.
          * rewrite app_length. cbn. lia.
          * intros id I. apply (observe_keys (van_underlying v) (van_expiry_time v) t0). auto.
          * exists v. split; [reflexivity|]. apply (observe_keys (van_underlying v) (van_expiry_time v) t0). auto.
        + cbn [add_flow tl_observations tl_flows looks_at option_of]. split; [|split; [|split]].
          * rewrite looks_observe, looks_observe. cbn. lia.
          * rewrite app_length. cbn. lia.
          * intros id I. apply observe_keys. right. apply observe_keys. auto.
          * exists v. split; [reflexivity|]. apply observe_keys. auto.
        + destruct D as (D1 & D2 & D3 & v & D4 & D5). cbn [map list_sum fold_right List.length]. split; [|split; [|split]].
          * unfold list_sum in *. cbn [fold_right snd]. lia.
          * lia.
          * auto.
          * intros h [<-|I]; [exists v; cbn [snd]; auto|]. exact (X4 h I). }
    intros E. apply G in E. destruct E as (X1 & X2 & _ & X4). cbn in X1, X2. auto.
  Qed.

  Lemma two_panic h1 h2 rest f md mp mp' : mc_pricer_new nan visit draws (h1 :: h2 :: rest) f md = Ok mp -> pricer_reaches ops mp mp' ->
    exists m, op_price ops mp' = Panic m.
  Proof.
    intros E B. destruct (reached_paths _ _ _ _ E) as (u & steps & SL & S1 & OL & NP & BI & (t & id & VT & FT & BN & BS & deps & EP) & _ & H).
    destruct (H mp' B) as (curve & surface & marks & _ & _ & M & _ & P & MI & BF & BN' & BI').
    destruct (portfolio_spec _ _ _ _ EP) as (LK & _ & OP).
    assert (VP : tl_observations t = [(id, (u, bd_observations (mp_model mp)))]).
    { apply Permutation_length_1_inv. rewrite <- VT. apply visits. }
    rewrite VP in LK, OP. unfold looks in LK. cbn [map list_sum fold_right snd] in LK. unfold list_sum in LK. cbn [fold_right] in LK.
    destruct (OP h1 (or_introl eq_refl)) as (v & O1 & _). destruct (OP h2 (or_intror (or_introl eq_refl))) as (v2 & O2 & _).
    assert (L2 : (0 < List.length (looks_at (snd h2)))%nat) by (destruct (snd h2); try discriminate; cbn; lia).
    unfold ops. cbn [op_price mc_ops]. unfold mc_pricer_price. rewrite MI. cbn [foldM].
    assert (UP : mc_paths (mp_model mp') (van_underlying v) = mc_paths (mp_model mp') u).
    { destruct (OP h1 (or_introl eq_refl)) as (v' & O' & I). rewrite O1 in O'. injection O' as <-. cbn [keys map fst In] in I. destruct I as [I|[]].
      pose proof (portfolio_own _ _ _ _ EP) as OW. unfold own in OW. rewrite VP in OW. inversion OW as [|? ? OW1 _]; subst. cbn [fst snd] in OW1.
      unfold mc_paths. rewrite BI'. cbn [asset_of]. now rewrite OW1. }
    set (paths := map _ _) in P.
    assert (BAD : forall n, (n < List.length (bd_observations (mp_model mp)))%nat -> forallb (fun path : list R => Nat.eqb (List.length path) n) paths = false).
    { intros n LT. unfold paths. destruct (df_n_paths f) as [|k]; [lia|]. cbn [seq map forallb]. rewrite path_length, (forall2_length _ _ _ M).
      replace (Nat.eqb (List.length (bd_observations (mp_model mp))) n) with false by (symmetry; apply Nat.eqb_neq; lia). reflexivity. }
    destruct h1 as [w1 i1]. cbn [fst snd] in *. assert (LO : (List.length (looks_at i1) < List.length (bd_observations (mp_model mp)))%nat) by lia.
    destruct i1; try discriminate; cbn [option_of] in O1; injection O1 as ->; cbn [mc_price looks_at List.length] in *; rewrite UP, P; cbn [bind];
      rewrite (BAD _ LO); cbn [assert_ bind]; eauto.
  Qed.

  Lemma new_one_underlying instruments f md mp : mc_pricer_new nan visit draws instruments f md = Ok mp ->
    exists id, Forall (fun h => exists v, option_of (snd h) = Some v /\ instrument_id (van_underlying v) = id) instruments.
  Proof.
    intros E. destruct (reached_paths _ _ _ _ E) as (u & steps & SL & S1 & OL & NP & BI & (t & id & VT & FT & BN & BS & deps & EP) & _).
    destruct (portfolio_spec _ _ _ _ EP) as (_ & _ & OP).
    assert (VP : tl_observations t = [(id, (u, bd_observations (mp_model mp)))]).
    { apply Permutation_length_1_inv. rewrite <- VT. apply visits. }
    rewrite VP in OP. exists id. apply Forall_forall. intros h I. destruct (OP h I) as (v & O & K). exists v. split; [exact O|].
    cbn [keys map fst In] in K. destruct K as [K|[]]. congruence.
  Qed.

  Lemma option_nonneg w i v f md mp mp' value : option_of i = Some v -> mc_pricer_new nan visit draws [(w, i)] f md = Ok mp -> pricer_reaches ops mp mp' -> 0 <= w ->
    price nan cdf (op_context ops mp') (expiry_flow v) (mkDT (ctx_spot_date (op_context ops mp')) Open_) = Ok value -> 0 <= value ->
    exists x, op_price ops mp' = Ok x /\ 0 <= x.
  Proof.
    intros O E B W V P. destruct (one_option w i v f md mp mp' O E B) as (paths & _ & L & NP & _ & ->). rewrite V. cbn [rmap]. eexists. split; [reflexivity|].
    apply Rmult_le_pos; [exact W|]. apply Rmult_le_pos; [|exact P]. apply mean_nonneg; [lia|apply pays_nonneg].
  Qed.

  (** The other kind of option, simulated alike. *)
  Definition holding_now (h : holdings R) (mp : mc_pricer R) : mc_pricer R := mkMcPricer (mp_factory mp) h (mp_model mp).

  Lemma swap_reaches h mp mp' : pricer_reaches ops mp mp' -> pricer_reaches ops (holding_now h mp) (holding_now h mp').
  Proof.
    induction 1 as [|p b save r p' save' p'' B R IH]; [constructor|]. eapply (pr_step ops) with (b := b) (save := save); [|exact IH].
    unfold ops in *. cbn [op_bump mc_ops] in *. unfold mc_bump in *. cbn [holding_now mp_model mp_factory mp_instruments]. destruct (diffusion_bump _ _ _ _) as [[r0 d] s0].
    injection B as <- <- <-. reflexivity.
  Qed.

  Lemma kind_portfolio w v k pc pc' today : mc_portfolio [(w, ISpotEuropean (as_kind pc v) k)] today = mc_portfolio [(w, ISpotEuropean (as_kind pc' v) k)] today.
  Proof.
    unfold mc_portfolio. cbn [foldM fst snd]. unfold collect_spot, col_spot. cbn [dependencies]. unfold vanilla_deps. cbn [as_kind van_underlying van_expiry van_credit_id van_pay_date].
    destruct (col_forward _ _ _ _); reflexivity.
  Qed.

  Lemma mc_parity w v k f md mc : mc_pricer_new nan visit draws [(w, ISpotEuropean (as_kind Call v) k)] f md = Ok mc ->
    exists mp, mc_pricer_new nan visit draws [(w, ISpotEuropean (as_kind Put v) k)] f md = Ok mp /\
    forall mc', pricer_reaches ops mc mc' -> exists mp', pricer_reaches ops mp mp' /\ mp_model mp' = mp_model mc' /\
    exists paths, mc_paths (mp_model mc') (van_underlying v) = Ok paths /\
      forall x, op_price ops mc' = Ok x -> exists y value, op_price ops mp' = Ok y /\
        price nan cdf (op_context ops mc') (expiry_flow v) (mkDT (ctx_spot_date (op_context ops mc')) Open_) = Ok value /\
        x - y = w * ((mean (column 0 paths) - k) * value).
  Proof.
    intros E. assert (E' : mc_pricer_new nan visit draws [(w, ISpotEuropean (as_kind Put v) k)] f md = Ok (holding_now [(w, ISpotEuropean (as_kind Put v) k)] mc)).
    { unfold mc_pricer_new in *. rewrite (kind_portfolio w v k Put Call).
      destruct (mc_portfolio _ _) as [[deps t]| |]; cbn [bind] in *; try discriminate. inv_bind E. inv_bind E. injection E as <-.
      match goal with H : prefetch_new _ _ _ = Ok _ |- _ => rewrite H end. cbn [bind]. match goal with H : diffusion_new _ _ _ _ _ _ = Ok _ |- _ => rewrite H end. reflexivity. }
    eexists. split; [exact E'|]. intros mc' B. exists (holding_now [(w, ISpotEuropean (as_kind Put v) k)] mc'). pose proof (swap_reaches [(w, ISpotEuropean (as_kind Put v) k)] _ _ B) as B'.
    split; [exact B'|]. split; [reflexivity|].
    destruct (one_option w (ISpotEuropean (as_kind Call v) k) (as_kind Call v) f md _ _ eq_refl E B) as (paths & P & L & NP & FL & X).
    destruct (one_option w (ISpotEuropean (as_kind Put v) k) (as_kind Put v) f md _ _ eq_refl E' B') as (paths' & P' & _ & _ & _ & Y).
    change (van_underlying (as_kind Call v)) with (van_underlying v) in P. change (van_underlying (as_kind Put v)) with (van_underlying v) in P'.
    cbn [mp_model holding_now] in P'. rewrite P in P'. injection P' as <-. exists paths. split; [exact P|]. intros x EX. rewrite X in EX.
    change (expiry_flow (as_kind Call v)) with (expiry_flow v) in *. change (expiry_flow (as_kind Put v)) with (expiry_flow v) in *.
    change (op_context ops (holding_now [(w, ISpotEuropean (as_kind Put v) k)] mc')) with (op_context ops mc') in Y.
    destruct (price nan cdf (op_context ops mc') (expiry_flow v) _) as [value| |]; cbn [rmap] in EX, Y; try discriminate. injection EX as <-.
    eexists. exists value. split; [exact Y|]. split; [reflexivity|].
    rewrite <- Rmult_minus_distr_l, <- Rmult_minus_distr_r. rewrite mean_minus. do 2 f_equal. unfold column.
    replace (mean (map (fun row => nth 0 row 0) paths) - k) with (1 * mean (map (fun row => nth 0 row 0) paths) + - k) by ring.
    rewrite <- mean_affine by lia. apply mean_ext. intros row I. pose proof (proj1 (Forall_forall _ _) FL _ I) as LR. cbn [looks_at List.length] in LR.
    destruct row as [|s [|? ?]]; try discriminate. cbn [pays as_kind van_put_or_call nth]. unfold Rmax. repeat destruct (Rle_dec _ _); lra.
  Qed.

  (** Without noise. *)
  Lemma noiseless w i v f md mp mp' x : option_of i = Some v -> (forall k j, draws k j = 0) -> mc_pricer_new nan visit draws [(w, i)] f md = Ok mp -> pricer_reaches ops mp mp' ->
    op_price ops mp' = Ok x -> exists curve forwards value,
    ctx_forward_curve (op_context ops mp') (van_underlying v) (last_date (looks_at i)) = Ok curve /\
    Forall2 (fun o F => forward_at nan curve (ddf_date o) = Ok F) (looks_at i) forwards /\
    price nan cdf (op_context ops mp') (expiry_flow v) (mkDT (ctx_spot_date (op_context ops mp')) Open_) = Ok value /\ x = w * (pays i forwards * value).
  Proof.
    intros O Z E B X. destruct (reached_paths _ _ _ _ E) as (u & steps & SL & S1 & OL & NP & BI & (t & id & VT & FT & BN & BS & deps & EP) & _ & H).
    destruct (H mp' B) as (curve & surface & marks & C & _ & M & _ & P & _). destruct (one_timeline _ _ _ _ _ _ O EP) as [TO TF].
    rewrite TO, visit_one in VT. injection VT as _ U OB. subst u. rewrite <- OB in *.
    destruct (one_option w i v f md mp mp' O E B) as (paths & P' & L & _ & _ & XE). rewrite P in P'. injection P' as <-. rewrite X in XE.
    destruct (price _ _ _ _ _) as [value| |]; cbn [rmap] in XE; try discriminate. injection XE as ->.
    exists curve, (map mk_forward marks), value. split; [exact C|]. split; [|split; [reflexivity|]].
    - unfold marked in M. clear - M. induction M as [|o m obs marks (A & _) M IH]; cbn [map]; constructor; auto.
    - do 2 f_equal. rewrite map_map. rewrite <- (mean_const (pays i (map mk_forward marks)) (seq 0 (df_n_paths f))) by (now rewrite seq_length). apply mean_ext. intros k _.
      f_equal. apply path_zero. apply Forall_forall. intros g I. apply in_map_iff in I. destruct I as (j & <- & _). apply Z.
  Qed.

  (** Draws that take every combination of signs. *)
  Lemma balanced instruments f md mp mp' g : mc_pricer_new nan visit draws instruments f md = Ok mp -> pricer_reaches ops mp mp' ->
    map (fun k => map (draws k) (seq 0 (List.length g))) (seq 0 (df_n_paths f)) = sign_changes g -> List.length g = list_sum (bd_substepping (mp_model mp)) ->
    exists u curve paths, mc_paths (mp_model mp') u = Ok paths /\ ctx_forward_curve (op_context ops mp') u (last_date (bd_observations (mp_model mp))) = Ok curve /\
      forall j o, nth_error (bd_observations (mp_model mp)) j = Some o -> exists F, forward_at nan curve (ddf_date o) = Ok F /\ mean (column j paths) = F.
  Proof.
    intros E B G L. destruct (reached_paths _ _ _ _ E) as (u & steps & SL & S1 & OL & NP & BI & (t & id & VT & FT & BN & BS & deps & EP) & _ & H).
    destruct (H mp' B) as (curve & surface & marks & C & _ & M & _ & P & _). do 3 eexists. split; [exact P|]. split; [exact C|]. rewrite BS in L. rewrite <- L.
    rewrite <- (map_map (fun k => map (draws k) (seq 0 (List.length g))) (path_of marks steps)). rewrite G. intros j o O.
    assert (X : exists m, nth_error marks j = Some m /\ forward_at nan curve (ddf_date o) = Ok (mk_forward m)).
    { unfold marked in M. clear - M O. revert j O. induction M as [|o' m obs marks (A & _) M IH]; intros [|j] O; cbn [nth_error] in *; try discriminate.
      - injection O as ->. eauto. - eauto. }
    destruct X as (m & N & F). exists (mk_forward m). split; [exact F|]. now apply signs_mean.
  Qed.

  Lemma empty_fails f md mp : mc_pricer_new nan visit draws [] f md <> Ok mp.
  Proof.
    intros E. destruct (reached_paths _ _ _ _ E) as (u & steps & SL & S1 & OL & NP & BI & (t' & id' & VT & FT & BN & BS & deps & EP) & _).
    cbn in EP. injection EP as _ <-. cbn [tl_observations] in VT. pose proof (visits []) as VP. apply Permutation_length in VP. rewrite VT in VP. discriminate.
  Qed.

  (** An option that has been fixed. *)
  Lemma settled_fails (l : holdings R) f md mp : (l = [] \/ exists w v', In (w, payment_of v') l) -> mc_pricer_new nan visit draws l f md <> Ok mp.
  Proof.
    intros [->|(w & v' & I)] E; [exact (empty_fails _ _ _ E)|]. destruct (new_one_underlying _ _ _ _ E) as (id & F).
    pose proof (proj1 (Forall_forall _ _) F _ I) as (? & O & _). discriminate.
  Qed.

  Lemma settles v k t (l : holdings R) : fix_instrument t (ISpotEuropean v k) = Ok (Some l) -> l = [] \/ exists w v', In (w, payment_of v') l.
  Proof.
    cbn [fix_instrument]. unfold fix_spot_european. intros X. inv_bind X. destruct a; [|discriminate]. injection X as <-.
    destruct (van_cash_or_physical v); match goal with |- context [if ?b then _ else _] => destruct b end; auto; right; do 2 eexists; left; reflexivity.
  Qed.

  Lemma fixed_not_simulated v k t l f md : fix_instrument t (ISpotEuropean v k) = Ok (Some l) -> forall mp, mc_pricer_factory nan visit draws f (ISpotEuropean v k) t md <> Ok mp.
  Proof.
    intros X mp E. unfold mc_pricer_factory, fixed_portfolio in E. rewrite X in E. cbn [bind] in E. exact (settled_fails _ _ _ _ (settles _ _ _ _ X) E).
  Qed.
End Pricing.

Section TimeBump.
  Context {T : Type} {N : Num T} {TR : Trans T}.
  Variable nan : T.
  Variable cdf : T -> T.
  Variable visit : smap (instrument T * list (ddf T)) -> smap (instrument T * list (ddf T)).
  Variable redraws : bump_time -> mc_pricer T -> nat -> nat -> T.
  Notation ops := (mc_ops nan cdf visit redraws).

  (** Passing time. *)
  Lemma mc_time_bumped bt mp mp' : mc_bump_time nan visit redraws bt mp = (Ok tt, mp') ->
    exists changed ins' r d' save', update_instruments nan bt (mp_instruments mp) (op_context ops mp) (pf_deps (bd_context (mp_model mp))) = Ok (changed, ins') /\
      diffusion_bump nan (BSpotDate (bt_spot_date_bump bt)) (mp_model mp) None = (Ok r, d', save') /\
      (if changed then mc_pricer_new nan visit (redraws bt mp) ins' (mp_factory mp) (pf_data (bd_context d')) = Ok mp'
       else mp' = mkMcPricer (mp_factory mp) (mp_instruments mp) d').
  Proof.
    unfold mc_bump_time, apply_time_bump. cbn [bind]. cbn [op_context mc_ops]. destruct (update_instruments _ _ _ _ _) as [[changed ins']|m|m] eqn:U; try discriminate.
    destruct (diffusion_bump nan _ (mp_model mp) None) as [[r d'] save'] eqn:B. destruct r as [r|m|m]; cbn [rmap]; try discriminate.
    destruct (update_spec nan _ _ _ _ _ _ U) as [NC _].
    destruct changed.
    - destruct (mc_pricer_new nan visit (redraws bt mp) ins' _ (pf_data (bd_context d'))) as [mp''|m|m] eqn:Q; try discriminate. intros E. injection E as <-.
      exists true, ins', r, d', save'. auto.
    - intros E. injection E as <-. rewrite (NC eq_refl) in *. exists false, (mp_instruments mp), r, d', save'. auto.
  Qed.

End TimeBump.

Section Passing.
  Variable nan : R.
  Variable cdf : R -> R.
  Variable visit : smap (instrument R * list (ddf R)) -> smap (instrument R * list (ddf R)).
  Hypothesis visits : forall l, Permutation (visit l) l.
  Variable redraws : bump_time -> mc_pricer R -> nat -> nat -> R.
  Notation ops := (mc_ops nan cdf visit redraws).

  Lemma kept_alive bt mp mp' w v k : mp_instruments mp = [(w, ISpotEuropean v k)] -> mc_bump_time nan visit redraws bt mp = (Ok tt, mp') ->
    exists r d' save', update_instruments nan bt (mp_instruments mp) (op_context ops mp) (pf_deps (bd_context (mp_model mp))) = Ok (false, mp_instruments mp) /\
      diffusion_bump nan (BSpotDate (bt_spot_date_bump bt)) (mp_model mp) None = (Ok r, d', save') /\ mp' = mkMcPricer (mp_factory mp) (mp_instruments mp) d'.
  Proof.
    intros I E. apply (mc_time_bumped nan cdf) in E. destruct E as (changed & ins' & r & d' & save' & U & B & X). destruct (update_spec nan _ _ _ _ _ _ U) as [NC Y].
    destruct changed; [exfalso|rewrite (NC eq_refl) in U; eauto 10]. destruct Y as [[? _]|(t & _ & _ & F)]; [discriminate|]. rewrite I in F.
    unfold fix_all in F. cbn [fix_all_loop] in F. destruct (fix_instrument t (ISpotEuropean v k)) as [[l|]| |] eqn:FX; try discriminate. cbn [firstn app] in F. injection F as <-.
    refine (settled_fails nan cdf visit visits redraws _ _ _ _ _ _ X). destruct (settles _ _ _ _ FX) as [->|(w' & v' & J)]; [now left|right].
    do 2 eexists. apply in_map_iff. eexists. split; [|exact J]. reflexivity.
  Qed.
End Passing.
