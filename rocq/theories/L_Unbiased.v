(** Expected values of Monte-Carlo prices. *)
From Coq Require Import ZArith List String Bool Lia Reals Lra Psatz Permutation.
From Verif Require Import Prelude Num M_Dates M_Calendar M_Curves M_Fixings M_Forward M_Vol M_Black76 M_Instruments M_Deps M_Risk M_Reports M_MonteCarlo
  S_Math S_Deps S_Instruments S_Risk S_Reports S_MonteCarlo S_Expectation
  L_Num L_Vol L_Normal L_Black76 L_Diffusion L_Models L_Paths L_MonteCarlo L_Expectation L_Gauss L_Expected.
Import ListNotations.
Open Scope list_scope.
Open Scope R_scope.

(** Growth along a path. *)
Lemma grown_over draws devs n : grown draws devs n = over euler (firstn n draws) (firstn n devs).
Proof. unfold grown, over, euler. now rewrite combine_firstn. Qed.

Lemma dealt_blocks n m : forall l off, List.length l = (off + m * n)%nat ->
  map (fun k => map (fun j => nth (off + (k * n + j)) l 0) (seq 0 n)) (seq 0 m) = blocks m n (skipn off l).
Proof.
  assert (F : forall l off, (off + n <= List.length l)%nat -> map (fun j => nth (off + j) l 0) (seq 0 n) = firstn n (skipn off l)).
  { clear. intros l off L. apply (nth_ext _ _ 0 0); [rewrite map_length, seq_length, firstn_length, skipn_length; lia|].
    rewrite map_length, seq_length. intros j J. rewrite (nth_indep _ 0 (nth (off + 0) l 0)) by (rewrite map_length, seq_length; lia).
    rewrite (map_nth (fun j => nth (off + j) l 0)), seq_nth by exact J. cbn [plus].
    rewrite <- (firstn_skipn off l) at 1. rewrite app_nth2; rewrite firstn_length_le by lia; [|lia]. replace (off + j - off)%nat with j by lia.
    rewrite <- (firstn_skipn n (skipn off l)) at 1. rewrite app_nth1; [reflexivity|]. rewrite firstn_length, skipn_length. lia. }
  induction m as [|m IH]; intros l off L; [reflexivity|]. cbn [seq map blocks]. f_equal.
  - rewrite <- F by (cbn in L; lia). apply map_ext. intros j. f_equal.
  - rewrite <- seq_shift, map_map. assert (SK : skipn n (skipn off l) = skipn (off + n) l).
    { clear. revert l. induction off as [|off IH]; intros l; [reflexivity|]. destruct l as [|x l]; [cbn; now rewrite skipn_nil|]. cbn. apply IH. }
    rewrite SK, <- (IH l (off + n)%nat) by (cbn in L; lia). apply map_ext. intros k. apply map_ext. intros j. f_equal. lia.
Qed.
Lemma dealt_is n m l : List.length l = (m * n)%nat -> map (fun k => map (dealt n l k) (seq 0 n)) (seq 0 m) = blocks m n l.
Proof. intros L. exact (dealt_blocks n m l 0 L). Qed.
Lemma blocks_length m n : forall l, List.length (blocks m n l) = m.
Proof. induction m as [|m IH]; intros l; cbn; auto. Qed.

Section Pricing.
  Variable nan : R.
  Variable cdf : R -> R.
  Variable N : R -> R.
  Hypothesis HN : normal_cdf N.
  Variable visit : smap (instrument R * list (ddf R)) -> smap (instrument R * list (ddf R)).
  Hypothesis visits : forall l, Permutation (visit l) l.
  Variable redraws : bump_time -> mc_pricer R -> nat -> nat -> R.
  Let ops := mc_ops nan cdf visit redraws.

  (** Whether a pricer can be made does not depend on the draws. *)
  Lemma redeal draws draws' instruments f md mp : mc_pricer_new nan visit draws instruments f md = Ok mp ->
    exists mp', mc_pricer_new nan visit draws' instruments f md = Ok mp' /\ op_context ops mp' = op_context ops mp /\
      bd_substepping (mp_model mp') = bd_substepping (mp_model mp) /\ bd_observations (mp_model mp') = bd_observations (mp_model mp) /\
      bd_instruments (mp_model mp') = bd_instruments (mp_model mp).
  Proof.
    intros E. destruct (mc_new _ _ _ _ _ _ _ E) as (deps & t & p & EP & EC & EM & _).
    destruct (new_model _ _ _ _ _ _ _ EM) as (id & u & obs & g & path & V1 & V2 & V3 & V4 & V5 & V6 & V7).
    destruct (substeps_length _ _ _ _ _ _ V2) as [SL S1]. set (steps := bd_substepping (mp_model mp)) in *. set (c := prefetch_context nan p) in *.
    assert (X : exists curve surface, ctx_forward_curve c u (last_date obs) = Ok curve /\ ctx_vol_surface c u (last_date obs) (Ok curve) = Ok surface).
    { unfold fetch_path in V6. repeat inv_bind V6. eauto. }
    destruct X as (curve & surface & C & S). destruct (fetch_path_spec _ _ _ _ _ _ _ _ _ V6 SL C S) as (marks & M & GP & _).
    assert (F : Forall2 (fun v n => 0 <= v /\ (1 <= n)%nat) (gained 0 marks) steps).
    { clear - GP S1. induction GP as [|v n vs ns H GP IH]; constructor; [|apply IH; intros; apply S1; now right].
      assert (L : (1 <= n)%nat) by (apply S1; now left). split; [|exact L]. assert (0 < INR n) by (apply lt_0_INR; lia).
      replace v with (v / INR n * INR n) by (field; lra). apply Rmult_le_pos; lra. }
    set (g' := map (fun k => map (draws' k) (seq 0 (list_sum steps))) (seq 0 (df_n_paths f))).
    pose proof (fetch_path_ok nan u c obs g' steps curve surface marks V5 C S M F) as FP.
    specialize (FP ltac:(apply Forall_forall; intros row I; unfold g' in I; apply in_map_iff in I; destruct I as (k & <- & _); now rewrite map_length, seq_length)).
    assert (SP : (0 < list_sum steps)%nat).
    { destruct steps as [|n ns]; [cbn in SL; lia|]. specialize (S1 n (or_introl eq_refl)). change (list_sum (n :: ns)) with (n + list_sum ns)%nat. lia. }
    exists (mkMcPricer f instruments (mkDiffusion obs (tl_flows t) p [u] steps (df_n_paths f) [g'] [map (path_of marks steps) g'])).
    split; [|split; [unfold ops; cbn [mc_ops op_context mp_model bd_context]; rewrite V7; reflexivity|split; [reflexivity|split; cbn [mp_model]; rewrite V7; reflexivity]]].
    unfold mc_pricer_new. rewrite EP. cbn [bind]. rewrite EC. cbn [bind]. unfold diffusion_new. rewrite V1. cbn [map fst snd]. fold c. rewrite V2. cbn [bind].
    unfold fetch_gaussians. replace (Nat.ltb 0 (list_sum steps)) with true by (symmetry; now apply Nat.ltb_lt).
    replace (Nat.ltb 0 (df_n_paths f)) with true by (symmetry; now apply Nat.ltb_lt). cbn [assert_ bind List.length Nat.ltb Nat.leb]. fold g'.
    unfold fetch_paths. replace (Nat.ltb 0 (List.length obs)) with true by (symmetry; now apply Nat.ltb_lt).
    replace (Nat.ltb 0 (df_n_paths f)) with true by (symmetry; now apply Nat.ltb_lt). cbn [assert_ bind List.length Nat.ltb Nat.leb combine mapM fst snd].
    rewrite FP. reflexivity.
  Qed.

  (** What a pricer made with any draws gives. *)
  Lemma dealt_paths draws instruments f md mp : mc_pricer_new nan visit draws instruments f md = Ok mp ->
    exists u marks curve surface, let obs := bd_observations (mp_model mp) in let steps := bd_substepping (mp_model mp) in
      ctx_forward_curve (op_context ops mp) u (last_date obs) = Ok curve /\
      ctx_vol_surface (op_context ops mp) u (last_date obs) (Ok curve) = Ok surface /\ marked nan curve surface obs marks /\
      bd_instruments (mp_model mp) = [u] /\ List.length steps = List.length obs /\ (forall n, In n steps -> (1 <= n)%nat) /\
      Forall2 (fun v n => 0 <= v / INR n) (gained 0 marks) steps /\ (0 < df_n_paths f)%nat /\
      (0 < df_path_substep f -> enough_steps (df_path_substep f) marks steps) /\
      forall l, List.length l = (df_n_paths f * list_sum steps)%nat -> exists mp', mc_pricer_new nan visit (dealt (list_sum steps) l) instruments f md = Ok mp' /\
        op_context ops mp' = op_context ops mp /\
        mc_paths (mp_model mp') u = Ok (map (path_of marks steps) (blocks (df_n_paths f) (list_sum steps) l)).
  Proof.
    intros E. destruct (reached_paths nan cdf visit redraws draws _ _ _ _ E) as (u & steps & SL & S1 & OL & NP & BI & (t & id & VT & FT & BN & BS & deps & EP) & ES & H).
    destruct (H mp (pr_refl _ _)) as (curve & surface & marks & C & S & M & GP & _). subst steps. fold ops in C, S, ES.
    exists u, marks, curve, surface. cbn zeta. split; [exact C|]. split; [exact S|]. split; [exact M|]. split; [exact BI|]. split; [exact SL|]. split; [exact S1|].
    split; [exact GP|]. split; [exact NP|]. split; [intros P; eapply ES; eassumption|].
    intros l L. destruct (redeal draws (dealt (list_sum (bd_substepping (mp_model mp))) l) _ _ _ _ E) as (mp' & E' & CX & SB & OB & IB).
    exists mp'. split; [exact E'|]. split; [exact CX|].
    destruct (reached_paths nan cdf visit redraws _ _ _ _ _ E') as (u' & steps' & _ & _ & _ & _ & BI' & (t' & id' & _ & _ & _ & BS' & _) & _ & H').
    destruct (H' mp' (pr_refl _ _)) as (curve' & surface' & marks' & C' & S' & M' & _ & P & _). subst steps'. rewrite IB, BI in BI'. injection BI' as <-.
    fold ops in C', S'. rewrite CX, OB in C', S'. rewrite OB in M'. rewrite C in C'. injection C' as <-. rewrite S in S'. injection S' as <-.
    rewrite P, SB, (marked_fun _ _ _ _ _ _ M M'). f_equal. rewrite <- (map_map _ (path_of marks (bd_substepping (mp_model mp)))). f_equal.
    apply dealt_is. exact L.
  Qed.

  Notation expected := (expected N).

  (** The mean over the paths of what can be read off a path. *)
  Lemma expected_mean np n (h : list R -> R) e : (0 < np)%nat -> expected n h e -> expected (np * n) (fun l => mean (map h (blocks np n l))) e.
  Proof.
    intros P E. assert (P' : 0 < INR np) by now apply lt_0_INR. pose proof (expected_sum N HN n h e np E) as S. apply (expected_scale N HN _ (/ INR np)) in S.
    replace (/ INR np * (INR np * e)) with e in S by (field; lra). eapply expected_ext; [|exact S]. intros l _. cbn beta. unfold mean.
    rewrite map_length, blocks_length. unfold Rdiv. apply Rmult_comm.
  Qed.
  Lemma expected_mean_square np n (h : list R -> R) e q : (0 < np)%nat -> expected n h e -> expected n (fun l => h l * h l) q ->
    expected (np * n) (fun l => (mean (map h (blocks np n l)) - e) * (mean (map h (blocks np n l)) - e)) ((q - e * e) / INR np).
  Proof.
    intros P E Q. assert (P' : 0 < INR np) by now apply lt_0_INR.
    assert (Z : expected n (fun l => h l - e) 0).
    { pose proof (expected_linear N HN _ 1 (- e) _ _ _ _ E (expected_const N HN n 1)) as F. replace (1 * e + - e * 1) with 0 in F by ring. eapply expected_ext; [|exact F]. intros; cbn beta; ring. }
    assert (ZQ : expected n (fun l => (h l - e) * (h l - e)) (q - e * e)).
    { pose proof (expected_linear N HN _ 1 1 _ _ _ _ Q (expected_linear N HN _ (-2 * e) (e * e) _ _ _ _ E (expected_const N HN n 1))) as F.
      replace (1 * q + 1 * (-2 * e * e + e * e * 1)) with (q - e * e) in F by ring. eapply expected_ext; [|exact F]. intros; cbn beta; ring. }
    pose proof (expected_sum_square N HN n _ _ np Z ZQ) as S. apply (expected_scale N HN _ (/ INR np * / INR np)) in S.
    replace (/ INR np * / INR np * (INR np * (q - e * e))) with ((q - e * e) / INR np) in S by (field; lra).
    eapply expected_ext; [|exact S]. intros l _. cbn beta.
    assert (M : mean (map h (blocks np n l)) - e = / INR np * sum (map (fun x => h x - e) (blocks np n l))).
    { unfold mean. rewrite map_length, blocks_length. fold (sum (map h (blocks np n l))).
      assert (A : forall bs, sum (map (fun x => h x - e) bs) = sum (map h bs) - INR (List.length bs) * e).
      { clear. induction bs as [|b bs IH]; [cbn; ring|]. change (sum (map ?F (b :: bs))) with (F b + sum (map F bs)). rewrite IH. cbn [List.length]. rewrite S_INR. ring. }
      rewrite A, blocks_length. field. lra. }
    rewrite M. ring.
  Qed.

  (** Expected prices of an option. *)
  Lemma dealt_price draws w i v f md mp curve surface marks value e : option_of i = Some v -> mc_pricer_new nan visit draws [(w, i)] f md = Ok mp ->
    ctx_forward_curve (op_context ops mp) (van_underlying v) (last_date (looks_at i)) = Ok curve ->
    ctx_vol_surface (op_context ops mp) (van_underlying v) (last_date (looks_at i)) (Ok curve) = Ok surface -> marked nan curve surface (looks_at i) marks ->
    price nan cdf (op_context ops mp) (expiry_flow v) (mkDT (ctx_spot_date (op_context ops mp)) Open_) = Ok value ->
    let steps := bd_substepping (mp_model mp) in let n := list_sum steps in
    expected n (fun l => pays i (path_of marks steps l)) e ->
    let make := fun l => mc_pricer_new nan visit (dealt n l) [(w, i)] f md in
    expected_price N (op_price ops) make (df_n_paths f * n) (w * (e * value)) /\
    forall q, expected n (fun l => pays i (path_of marks steps l) * pays i (path_of marks steps l)) q ->
      expected_error N (op_price ops) make (df_n_paths f * n) (w * (e * value)) (w * value * (w * value) * (q - e * e) / INR (df_n_paths f)).
  Proof.
    intros O E C S M V steps n X. destruct (dealt_paths draws _ _ _ _ E) as (u & marks' & curve' & surface' & C' & S' & M' & BI & _ & _ & _ & NP & _ & D).
    destruct (reached_paths nan cdf visit redraws draws _ _ _ _ E) as (u2 & steps2 & _ & _ & _ & _ & BI2 & (t & id & VT & _ & _ & _ & deps & EP) & _).
    rewrite BI in BI2. injection BI2 as <-. destruct (one_timeline _ _ _ _ _ _ O EP) as [TO _]. rewrite TO, (visit_one visit visits) in VT.
    injection VT as _ U OB. subst u. rewrite <- OB in C', S', M'. rewrite C in C'. injection C' as <-. rewrite S in S'. injection S' as <-. rewrite (marked_fun _ _ _ _ _ _ M M') in *. clear M'.
    fold steps n in D. set (h := fun l => pays i (path_of marks steps l)) in *.
    set (p := fun l => w * (mean (map h (blocks (df_n_paths f) n l)) * value)).
    assert (PA : prices_are (op_price ops) (fun l => mc_pricer_new nan visit (dealt n l) [(w, i)] f md) (df_n_paths f * n) p).
    { intros l L. destruct (D l L) as (mp' & E' & CX & P). exists mp'. split; [exact E'|].
      destruct (one_option nan cdf visit visits redraws _ w i v f md mp' mp' O E' (pr_refl _ _)) as (paths & P' & _ & _ & _ & Y).
      rewrite P in P'. injection P' as <-. fold ops in Y. rewrite Y. rewrite CX, V. cbn [rmap]. unfold p. f_equal. f_equal. f_equal. rewrite map_map. reflexivity. }
    assert (PE : expected (df_n_paths f * n) p (w * (e * value))).
    { pose proof (expected_scale N HN _ (w * value) _ _ (expected_mean (df_n_paths f) n h e NP X)) as F. replace (w * (e * value)) with (w * value * e) by ring.
      eapply expected_ext; [|exact F]. intros; unfold p; cbn beta; ring. }
    split; [now exists p|]. intros q Q. exists p. split; [exact PA|]. split; [exact PE|].
    pose proof (expected_scale N HN _ (w * value * (w * value)) _ _ (expected_mean_square (df_n_paths f) n h e q NP X Q)) as F.
    replace (w * value * (w * value) * (q - e * e) / INR (df_n_paths f)) with (w * value * (w * value) * ((q - e * e) / INR (df_n_paths f))) by (unfold Rdiv; ring).
    eapply expected_ext; [|exact F]. intros; unfold p; cbn beta; ring.
  Qed.
End Pricing.
