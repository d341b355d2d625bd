(** Lemmas about risk reports. *)
From Coq Require Import ZArith List String Bool Lia Reals Lra Permutation.
From Verif Require Import Prelude Num M_Dates M_Calendar M_Curves M_Fixings M_Forward M_Vol M_Instruments M_Deps M_Risk M_Reports
  S_Reports L_Num L_Fixings L_Risk.
Import ListNotations.
Open Scope list_scope.

(** Induction over generators and the generators inside. *)
Lemma generator_nested {T} (Q : generator T -> Prop) :
  (forall h, Q (DeltaGammaGenerator h)) -> (forall b, Q (VegaVolgaGenerator b)) ->
  (forall bt gs, Forall Q gs -> Q (TimeBumpedGenerator bt gs)) -> forall g, Q g.
Proof.
  intros A B C. fix IH 1. intros [h|b|bt gs]; [apply A|apply B|]. apply C. induction gs; constructor; auto.
Qed.

Section Generic.
  Context {T : Type} {N : Num T} {TR : Trans T} {P : Type}.
  Variable nan : T.
  Variable ops : pricer_ops T P.
  Variable new : saveable T.
  Hypothesis WB : well_behaved ops new.

  Lemma bumped_price_ok b p save u x p' save' : bumped_price ops b p save u = (Ok x, p', save') ->
    exists r, op_bump ops b p save = (Ok r, p', save') /\ if r then op_price ops p' = Ok x else x = u.
  Proof.
    unfold bumped_price. destruct (op_bump ops b p save) as [[[[]|m|m] q] s']; intros E; inversion E; subst; try discriminate.
    - exists true. auto.
    - exists false. auto.
  Qed.

  Lemma up_and_down_same up down u p x p' sv' : same_target up down -> up_and_down ops up down u p new = (Ok x, p', sv') -> p' = p /\ sv' = new.
  Proof.
    intros S. unfold up_and_down. destruct (bumped_price ops up p (Some new) u) as [[[a|m|m] p1] s1] eqn:E1; try discriminate.
    destruct (bumped_price ops down p1 None u) as [[[b|m|m] p2] s2] eqn:E2; try discriminate.
    destruct (bumped_price_ok _ _ _ _ _ _ _ E1) as (r1 & B1 & _). destruct (bumped_price_ok _ _ _ _ _ _ _ E2) as (r2 & B2 & _).
    destruct (wb_restore _ _ WB _ _ _ _ _ _ _ _ _ S B1 B2) as (_ & s & -> & RS & CL). rewrite RS, CL. intros E. now inversion E.
  Qed.

  Lemma up_and_down_prices up down u p x y p' sv' : same_target up down -> op_price ops p = Ok u ->
    up_and_down ops up down u p new = (Ok (x, y), p', sv') -> price_after ops [up] p = Ok x /\ price_after ops [up; down] p = Ok y.
  Proof.
    intros S PU. unfold up_and_down. destruct (bumped_price ops up p (Some new) u) as [[[a|m|m] p1] s1] eqn:E1; try discriminate.
    destruct (bumped_price ops down p1 None u) as [[[b|m|m] p2] s2] eqn:E2; try discriminate.
    destruct (bumped_price_ok _ _ _ _ _ _ _ E1) as (r1 & B1 & C1). destruct (bumped_price_ok _ _ _ _ _ _ _ E2) as (r2 & B2 & C2).
    destruct (wb_restore _ _ WB _ _ _ _ _ _ _ _ _ S B1 B2) as (-> & s & -> & RS & CL). rewrite RS. intros E. injection E as -> -> <- <-.
    pose proof (wb_saving _ _ WB up p) as SV. rewrite B1 in SV. cbn [fst] in SV.
    cbn [price_after]. destruct (op_bump ops up p None) as [[r0 p0] s0]. cbn [fst] in SV. injection SV as <- <-.
    destruct r1.
    - rewrite B2. auto.
    - pose proof (wb_unknown _ _ WB _ _ _ _ _ B1) as Q1. pose proof (wb_unknown _ _ WB _ _ _ _ _ B2) as Q2. rewrite B2. subst. auto.
  Qed.

  Lemma spots_same id f f' : same_target (BSpot id f) (@BSpot T id f').
  Proof. left. eauto. Qed.
  Lemma vols_same id f f' : same_target (BVol id f) (@BVol T id f').
  Proof. right. eauto. Qed.

  Lemma delta_loop_same h u ids : forall res0 p x p' sv', delta_loop ops h u ids res0 p new = (Ok x, p', sv') -> p' = p /\ sv' = new.
  Proof.
    induction ids as [|id ids IH]; cbn [delta_loop]; intros res0 p x p' sv' E; [now inversion E|].
    destruct (ctx_spot (op_context ops p) id) as [s0|m|m]; try discriminate.
    destruct (up_and_down _ _ _ _ _ _) as [[[[a b]|m|m] p1] s1] eqn:U; try discriminate.
    destruct (up_and_down_same _ _ _ _ _ _ _ (spots_same _ _ _) U) as [-> ->]. eauto.
  Qed.

  Lemma vega_loop_same b u ids : forall res0 p x p' sv', vega_loop nan ops b u ids res0 p new = (Ok x, p', sv') -> p' = p /\ sv' = new.
  Proof.
    induction ids as [|id ids IH]; cbn [vega_loop]; intros res0 p x p' sv' E; [now inversion E|].
    destruct (up_and_down _ _ _ _ _ _) as [[[[a c]|m|m] p1] s1] eqn:U; try discriminate.
    destruct (up_and_down_same _ _ _ _ _ _ _ (vols_same _ _ _) U) as [-> ->]. eauto.
  Qed.

  Lemma generate_each_of (gen : generator T -> P -> saveable T -> T -> res (report T) * P * saveable T) gs :
    Forall (fun g => forall p u r p' sv', gen g p new u = (Ok r, p', sv') -> p' = p /\ sv' = new) gs ->
    forall p u rs p' sv', generate_each gen gs p new u = (Ok rs, p', sv') ->
    p' = p /\ sv' = new /\ Forall2 (fun g r => gen g p new u = (Ok r, p, new)) gs rs.
  Proof.
    induction 1 as [|g gs G _ IH]; cbn [generate_each]; intros p u rs p' sv' E; [inversion E; auto|].
    destruct (gen g p new u) as [[[r|m|m] p1] s1] eqn:GE; try discriminate.
    destruct (G _ _ _ _ _ GE) as [-> ->]. destruct (generate_each gen gs p new u) as [[r2 p2] s2] eqn:R2.
    destruct r2 as [rs2|m|m]; try discriminate. cbn [rmap] in E. inversion E; subst.
    destruct (IH _ _ _ _ _ R2) as (-> & -> & F). auto.
  Qed.

  (** C44: a report leaves the pricer and the save area as they were. *)
  Lemma generate_leaves g : forall p u r p' sv', generate nan ops g p new u = (Ok r, p', sv') -> p' = p /\ sv' = new.
  Proof.
    induction g as [h|b|bt gs IH] using generator_nested; cbn [generate]; intros p u r p' sv' E.
    - destruct (op_dependencies ops p); try discriminate. destruct (delta_loop _ _ _ _ _ _ _) as [[[x|m|m] p1] s1] eqn:L; try discriminate.
      apply delta_loop_same in L as [-> ->]. now inversion E.
    - destruct (op_dependencies ops p); try discriminate. destruct (vega_loop _ _ _ _ _ _ _ _) as [[[x|m|m] p1] s1] eqn:L; try discriminate.
      apply vega_loop_same in L as [-> ->]. now inversion E.
    - destruct (op_bump_time ops bt p) as [[x|m|m] clone]; try discriminate. destruct (op_price ops clone) as [v|m|m]; try discriminate.
      destruct (generate_each _ gs clone new v) as [[rs p1] s1] eqn:G. destruct rs as [rs|m|m]; try discriminate.
      destruct (generate_each_of _ _ IH _ _ _ _ _ G) as (_ & -> & _). now inversion E.
  Qed.

  Lemma generate_each_ok gs p u rs p' sv' : generate_each (generate nan ops) gs p new u = (Ok rs, p', sv') ->
    p' = p /\ sv' = new /\ Forall2 (fun g r => generate nan ops g p new u = (Ok r, p, new)) gs rs.
  Proof. apply generate_each_of. apply Forall_forall. intros g _. apply generate_leaves. Qed.

  Lemma generate_each_back gs p u rs : Forall2 (fun g r => generate nan ops g p new u = (Ok r, p, new)) gs rs ->
    generate_each (generate nan ops) gs p new u = (Ok rs, p, new).
  Proof. induction 1 as [|g r gs rs G _ IH]; cbn [generate_each]; [reflexivity|]. rewrite G, IH. reflexivity. Qed.

  Lemma calculate_one p u g r : op_price ops p = Ok u -> calculate nan ops p [g] = Ok [r] <-> generate nan ops g p new u = (Ok r, p, new).
  Proof.
    intros PU. unfold calculate. rewrite PU. cbn [bind generate_each]. rewrite (wb_new _ _ WB p).
    destruct (generate nan ops g p new u) as [[[x|m|m] p1] s1] eqn:G; cbn [rmap]; split; intros E; try discriminate.
    - injection E as ->. destruct (generate_leaves _ _ _ _ _ _ G) as [-> ->]. reflexivity.
    - inversion E. reflexivity.
  Qed.

  (** C44: reports computed together are the reports computed separately. *)
  Lemma calculate_separately p u gs rs : op_price ops p = Ok u ->
    calculate nan ops p gs = Ok rs <-> Forall2 (fun g r => calculate nan ops p [g] = Ok [r]) gs rs.
  Proof.
    intros PU. transitivity (Forall2 (fun g r => generate nan ops g p new u = (Ok r, p, new)) gs rs).
    - unfold calculate. rewrite PU. cbn [bind]. rewrite (wb_new _ _ WB p). split.
      + destruct (generate_each _ gs p new u) as [[r1 p1] s1] eqn:G. intros ->. now apply generate_each_ok in G as (_ & _ & F).
      + intros F. rewrite (generate_each_back _ _ _ _ F). reflexivity.
    - split; intros F; (induction F as [|g r ? ? G _ IH]; constructor; [apply (calculate_one p u g r PU)|]; assumption).
  Qed.

  Lemma forall2_perm {A B} (Q : A -> B -> Prop) l l' m : Permutation l l' -> Forall2 Q l m ->
    exists m', Forall2 Q l' m' /\ Permutation (combine l m) (combine l' m').
  Proof.
    intros PM. revert m. induction PM as [|x l l' PM IH|x y l|l1 l2 l3 P1 IH1 P2 IH2]; intros m F.
    - inversion F; subst. exists []. auto.
    - inversion F as [|? b ? m0 q F0]; subst. destruct (IH _ F0) as (m' & F' & PC). exists (b :: m'). split; [now constructor|]. cbn. now constructor.
    - inversion F as [|? b ? m0 q F0]; subst. inversion F0 as [|? b' ? m1 q' F1]; subst. exists (b' :: b :: m1). split; [auto|]. cbn. constructor.
    - destruct (IH1 _ F) as (m1 & F1 & C1). destruct (IH2 _ F1) as (m2 & F2 & C2). exists m2. split; [exact F2|]. now transitivity (combine l2 m1).
  Qed.

  (** C44: in any order. *)
  Lemma calculate_permuted p gs gs' rs : Permutation gs gs' -> calculate nan ops p gs = Ok rs ->
    exists rs', calculate nan ops p gs' = Ok rs' /\ Permutation (combine gs rs) (combine gs' rs').
  Proof.
    intros PM E. assert (U : exists u, op_price ops p = Ok u).
    { unfold calculate in E. destruct (op_price ops p); cbn [bind] in E; try discriminate. eauto. }
    destruct U as [u U]. apply (calculate_separately p u gs rs U) in E. destruct (forall2_perm _ _ _ _ PM E) as (rs' & F & C).
    exists rs'. split; [|exact C]. now apply (calculate_separately p u gs' rs' U).
  Qed.

  (** A time-bumped report leaves the pricer alone even if it fails. *)
  Lemma time_bumped_leaves bt gs p sv u r p' sv' : generate nan ops (TimeBumpedGenerator bt gs) p sv u = (r, p', sv') -> p' = p.
  Proof.
    cbn [generate]. destruct (op_bump_time ops bt p) as [[x|m|m] clone]; try (intros E; now inversion E).
    destruct (op_price ops clone) as [v|m|m]; try (intros E; now inversion E).
    destruct (generate_each _ gs clone sv v) as [[rs p1] s1]. intros E; now inversion E.
  Qed.

  (** C45: what is in the entries of a report. *)
  Definition sampled (up down : string -> bump T) (size : string -> T -> Prop) (u : T) (p : P) (id : string) (e : T * T) : Prop :=
    exists z x y, size id z /\ price_after ops [up id] p = Ok x /\ price_after ops [up id; down id] p = Ok y /\ e = first_and_second x y u z.

  Lemma delta_loop_entries h u p ids : op_price ops p = Ok u -> forall res0 x p' sv', delta_loop ops h u ids res0 p new = (Ok x, p', sv') ->
    (forall id, ~ In id ids -> get id x = get id res0) /\
    (forall id, In id ids -> exists e, get id x = Some e /\
       sampled (fun id => BSpot id (RelativeSpot h)) (fun id => BSpot id (RelativeSpot (nsub (ndiv (nsub n1 h) (nadd n1 h)) n1)))
         (fun id z => exists s, ctx_spot (op_context ops p) id = Ok s /\ z = nmul h s) u p id e).
  Proof.
    intros PU. induction ids as [|id ids IH]; cbn [delta_loop]; intros res0 x p' sv' E; [inversion E; subst; split; [auto|intros ? []]|].
    destruct (ctx_spot (op_context ops p) id) as [s|m|m] eqn:SP; try discriminate.
    destruct (up_and_down _ _ _ _ _ _) as [[[[a b]|m|m] p1] s1] eqn:U; try discriminate.
    destruct (up_and_down_same _ _ _ _ _ _ _ (spots_same _ _ _) U) as [-> ->].
    destruct (up_and_down_prices _ _ _ _ _ _ _ _ (spots_same _ _ _) PU U) as [A B].
    destruct (IH _ _ _ _ E) as [O I]. split.
    - intros k K. rewrite O by (intros ?; apply K; now right). apply get_put_other. intros ->. apply K. now left.
    - intros k K. destruct (in_dec string_dec k ids) as [D|D]; [auto|]. destruct K as [->|K]; [|contradiction].
      rewrite O by exact D. rewrite get_put_same. eexists. split; [reflexivity|]. exists (nmul h s), a, b. eauto 6.
  Qed.

  Lemma vega_loop_entries f u p ids : op_price ops p = Ok u -> forall res0 x p' sv', vega_loop nan ops f u ids res0 p new = (Ok x, p', sv') ->
    (forall id, ~ In id ids -> get id x = get id res0) /\
    (forall id, In id ids -> exists e, get id x = Some e /\
       sampled (fun id => BVol id f) (fun id => BVol id (vol_opposite nan f)) (fun id z => z = vol_bumpsize nan f) u p id e).
  Proof.
    intros PU. induction ids as [|id ids IH]; cbn [vega_loop]; intros res0 x p' sv' E; [inversion E; subst; split; [auto|intros ? []]|].
    destruct (up_and_down _ _ _ _ _ _) as [[[[a b]|m|m] p1] s1] eqn:U; try discriminate.
    destruct (up_and_down_same _ _ _ _ _ _ _ (vols_same _ _ _) U) as [-> ->].
    destruct (up_and_down_prices _ _ _ _ _ _ _ _ (vols_same _ _ _) PU U) as [A B].
    destruct (IH _ _ _ _ E) as [O I]. split.
    - intros k K. rewrite O by (intros ?; apply K; now right). apply get_put_other. intros ->. apply K. now left.
    - intros k K. destruct (in_dec string_dec k ids) as [D|D]; [auto|]. destruct K as [->|K]; [|contradiction].
      rewrite O by exact D. rewrite get_put_same. eexists. split; [reflexivity|]. do 3 eexists. eauto 6.
  Qed.

  Lemma delta_entries h p u r p' sv' : op_price ops p = Ok u -> generate nan ops (DeltaGammaGenerator h) p new u = (Ok r, p', sv') ->
    exists ids m, reported_ids ops p = Ok ids /\ r = DeltaGammaReport h m /\ (forall id, In id ids <-> get id m <> None) /\
    forall id e, get id m = Some e -> exists s x y, ctx_spot (op_context ops p) id = Ok s /\
      price_after ops [BSpot id (RelativeSpot h)] p = Ok x /\
      price_after ops [BSpot id (RelativeSpot h); BSpot id (RelativeSpot (nsub (ndiv (nsub n1 h) (nadd n1 h)) n1))] p = Ok y /\
      e = first_and_second x y u (nmul h s).
  Proof.
    intros PU. unfold reported_ids. cbn [generate]. destruct (op_dependencies ops p) as [deps|m|m]; try discriminate. cbn [rmap].
    destruct (delta_loop _ _ _ _ _ _ _) as [[[x|m|m] p1] s1] eqn:L; try discriminate. intros E. inversion E; subst.
    destruct (delta_loop_entries _ _ _ _ PU _ _ _ _ L) as [O I]. exists (keys (col_instruments deps)), x. split; [reflexivity|]. split; [reflexivity|].
    assert (ALL : forall id, In id (keys (col_instruments deps)) <-> get id x <> None).
    { intros id. split; intros K.
      - destruct (I id K) as (e & -> & _). discriminate.
      - destruct (in_dec string_dec id (keys (col_instruments deps))) as [|D]; [assumption|]. rewrite (O id D) in K. now contradiction K. }
    split; [exact ALL|]. intros id e G. assert (K : In id (keys (col_instruments deps))) by (apply ALL; congruence).
    destruct (I id K) as (e' & G' & z & a & b & (s & SP & ->) & A & B & ->). rewrite G in G'. injection G' as ->. exists s, a, b. auto.
  Qed.

  Lemma vega_entries f p u r p' sv' : op_price ops p = Ok u -> generate nan ops (VegaVolgaGenerator f) p new u = (Ok r, p', sv') ->
    exists ids m, reported_ids ops p = Ok ids /\ r = VegaVolgaReport (vol_bumpsize nan f) m /\ (forall id, In id ids <-> get id m <> None) /\
    forall id e, get id m = Some e -> exists x y,
      price_after ops [BVol id f] p = Ok x /\ price_after ops [BVol id f; BVol id (vol_opposite nan f)] p = Ok y /\
      e = first_and_second x y u (vol_bumpsize nan f).
  Proof.
    intros PU. unfold reported_ids. cbn [generate]. destruct (op_dependencies ops p) as [deps|m|m]; try discriminate. cbn [rmap].
    destruct (vega_loop _ _ _ _ _ _ _ _) as [[[x|m|m] p1] s1] eqn:L; try discriminate. intros E. inversion E; subst.
    destruct (vega_loop_entries _ _ _ _ PU _ _ _ _ L) as [O I]. exists (keys (col_instruments deps)), x. split; [reflexivity|]. split; [reflexivity|].
    assert (ALL : forall id, In id (keys (col_instruments deps)) <-> get id x <> None).
    { intros id. split; intros K.
      - destruct (I id K) as (e & -> & _). discriminate.
      - destruct (in_dec string_dec id (keys (col_instruments deps))) as [|D]; [assumption|]. rewrite (O id D) in K. now contradiction K. }
    split; [exact ALL|]. intros id e G. assert (K : In id (keys (col_instruments deps))) by (apply ALL; congruence).
    destruct (I id K) as (e' & G' & z & a & b & -> & A & B & ->). rewrite G in G'. injection G' as ->. exists a, b. auto.
  Qed.

  (** C45: a time-bumped report. *)
  Lemma time_entries bt gs p u r p' sv' : generate nan ops (TimeBumpedGenerator bt gs) p new u = (Ok r, p', sv') ->
    exists clone x subs, op_bump_time ops bt p = (Ok tt, clone) /\ op_price ops clone = Ok x /\ r = TimeBumpedReport x (nsub x u) subs /\
      calculate nan ops clone gs = Ok subs.
  Proof.
    cbn [generate]. destruct (op_bump_time ops bt p) as [[[]|m|m] clone]; try discriminate. destruct (op_price ops clone) as [x|m|m] eqn:PX; try discriminate.
    destruct (generate_each _ gs clone new x) as [[[subs|m|m] p1] s1] eqn:G; try discriminate. cbn [rmap]. intros E. inversion E; subst.
    exists clone, x, subs. repeat split; auto. unfold calculate. rewrite PX. cbn [bind]. rewrite (wb_new _ _ WB clone), G. reflexivity.
  Qed.

  (** C43: a delta report fails if some bump does. *)
  Lemma delta_needs_bumps h u ids id m : forall res0 p x p' sv', delta_loop ops h u ids res0 p new = (Ok x, p', sv') -> In id ids ->
    fst (fst (op_bump ops (BSpot id (RelativeSpot h)) p (Some new))) <> Err m.
  Proof.
    induction ids as [|k ids IH]; cbn [delta_loop]; intros res0 p x p' sv' E I; [destruct I|].
    destruct (ctx_spot (op_context ops p) k) as [s0|e|e]; try discriminate.
    destruct (up_and_down _ _ _ _ _ _) as [[[[a b]|e|e] p1] s1] eqn:U; try discriminate.
    destruct (up_and_down_same _ _ _ _ _ _ _ (spots_same _ _ _) U) as [-> ->]. destruct I as [->|I]; [|eauto].
    intros Q. unfold up_and_down, bumped_price in U. destruct (op_bump ops (BSpot id (RelativeSpot h)) p (Some new)) as [[r1 q1] t1]. cbn [fst] in Q. subst. discriminate.
  Qed.
  (** Reports as they are made have no id twice. *)
  Lemma delta_loop_nodup h u ids : forall res0 p sv x p' sv', NoDup (keys res0) -> delta_loop ops h u ids res0 p sv = (Ok x, p', sv') -> NoDup (keys x).
  Proof.
    induction ids as [|id ids IH]; cbn [delta_loop]; intros res0 p sv x p' sv' D E; [now inversion E; subst|].
    destruct (ctx_spot _ _); try discriminate. destruct (up_and_down _ _ _ _ _ _) as [[[(up, down)|m|m] q] s']; try discriminate.
    eapply IH; [|exact E]. now apply nodup_put.
  Qed.
  Lemma vega_loop_nodup b u ids : forall res0 p sv x p' sv', NoDup (keys res0) -> vega_loop nan ops b u ids res0 p sv = (Ok x, p', sv') -> NoDup (keys x).
  Proof.
    induction ids as [|id ids IH]; cbn [vega_loop]; intros res0 p sv x p' sv' D E; [now inversion E; subst|].
    destruct (up_and_down _ _ _ _ _ _) as [[[(up, down)|m|m] q] s']; try discriminate.
    eapply IH; [|exact E]. now apply nodup_put.
  Qed.
  Lemma generate_each_proper (gen : generator T -> P -> saveable T -> T -> res (report T) * P * saveable T) gs :
    Forall (fun g => forall p sv u r p' sv', gen g p sv u = (Ok r, p', sv') -> proper r) gs ->
    forall p sv u rs p' sv', generate_each gen gs p sv u = (Ok rs, p', sv') -> Forall proper rs.
  Proof.
    induction 1 as [|g gs G _ IH]; cbn [generate_each]; intros p sv u rs p' sv' E; [inversion E; constructor|].
    destruct (gen g p sv u) as [[[r|m|m] q] s'] eqn:Q; try discriminate.
    destruct (generate_each gen gs q s' u) as [[[rs'|m|m] q'] s''] eqn:Q'; try discriminate. inversion E; subst. constructor; eauto.
  Qed.
  Lemma generated_proper g : forall p sv u r p' sv', generate nan ops g p sv u = (Ok r, p', sv') -> proper r.
  Proof.
    induction g as [h|b|bt gs IH] using generator_nested; cbn [generate]; intros p sv u r p' sv' E.
    - destruct (op_dependencies ops p); try discriminate. destruct (delta_loop _ _ _ _ _ _ _) as [[[x|m|m] q] s'] eqn:Q; try discriminate.
      inversion E; subst. constructor. eapply delta_loop_nodup; [|exact Q]. constructor.
    - destruct (op_dependencies ops p); try discriminate. destruct (vega_loop _ _ _ _ _ _ _ _) as [[[x|m|m] q] s'] eqn:Q; try discriminate.
      inversion E; subst. constructor. eapply vega_loop_nodup; [|exact Q]. constructor.
    - destruct (op_bump_time ops bt p) as [[x|m|m] q]; try discriminate. destruct (op_price ops q); try discriminate.
      match type of E with context [generate_each ?g ?a ?b ?c ?d] => destruct (generate_each g a b c d) as [[[rs|m|m] q'] s'] eqn:Q end; try discriminate.
      inversion E; subst. constructor. eapply generate_each_proper; [|exact Q]. exact IH.
  Qed.
  Lemma calculated_proper p gs rs : calculate nan ops p gs = Ok rs -> Forall proper rs.
  Proof.
    unfold calculate. destruct (op_price ops p); try discriminate. cbn [bind].
    match goal with |- context [generate_each ?g ?a ?b ?c ?d] => destruct (generate_each g a b c d) as [[r q] s'] eqn:Q end. intros ->.
    eapply generate_each_proper; [|exact Q]. apply Forall_forall. intros g _. apply generated_proper.
  Qed.
End Generic.
