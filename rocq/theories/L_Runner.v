(** The command line program. *)
From Coq Require Import NArith Lia List String Ascii Bool.
From Verif Require Import Prelude M_Serde M_Handles M_Runner S_Handles S_Runner L_Handles.
Import ListNotations.
Open Scope string_scope.
Open Scope list_scope.

(** ** The configuration *)

Lemma skipped_comment l : skipped l = comment l.
Proof.
  destruct l as [|c l]; [reflexivity|]. unfold comment. cbn [skipped String.eqb orb String.prefix]. destruct (ascii_dec "#" c) as [<-|n].
  - destruct l; reflexivity.
  - destruct (Ascii.eqb_spec c "#") as [e|_]; [now subst|reflexivity].
Qed.

Lemma last_sub l : l <> "" -> exists c, last_char l = Some c /\ String.substring (String.length l - 1) 1 l = String c "".
Proof.
  induction l as [|c l IH]; intros H; [now contradiction H|]. destruct l as [|d l].
  - exists c. split; reflexivity.
  - destruct IH as (x & E & S1); [discriminate|]. exists x. split; [exact E|]. cbn [String.length] in *. cbn [Nat.sub] in *.
    rewrite PeanoNat.Nat.sub_0_r in S1. exact S1.
Qed.
Lemma colon_heading l : comment l = false -> ends_with_colon l = heading l.
Proof.
  intros C. unfold heading, ends_with_colon. rewrite C. cbn [negb andb]. destruct (last_sub l) as (c & -> & ->).
  - intros ->. discriminate.
  - destruct (Ascii.eqb_spec c ":") as [->|n]; [reflexivity|]. symmetry. apply String.eqb_neq. intros E. injection E. auto.
Qed.

Definition title (k : section_kind) : string :=
  match k with
  | Currencies => "Currencies:" | Instruments => "Instruments:" | MarketDataFiles => "Market Data:"
  | FixingFiles => "Fixings:" | Pricers => "Pricer:" | Reports => "Reports:"
  end.
Lemma section_title l k : section_of l = Some k -> l = title k.
Proof.
  unfold section_of. repeat (match goal with |- context [if ?a =? ?b then _ else _] => destruct (String.eqb_spec a b) end;
    [intros E; injection E as <-; assumption|]). discriminate.
Qed.
Lemma title_section k : section_of (title k) = Some k.
Proof. destruct k; reflexivity. Qed.
Lemma section_none l : section_of l = None <-> ~ In l headings.
Proof.
  split.
  - intros E I. cbn in I. repeat (destruct I as [<-|I]; [discriminate E|]). exact I.
  - intros H. destruct (section_of l) as [k|] eqn:E; [|reflexivity]. exfalso. apply H. apply section_title in E. subst l. destruct k; cbn; tauto.
Qed.
Lemma title_in k : In (title k) headings.
Proof. destruct k; cbn; tauto. Qed.

(** Files under each heading, added to what is there. *)
Definition extend (s : sections) (cur : option section_kind) (lines : list string) : sections :=
  let under h := filed h (option_map title cur) lines in
  mkSections (s_currencies s ++ under "Currencies:") (s_instruments s ++ under "Instruments:") (s_market_data s ++ under "Market Data:")
    (s_fixings s ++ under "Fixings:") (s_pricers s ++ under "Pricer:") (s_reports s ++ under "Reports:").

Definition orphan_from (cur : option section_kind) (lines : list string) : Prop := match cur with None => orphan lines | Some _ => False end.
Definition unknown_from (cur : option section_kind) (h : string) (lines : list string) : Prop :=
  exists before after, lines = before ++ h :: after /\ heading h = true /\ ~ In h headings /\ ~ orphan_from cur before /\
    forall l, In l before -> heading l = true -> In l headings.

Lemma orphan_nil : ~ orphan [].
Proof. intros (b & f & a & E & _). destruct b; discriminate. Qed.
Lemma comment_not_heading l : comment l = true -> heading l = false /\ names_file l = false.
Proof. unfold names_file, heading. intros ->. split; reflexivity. Qed.

Lemma orphan_comment l lines : comment l = true -> orphan (l :: lines) <-> orphan lines.
Proof.
  intros C. split.
  - intros (b & f & a & E & Nf & H). destruct b as [|x b]; cbn in E; injection E as -> ->.
    + rewrite (proj2 (comment_not_heading _ C)) in Nf. discriminate.
    + exists b, f, a. repeat split; auto. intros y I. apply H. now right.
  - intros (b & f & a & -> & Nf & H). exists (l :: b), f, a. repeat split; auto. intros y [<-|I]; auto.
Qed.
Lemma orphan_heading l lines : heading l = true -> ~ orphan (l :: lines).
Proof.
  intros C (b & f & a & E & Nf & H). destruct b as [|x b]; cbn in E; injection E as -> ->.
  - unfold names_file in Nf. rewrite C in Nf. apply andb_true_iff in Nf. destruct Nf as [_ N]. discriminate.
  - specialize (H x (or_introl eq_refl)). rewrite (proj1 (comment_not_heading _ H)) in C. discriminate.
Qed.
Lemma orphan_file l lines : names_file l = true -> orphan (l :: lines).
Proof. intros N. exists [], l, lines. repeat split; auto. Qed.

Lemma parse_spec lines : forall cur s,
  match parse lines cur s with
  | Undefined _ => orphan_from cur lines
  | Defined (inl h) => ~ orphan_from cur lines /\ unknown_from cur h lines
  | Defined (inr s') => ~ orphan_from cur lines /\ (forall l, In l lines -> heading l = true -> In l headings) /\ s' = extend s cur lines
  end.
Proof.
  induction lines as [|l lines IH]; intros cur s; cbn [parse].
  - split; [destruct cur; [tauto|exact orphan_nil]|]. split; [intros l []|]. unfold extend. cbn [filed]. rewrite !app_nil_r. destruct s; reflexivity.
  - rewrite skipped_comment. destruct (comment l) eqn:C.
    + destruct (comment_not_heading l C) as [Hh Hn].
      assert (OR : orphan_from cur (l :: lines) <-> orphan_from cur lines) by (destruct cur; [tauto|exact (orphan_comment l lines C)]).
      specialize (IH cur s). destruct (parse lines cur s) as [[h|s']|].
      * destruct IH as [NO (b & a & -> & H1 & H2 & H3 & H4)]. split; [now rewrite OR|]. exists (l :: b), a. repeat split; auto.
        -- destruct cur; [tauto|]. cbn [orphan_from] in *. now rewrite (orphan_comment l b C).
        -- intros y [<-|I]; [congruence|auto].
      * destruct IH as (NO & AK & ->). split; [now rewrite OR|]. split; [intros y [<-|I]; [congruence|auto]|]. unfold extend. cbn [filed]. rewrite Hh, Hn. reflexivity.
      * now apply OR.
    + rewrite (colon_heading l C). destruct (heading l) eqn:Hh.
      * destruct (section_of l) as [k|] eqn:E.
        -- assert (NO' : ~ orphan_from cur (l :: lines)) by (destruct cur; [tauto|exact (orphan_heading l lines Hh)]).
           apply section_title in E. specialize (IH (Some k) s). destruct (parse lines (Some k) s) as [[h|s']|].
           ++ destruct IH as [_ (b & a & -> & H1 & H2 & H3 & H4)]. split; [exact NO'|]. exists (l :: b), a. repeat split; auto.
              ** destruct cur; [tauto|exact (orphan_heading l b Hh)].
              ** intros y [<-|I]; [|auto]. intros _. rewrite E. apply title_in.
           ++ destruct IH as (_ & AK & ->). split; [exact NO'|]. split; [intros y [<-|I]; [intros _; rewrite E; apply title_in|auto]|]. unfold extend. cbn [filed]. rewrite Hh, E. reflexivity.
           ++ destruct IH.
        -- split; [destruct cur; [tauto|exact (orphan_heading l lines Hh)]|]. exists [], lines. repeat split; auto.
           ++ now apply section_none.
           ++ destruct cur; [tauto|exact orphan_nil].
           ++ intros y [].
      * assert (Hn : names_file l = true) by (unfold names_file; rewrite C, Hh; reflexivity).
        destruct cur as [k|]; [|exact (orphan_file l lines Hn)].
        specialize (IH (Some k) (push k l s)). destruct (parse lines (Some k) (push k l s)) as [[h|s']|].
        -- destruct IH as [_ (b & a & -> & H1 & H2 & H3 & H4)]. split; [tauto|]. exists (l :: b), a. repeat split; auto.
           intros y [<-|I]; [congruence|auto].
        -- destruct IH as (_ & AK & ->). split; [tauto|]. split; [intros y [<-|I]; [congruence|auto]|]. unfold extend. cbn [filed option_map]. rewrite Hh, Hn. cbn [andb].
           destruct s as [c0 i0 m0 f0 p0 r0], k; cbn [title push s_currencies s_instruments s_market_data s_fixings s_pricers s_reports]; cbn [String.eqb Ascii.eqb Bool.eqb app];
             rewrite <- ?app_assoc; reflexivity.
        -- exact IH.
Qed.

Lemma parse_config lines :
  match parse lines None (mkSections [] [] [] [] [] []) with
  | Undefined _ => orphan lines
  | Defined (inl h) => ~ orphan lines /\ unknown h lines
  | Defined (inr s) => ~ orphan lines /\ (forall l, In l lines -> heading l = true -> In l headings) /\ s = config lines
  end.
Proof. exact (parse_spec lines None (mkSections [] [] [] [] [] [])). Qed.

(** ** The program *)

Lemma without_twice gone h l : without gone (without [h] l) = without (h :: gone) l.
Proof.
  unfold without. induction l as [|a l IH]; [reflexivity|]. cbn [filter].
  assert (E1 : existsb (N.eqb a) [h] = N.eqb a h) by apply orb_false_r. assert (E2 : existsb (N.eqb a) (h :: gone) = (N.eqb a h || existsb (N.eqb a) gone)%bool) by reflexivity.
  rewrite E1, E2. destruct (N.eqb a h); cbn [negb orb]; [exact IH|]. cbn [filter]. destruct (existsb (N.eqb a) gone); cbn [negb]; rewrite IH; reflexivity.
Qed.
Lemma without_none gone l : (forall a, In a l -> ~ In a gone) -> without gone l = l.
Proof.
  unfold without. induction l as [|a l IH]; intros H; [reflexivity|]. cbn [filter].
  destruct (existsb (N.eqb a) gone) eqn:E.
  - exfalso. apply existsb_exists in E. destruct E as (b & I & E). apply N.eqb_eq in E. subst b. apply (H a); [left; reflexivity|exact I].
  - cbn [negb]. rewrite IH; [reflexivity|]. intros b I. apply H. now right.
Qed.
Lemma without_all gone l : (forall a, In a l -> In a gone) -> without gone l = [].
Proof.
  unfold without. induction l as [|a l IH]; intros H; [reflexivity|]. cbn [filter].
  assert (E : existsb (N.eqb a) gone = true) by (apply existsb_exists; exists a; split; [apply H; left; reflexivity|apply N.eqb_refl]).
  rewrite E. cbn [negb]. apply IH. intros b I. apply H. now right.
Qed.
Lemma without_app gone l l' : without gone (l ++ l') = without gone l ++ without gone l'.
Proof. unfold without. apply filter_app. Qed.
Lemma nodup_apart {A} (l l' : list A) : NoDup (l ++ l') -> NoDup l' /\ forall x, In x l -> ~ In x l'.
Proof.
  induction l as [|a l IH]; cbn [app]; intros N; [split; [exact N|intros x []]|]. inversion N as [|? ? NI N']; subst. destruct (IH N') as [Nl H].
  split; [exact Nl|]. intros x [<-|I]; [|now apply H]. intros J. apply NI, in_or_app. now right.
Qed.
Lemma without_front hs keep l : NoDup (keep ++ rev hs ++ l) -> without hs (keep ++ rev hs ++ l) = keep ++ l.
Proof.
  intros N. destruct (nodup_apart _ _ N) as [N' H]. destruct (nodup_apart _ _ N') as [_ H'].
  rewrite !without_app. rewrite (without_all hs (rev hs)) by (intros a; apply in_rev). cbn [app]. rewrite !without_none; [reflexivity| |].
  - intros a I J. apply in_rev in J. exact (H' a J I).
  - intros a I J. apply (H a I). apply in_or_app. left. now apply in_rev in J.
Qed.

Lemma outs_app o o' : outs (o ++ o') = outs o ++ outs o'.
Proof. apply flat_map_app. Qed.

Section Runner.
  Context {instr ccy mkt fixt pf gen rep text tol thread : Type}.
  Variable F : @facade instr ccy mkt fixt pf gen rep text tol thread.
  Variable fresh : list addr -> addr.
  Hypothesis Fresh : allocates fresh.
  Hypothesis NonNull : forall l, fresh l <> 0%N.
  Notation world := (@world instr ccy mkt fixt pf gen rep thread).
  Notation handle := (@handle instr ccy mkt fixt pf gen rep).
  Notation call := (@call text tol).
  Notation history := (history F fresh).

  Lemma answer_nonnull c w a w' : run fresh F c w = Defined (a, w') -> match a with AHandle h => h <> 0%N | AString s => s <> 0%N | _ => True end.
  Proof.
    assert (RH : forall m, return_handle fresh m w = Defined (a, w') -> match a with AHandle h => h <> 0%N | AString s => s <> 0%N | _ => True end).
    { intros m E. unfold return_handle in E. destruct (m w) as [[r w1]|]; [|discriminate]. injection E as <- _. apply NonNull. }
    destruct c; cbn [run]; intros E; try (exact (RH _ E)); destruct (block _ _) as [b|] eqn:B; try discriminate; try (injection E as <- _; try exact I; apply NonNull).
    destruct (reports_as_string F b w) as [r w1]. injection E as <- _. apply NonNull.
  Qed.

  Lemma nonnull w l : history w l -> (forall a, In a (l_handles l) -> a <> 0%N) /\ (forall a, In a (l_strings l) -> a <> 0%N).
  Proof.
    induction 1 as [t|w l c a w' t H [IH1 IH2] Al R]; [split; intros a []|].
    pose proof (answer_nonnull _ _ _ _ R) as NN. unfold settle. cbn [l_handles l_strings].
    split; intros b I; apply in_app_or in I; destruct I as [I|I].
    - destruct a; cbn in I; try contradiction. destruct I as [<-|[]]. exact NN.
    - apply without_in in I. now apply IH1.
    - destruct a; cbn in I; try contradiction. destruct I as [<-|[]]. exact NN.
    - apply without_in in I. now apply IH2.
  Qed.

  Definition kept (l : list addr) (w w' : world) : Prop := forall h x, In h l -> (holds w' h x <-> holds w h x).
  Lemma kept_refl l w : kept l w w.
  Proof. intros h x _. tauto. Qed.
  Lemma kept_trans l l' w w1 w2 : incl l l' -> kept l w w1 -> kept l' w1 w2 -> kept l w w2.
  Proof. intros I K1 K2 h x J. rewrite (K2 h x (I h J)). apply K1, J. Qed.

  (** One call. *)
  Lemma step c w l : history w l -> allowed l c -> exists a w', run fresh F c w = Defined (a, w') /\ history w' (settle l c a) /\
    kept (without (freed c) (l_handles l)) w w'.
  Proof.
    intros H Al. destruct (history_defined F fresh Fresh w l c H Al) as (a & w' & R). exists a, w'. split; [exact R|]. split.
    - replace w' with (mkWorld (w_handles w') (w_strings w') (w_thread w')) by (destruct w'; reflexivity). exact (called F fresh w l c a w' _ H Al R).
    - intros h x I. apply without_in in I. destruct I as [I J]. exact (proj1 (history_frame F fresh Fresh w l c a w' H Al R) h x I J).
  Qed.

  Lemma drop_step h w l : history w l -> In h (l_handles l) -> exists w', handle_drop F fresh h w = Defined (tt, w', []) /\
    history w' (mkLedger (without [h] (l_handles l)) (l_strings l)).
  Proof.
    intros H I. destruct (step (FreeHandle h) w l H) as (a & w' & R & H' & _).
    { split; [intros x [<-|[]]; exact I|]. split; [intros x []|]. repeat constructor. intros []. }
    exists w'. unfold handle_drop. assert (NZ : N.eqb h 0 = false) by (apply N.eqb_neq; exact (proj1 (nonnull w l H) h I)). rewrite NZ.
    unfold seq, qm. rewrite R. split; [reflexivity|]. cbn [run] in R. destruct (block h (w_handles w)); [|discriminate].
    injection R as <- _. unfold settle in H'. cbn [freed strings_freed app] in H'. rewrite without_nil in H'. exact H'.
  Qed.

  Lemma drop_all_step hs : forall w l, history w l -> incl hs (l_handles l) -> NoDup hs ->
    exists w', drop_all F fresh hs w = Defined (tt, w', []) /\ history w' (mkLedger (without hs (l_handles l)) (l_strings l)).
  Proof.
    induction hs as [|h hs IH]; intros w l H I N; cbn [drop_all].
    - exists w. split; [reflexivity|]. rewrite without_nil. destruct l; exact H.
    - inversion N as [|? ? NI N']; subst. destruct (drop_step h w l H (I h (or_introl eq_refl))) as (w1 & E1 & H1).
      destruct (IH w1 _ H1) as (w2 & E2 & H2); [|exact N'|].
      { intros a Ia. cbn [l_handles]. apply without_in. split; [apply I; now right|]. intros [<-|[]]. contradiction. }
      exists w2. unfold seq. rewrite E1, E2. split; [reflexivity|]. cbn [l_handles l_strings] in H2. rewrite without_twice in H2. exact H2.
  Qed.

  (** A string is asked for, printed and freed. *)
  Lemma string_step c st b w l t : history w l -> allowed l c -> freed c = [] -> strings_freed c = [] -> answers_text F fresh c w t ->
    exists w', seq (qm F fresh c) (fun s => seq (str_print st (number_of s)) (fun _ => seq (str_drop F fresh (number_of s)) (fun _ => ret b))) w
      = Defined (b : bool, w', [st t]) /\ history w' l /\ kept (l_handles l) w w'.
  Proof.
    intros H Al Fr Sf (s & w1 & R & B). destruct (step c w l H Al) as (a & w1' & R' & H1 & K1). rewrite R in R'. injection R' as <- <-.
    unfold settle in H1. rewrite Fr, Sf, !without_nil in H1. cbn [app] in H1. rewrite Fr, without_nil in K1.
    destruct (step (FreeString s) w1 _ H1) as (a2 & w2 & R2 & H2 & K2).
    { split; [intros x []|]. split; [intros x [<-|[]]; left; reflexivity|constructor]. }
    exists w2. unfold seq, qm. rewrite R. cbn [number_of]. unfold str_print. rewrite B. unfold str_drop.
    assert (NZ : N.eqb s 0 = false) by (apply N.eqb_neq; exact (proj2 (nonnull _ _ H1) s (or_introl eq_refl))). rewrite NZ.
    unfold seq, qm. rewrite R2. split; [reflexivity|].
    cbn [run] in R2. destruct (block s (w_strings w1)); [|discriminate]. injection R2 as <- _.
    unfold settle in H2. cbn [freed strings_freed app l_handles l_strings] in H2, K2. rewrite without_nil in H2, K2.
    destruct (history_owned F fresh Fresh _ _ H1) as (_ & _ & ND & _). cbn [l_strings] in ND. inversion ND as [|? ? NI _]; subst.
    replace (without [s] (s :: l_strings l)) with (l_strings l) in H2.
    - split; [destruct l; exact H2|]. apply (kept_trans _ (l_handles l) _ w1); [apply incl_refl|exact K1|exact K2].
    - symmetry. change (s :: l_strings l) with ([] ++ rev [s] ++ l_strings l). apply (without_front [s] [] (l_strings l)). exact ND.
  Qed.

  (** ** Reading files *)

  Section Reading.
    Context {A : Type}.
    Variable wrap : A -> handle.
    Variable rd : list A -> text -> thread -> res A * thread.
    Variable make : list addr -> string -> call.
    (** [make] can be called on the handles there are, as long as those in [need] hold what they should. *)
    Variable need : list addr.
    Variable fine : world -> Prop.
    Hypothesis fine_kept : forall w w', kept need w w' -> fine w -> fine w'.
    Hypothesis make_ok : forall w l hs xs n, history w l -> incl need (l_handles l) -> incl hs (l_handles l) -> fine w ->
      Forall2 (fun a x => holds w a (wrap x)) hs xs -> allowed l (make hs n) /\ freed (make hs n) = [] /\ strings_freed (make hs n) = [] /\
      answers F fresh (make hs n) w (outcome wrap (let* t := fc_open F n in fst (rd xs t (w_thread w)))).
    Hypothesis wrap_right : forall x e, wrap x <> HErr e.

    Fixpoint read_all (before : list A) (files : list string) (xs : list A) : Prop :=
      match files, xs with
      | [], [] => True
      | n :: files', x :: xs' => read_as F (rd before) n x /\ read_all (before ++ [x]) files' xs'
      | _, _ => False
      end.

    Lemma read_files_step shown files : forall w l hs xs, history w l -> incl need (l_handles l) -> incl hs (l_handles l) -> fine w ->
      Forall2 (fun a x => holds w a (wrap x)) hs xs ->
      exists new ok w' o, read_files F fresh shown make files hs w = Defined ((hs ++ new, ok), w', o) /\ outs o = [] /\
        history w' (mkLedger (rev new ++ l_handles l) (l_strings l)) /\ kept (l_handles l) w w' /\
        if (ok : bool) then exists xs', read_all xs files xs' /\ Forall2 (fun a x => holds w' a (wrap x)) (hs ++ new) (xs ++ xs')
        else exists n before, In n files /\ refused F (rd before) n.
    Proof.
      induction files as [|n files IH]; intros w l hs xs H Nd Hs Fw Hx; cbn [read_files].
      - exists [], true, w, []. rewrite app_nil_r. split; [reflexivity|]. split; [reflexivity|]. split; [destruct l; exact H|]. split; [apply kept_refl|].
        exists []. rewrite app_nil_r. split; [exact I|exact Hx].
      - destruct (make_ok w l hs xs n H Nd Hs Fw Hx) as (Al & Fr & Sf & (h & w1 & R & B)).
        destruct (step _ w l H Al) as (a & w1' & R' & H1 & K1). rewrite R in R'. injection R' as <- <-.
        unfold settle in H1. rewrite Fr, Sf, !without_nil in H1. cbn [app] in H1. rewrite Fr, without_nil in K1.
        assert (WE : forall (P : ub (list addr * bool * world * list written) -> Prop) (m : io (list addr * bool)),
          (forall pre, outs pre = [] -> P (match m w with Undefined what => Undefined what | Defined (b, w'', o') => Defined (b, w'', pre ++ o') end)) ->
          P (seq (if shown then write (OnErr n) else ret tt) (fun _ => m) w)).
        { intros P m Hp. unfold seq. destruct shown; cbn [write ret]; apply Hp; reflexivity. }
        assert (ER : forall hh, block h (w_handles w1) = Some hh -> run fresh F (IsError h) w1 = Defined (ABool (match hh with HErr _ => true | _ => false end), w1)).
        { intros hh E. cbn [run]. rewrite E. reflexivity. }
        destruct (let* t := fc_open F n in fst (rd xs t (w_thread w))) as [x|e|e] eqn:E.
        + cbn [outcome] in B. unfold holds in B. pose proof (ER _ B) as IE.
          replace (match wrap x with HErr _ => true | _ => false end) with false in IE by (destruct (wrap x) eqn:W; try reflexivity; now apply wrap_right in W).
          destruct (IH w1 _ (hs ++ [h]) (xs ++ [x]) H1) as (new & ok & w' & o & RF & Oo & H' & K' & Q).
          * intros b Ib. cbn [l_handles]. right. apply Nd, Ib.
          * intros b Ib. apply in_app_or in Ib. cbn [l_handles]. destruct Ib as [Ib|[<-|[]]]; [right; apply Hs, Ib|left; reflexivity].
          * apply (fine_kept w w1); [|exact Fw]. intros b y Ib. apply K1, Nd, Ib.
          * apply Forall2_app; [|constructor; [exact B|constructor]]. clear - Hx Hs K1. induction Hx as [|b y hs xs Hb Hx IHx]; constructor.
            -- apply K1; [apply Hs; now left|exact Hb].
            -- apply IHx. intros z Iz. apply Hs. now right.
          * pattern (seq (if shown then write (OnErr n) else ret tt)
              (fun _ => seq (qm F fresh (make hs n)) (fun a => seq (qm F fresh (IsError (number_of a)))
                (fun e => if flag_of e then seq (handle_error F fresh (number_of a)) (fun _ => ret (hs ++ [number_of a], false))
                          else read_files F fresh shown make files (hs ++ [number_of a])))) w).
            apply WE. intros pre Opre. cbv beta. unfold seq at 1, qm at 1. rewrite R. cbn [number_of]. unfold seq at 1, qm at 1. rewrite IE. cbn [flag_of]. rewrite RF.
            exists (h :: new), ok, w', (pre ++ o). rewrite <- app_assoc. split; [reflexivity|]. split; [rewrite outs_app, Opre, Oo; reflexivity|].
            cbn [rev l_handles l_strings] in *. rewrite <- app_assoc. split; [exact H'|].
            split; [apply (kept_trans _ (h :: l_handles l) _ w1); [intros b Ib; now right|exact K1|exact K']|].
            destruct ok.
            -- destruct Q as (xs' & Rd & Fa). exists (x :: xs'). rewrite <- !app_assoc in Fa. split; [|exact Fa]. cbn [read_all]. split; [|exact Rd].
               unfold read_as. destruct (fc_open F n) as [t| |]; cbn [bind] in E; try discriminate. exists t, (w_thread w). split; [reflexivity|exact E].
            -- destruct Q as (m & before & Im & Rf). exists m, before. split; [now right|exact Rf].
        + assert (B' : holds w1 h (HErr e)) by exact B.
          pose proof (ER _ B') as IE. cbn beta iota in IE.
          assert (AL : allowed (mkLedger (h :: l_handles l) (l_strings l)) (ErrorString h : call)).
          { split; [intros b [<-|[]]; left; reflexivity|]. split; [intros b []|constructor]. }
          destruct (string_step (ErrorString h) OnErr false w1 _ _ H1 AL eq_refl eq_refl (error_string_right F fresh w1 h _ B')) as (w2 & RS & H2 & K2).
          pattern (seq (if shown then write (OnErr n) else ret tt)
              (fun _ => seq (qm F fresh (make hs n)) (fun a => seq (qm F fresh (IsError (number_of a)))
                (fun e => if flag_of e then seq (handle_error F fresh (number_of a)) (fun _ => ret (hs ++ [number_of a], false))
                          else read_files F fresh shown make files (hs ++ [number_of a])))) w).
          apply WE. intros pre Opre. cbv beta. unfold seq at 1, qm at 1. rewrite R. cbn [number_of]. unfold seq at 1, qm at 1. rewrite IE. cbn [flag_of].
          unfold seq at 1. unfold handle_error. rewrite RS. cbn [ret].
          exists [h], false, w2. eexists. split; [reflexivity|]. split; [rewrite outs_app, Opre; reflexivity|]. cbn [rev app l_handles l_strings] in *. split; [exact H2|].
          split; [apply (kept_trans _ (h :: l_handles l) _ w1); [intros b Ib; now right|exact K1|exact K2]|].
          exists n, xs. split; [now left|]. exists (w_thread w). intros y. rewrite E. discriminate.
        + assert (B' : holds w1 h (HErr "Caught panic when creating handle")) by exact B.
          pose proof (ER _ B') as IE. cbn beta iota in IE.
          assert (AL : allowed (mkLedger (h :: l_handles l) (l_strings l)) (ErrorString h : call)).
          { split; [intros b [<-|[]]; left; reflexivity|]. split; [intros b []|constructor]. }
          destruct (string_step (ErrorString h) OnErr false w1 _ _ H1 AL eq_refl eq_refl (error_string_right F fresh w1 h _ B')) as (w2 & RS & H2 & K2).
          pattern (seq (if shown then write (OnErr n) else ret tt)
              (fun _ => seq (qm F fresh (make hs n)) (fun a => seq (qm F fresh (IsError (number_of a)))
                (fun e => if flag_of e then seq (handle_error F fresh (number_of a)) (fun _ => ret (hs ++ [number_of a], false))
                          else read_files F fresh shown make files (hs ++ [number_of a])))) w).
          apply WE. intros pre Opre. cbv beta. unfold seq at 1, qm at 1. rewrite R. cbn [number_of]. unfold seq at 1, qm at 1. rewrite IE. cbn [flag_of].
          unfold seq at 1. unfold handle_error. rewrite RS. cbn [ret].
          exists [h], false, w2. eexists. split; [reflexivity|]. split; [rewrite outs_app, Opre; reflexivity|]. cbn [rev app l_handles l_strings] in *. split; [exact H2|].
          split; [apply (kept_trans _ (h :: l_handles l) _ w1); [intros b Ib; now right|exact K1|exact K2]|].
          exists n, xs. split; [now left|]. exists (w_thread w). intros y. rewrite E. discriminate.
    Qed.
  End Reading.

  (** ** Scopes *)

  (** What a part of the program does that ends in true or false: what is printed and what is left. *)
  Definition sound (m : io bool) (w : world) (l : ledger) (yes : string -> Prop) (no wrong : Prop) : Prop :=
    match m w with
    | Undefined _ => wrong
    | Defined (true, w', o) => exists r t, outs o = [t] /\ yes t /\ history w' (mkLedger (r :: l_handles l) (l_strings l))
    | Defined (false, w', o) => outs o = [] /\ no /\ history w' l
    end.

  Lemma sound_weaken m w l yes no (wrong wrong' : Prop) : (wrong -> wrong') -> sound m w l yes no wrong -> sound m w l yes no wrong'.
  Proof. unfold sound. destruct (m w) as [[[[] w'] o]|]; auto. Qed.

  Lemma sound_write t k w l yes no wrong : sound k w l yes no wrong -> sound (seq (write (OnErr t)) (fun _ => k)) w l yes no wrong.
  Proof. unfold sound, seq, write. destruct (k w) as [[[b w'] o]|]; [|auto]. destruct b; intros H; exact H. Qed.

  Lemma sound_scope m k w l new (ok : bool) w1 o yes no wrong : m w = Defined ((new, ok), w1, o) -> outs o = [] ->
    history w1 (mkLedger (rev new ++ l_handles l) (l_strings l)) ->
    (if ok then sound (k new) w1 (mkLedger (rev new ++ l_handles l) (l_strings l)) yes no wrong else no) ->
    sound (scope F fresh m k) w l yes no wrong.
  Proof.
    intros E Oo H1 Q.
    assert (S1 : sound (if ok then k new else ret false) w1 (mkLedger (rev new ++ l_handles l) (l_strings l)) yes no wrong).
    { destruct ok; [exact Q|]. cbn [sound ret]. split; [reflexivity|]. split; [exact Q|exact H1]. }
    unfold sound, scope, seq. rewrite E. cbn [fst snd]. unfold sound in S1. destruct ((if ok then k new else ret false) w1) as [[[b w2] o2]|]; [|exact S1].
    destruct b.
    - destruct S1 as (r & t & O2 & Y & H2). cbn [l_handles l_strings] in H2. destruct (history_owned F fresh Fresh _ _ H2) as (ND & _). cbn [l_handles] in ND.
      destruct (drop_all_step new w2 _ H2) as (w3 & D & H3).
      + intros a Ia. cbn [l_handles]. right. apply in_or_app. left. apply in_rev. rewrite rev_involutive. exact Ia.
      + change (NoDup ([r] ++ rev new ++ l_handles l)) in ND. destruct (nodup_apart _ _ ND) as [ND' _]. clear - ND'. rewrite <- (rev_involutive new). apply NoDup_rev.
        generalize (l_handles l) (rev new) ND'. clear. intros y x. induction x as [|a x IH]; intros N; [constructor|]. inversion N as [|? ? NI N']; subst.
        constructor; [|now apply IH]. intros I. apply NI, in_or_app. now left.
      + rewrite D. exists r, t. split; [rewrite outs_app, outs_app, Oo, O2, app_nil_r; reflexivity|]. split; [exact Y|].
        cbn [l_handles l_strings] in H3. change (r :: rev new ++ l_handles l) with ([r] ++ rev new ++ l_handles l) in H3. rewrite without_front in H3 by exact ND. exact H3.
    - destruct S1 as (O2 & Y & H2). destruct (history_owned F fresh Fresh _ _ H2) as (ND & _). cbn [l_handles] in ND.
      destruct (drop_all_step new w2 _ H2) as (w3 & D & H3).
      + intros a Ia. cbn [l_handles]. apply in_or_app. left. apply in_rev. rewrite rev_involutive. exact Ia.
      + rewrite <- (rev_involutive new). apply NoDup_rev.
        generalize (l_handles l) (rev new) ND. clear. intros y x. induction x as [|a x IH]; intros N; [constructor|]. inversion N as [|? ? NI N']; subst.
        constructor; [|now apply IH]. intros I. apply NI, in_or_app. now left.
      + rewrite D. split; [rewrite outs_app, outs_app, Oo, O2; reflexivity|]. split; [exact Y|].
        cbn [l_handles l_strings] in H3. change (rev new ++ l_handles l) with ([] ++ rev new ++ l_handles l) in H3. rewrite without_front in H3 by exact ND. destruct l; exact H3.
  Qed.

  Lemma read_all_each {A} (rd : text -> thread -> res A * thread) files : forall before xs, read_all (fun _ => rd) before files xs -> Forall2 (read_as F rd) files xs.
  Proof. induction files as [|n files IH]; intros before [|x xs] H; cbn [read_all] in H; try contradiction; constructor; [apply H|]. eapply IH. apply H. Qed.

  Lemma plain_ok (c : string -> call) {A} (wrap : A -> handle) (rd : text -> thread -> res A * thread) :
    (forall n, given (c n) = [] /\ freed (c n) = [] /\ strings_freed (c n) = []) ->
    (forall w n, answers F fresh (c n) w (outcome wrap (let* t := fc_open F n in fst (rd t (w_thread w))))) ->
    forall w l (hs : list addr) (xs : list A) n, history w l -> incl [] (l_handles l) -> incl hs (l_handles l) -> True ->
      Forall2 (fun a x => holds w a (wrap x)) hs xs -> allowed l (c n) /\ freed (c n) = [] /\ strings_freed (c n) = [] /\
      answers F fresh (c n) w (outcome wrap (let* t := fc_open F n in fst (rd t (w_thread w)))).
  Proof.
    intros G An w l hs xs n _ _ _ _ _. destruct (G n) as (G1 & G2 & G3). split; [|split; [exact G2|split; [exact G3|apply An]]].
    unfold allowed. rewrite G1, G2, G3. split; [intros a []|]. split; [intros a []|constructor].
  Qed.

  Lemma instrument_ok ccys cobjs w l hs xs n : history w l -> incl ccys (l_handles l) -> incl hs (l_handles l) ->
    Forall2 (fun a x => holds w a (HCurrency x)) ccys cobjs -> Forall2 (fun a x => holds w a (HInstrument x)) hs xs ->
    let c := InstrumentFromJson (File n) WriteOnce ccys WriteOnce hs in
    allowed l c /\ freed c = [] /\ strings_freed c = [] /\
    answers F fresh c w (outcome HInstrument (let* t := fc_open F n in fst (reading_instrument F cobjs xs t (w_thread w)))).
  Proof.
    intros H I1 I2 F1 F2 c. split; [|split; [reflexivity|split; [reflexivity|]]].
    - split; [|split; [intros a []|constructor]]. cbn [given required c]. rewrite map_app, !map_map. cbn [fst]. rewrite !map_id. now apply incl_app.
    - unfold answers, c. destruct (fc_open F n) as [t|e|e] eqn:E.
      + destruct (instrument_right F fresh w t WriteOnce ccys WriteOnce hs cobjs xs F1 F2) as (r & w' & R & B). exists r, w'. cbn [bind]. split; [|exact B].
        rewrite <- R. cbn [run open_source]. rewrite E. reflexivity.
      + eexists _, _. cbn [run open_source]. rewrite E. split; [reflexivity|]. unfold holds. cbn [w_handles block bind outcome]. rewrite N.eqb_refl. reflexivity.
      + eexists _, _. cbn [run open_source]. rewrite E. split; [reflexivity|]. unfold holds. cbn [w_handles block bind outcome]. rewrite N.eqb_refl. reflexivity.
  Qed.

  Lemma kept_all (l : list addr) {A} (wrap : A -> handle) w w' hs xs : incl hs l -> kept l w w' ->
    Forall2 (fun a x => holds w a (wrap x)) hs xs -> Forall2 (fun a x => holds w' a (wrap x)) hs xs.
  Proof.
    intros I K Hx. induction Hx as [|b y hs xs Hb Hx IHx]; constructor.
    - apply K; [apply I; now left|exact Hb].
    - apply IHx. intros z Iz. apply I. now right.
  Qed.

  Lemma calculate_sound w l ps p is is' i ms m fs f gs gs' (yes : string -> Prop) no : history w l ->
    incl (ps ++ is ++ fs ++ ms ++ gs) (l_handles l) ->
    Forall2 (fun a x => holds w a (HPricerFactory x)) ps [p] -> Forall2 (fun a x => holds w a (HInstrument x)) is (is' ++ [i]) ->
    Forall2 (fun a x => holds w a (HFixingTable x)) fs [f] -> Forall2 (fun a x => holds w a (HMarketData x)) ms [m] ->
    Forall2 (fun a x => holds w a (HReportGenerator x)) gs gs' -> (forall t, shown F p i f m gs' t -> yes t) ->
    sound (calculate_and_print F fresh ps is fs ms gs) w l yes no False.
  Proof.
    intros H Inc Hp Hi Hf Hm Hg Y. inversion Hp as [|pa p' ps' ? Hpa Hp']; subst. inversion Hp'; subst.
    inversion Hf as [|fa f' fs' ? Hfa Hf']; subst. inversion Hf'; subst. inversion Hm as [|ma m' ms' ? Hma Hm']; subst. inversion Hm'; subst.
    apply Forall2_app_inv_r in Hi. destruct Hi as (is0 & is1 & _ & Hi & ->). inversion Hi as [|ia i' is2 ? Hia Hi']; subst. inversion Hi'; subst.
    unfold calculate_and_print. apply sound_write. unfold sound. unfold seq at 1, back at 1. cbn [rev app]. unfold seq at 1, back at 1. rewrite rev_app_distr. cbn [rev app].
    unfold seq at 1, back at 1. cbn [rev app]. unfold seq at 1, back at 1. cbn [rev app].
    destruct (calculate_right F fresh w pa ia fa ma gs p i f m gs' Hpa Hia Hfa Hma Hg) as (r & w1 & R & B).
    assert (Al : allowed l (Calculate pa ia fa ma gs : call)).
    { split; [|split; [intros a []|constructor]]. cbn [given required app map fst]. rewrite map_map. cbn [fst]. rewrite map_id. intros a Ia. apply Inc.
      cbn [In app] in *. rewrite ?in_app_iff. cbn [In]. rewrite ?in_app_iff. cbn [In]. tauto. }
    destruct (step _ w l H Al) as (a & w1' & R' & H1 & _). rewrite R in R'. injection R' as <- <-.
    unfold settle in H1. cbn [freed strings_freed] in H1. rewrite !without_nil in H1. cbn [app] in H1.
    unfold seq at 1, qm at 1. rewrite R. cbn [number_of]. unfold seq at 1, write at 1.
    assert (AL : allowed (mkLedger (r :: l_handles l) (l_strings l)) (ReportsAsJsonString r : call)).
    { split; [intros b [<-|[]]; left; reflexivity|]. split; [intros b []|constructor]. }
    pose proof (reports_string_right F fresh w1 r _ B) as RT.
    destruct (string_step (ReportsAsJsonString r) OnOut true w1 _ _ H1 AL eq_refl eq_refl RT) as (w2 & RS & H2 & _). rewrite RS.
    exists r. eexists. split; [reflexivity|]. split; [|exact H2].
    apply Y. exists (w_thread w), (w_thread w1). destruct (fst (fc_calculate F p i f m gs' (w_thread w))) as [rs|e|e]; reflexivity.
  Qed.

  Lemma forall2_length {A B} (R : A -> B -> Prop) l l' : Forall2 R l l' -> List.length l = List.length l'.
  Proof. induction 1; cbn; congruence. Qed.

  Lemma one_length (l : list addr) : one l = true <-> List.length l = 1%nat.
  Proof. destruct l as [|a [|b l]]; cbn; split; intros H; try reflexivity; try discriminate. Qed.

  Lemma read_all_length {A} (rd : list A -> text -> thread -> res A * thread) files : forall before xs, read_all rd before files xs -> List.length files = List.length xs.
  Proof. induction files as [|n files IH]; intros before [|x xs] H; cbn [read_all] in H; try contradiction; [reflexivity|]. cbn. f_equal. eapply IH. apply H. Qed.

  (** One section of plain files. *)
  Lemma section_step {A} (c : string -> call) (wrap : A -> handle) (rd : text -> thread -> res A * thread) sh files w l :
    (forall n, given (c n) = [] /\ freed (c n) = [] /\ strings_freed (c n) = []) ->
    (forall w n, answers F fresh (c n) w (outcome wrap (let* t := fc_open F n in fst (rd t (w_thread w))))) ->
    (forall x e, wrap x <> HErr e) -> history w l ->
    exists new ok w' o, read_files F fresh sh (fun _ => c) files [] w = Defined ((new, ok), w', o) /\ outs o = [] /\
      history w' (mkLedger (rev new ++ l_handles l) (l_strings l)) /\ kept (l_handles l) w w' /\
      if (ok : bool) then exists xs, Forall2 (read_as F rd) files xs /\ Forall2 (fun a x => holds w' a (wrap x)) new xs
      else exists n, In n files /\ refused F rd n.
  Proof.
    intros G An WR H.
    destruct (read_files_step wrap (fun _ => rd) (fun _ => c) [] (fun _ => True) (fun _ _ _ _ => I) (plain_ok c wrap rd G An) WR sh files w l [] [] H)
      as (new & ok & w' & o & R & Oo & H' & K & Q); [intros a []|intros a []|exact I|constructor|].
    exists new, ok, w', o. split; [exact R|]. split; [exact Oo|]. split; [exact H'|]. split; [exact K|]. destruct ok.
    - destruct Q as (xs & Q1 & Q2). exists xs. split; [exact (read_all_each rd files [] xs Q1)|exact Q2].
    - destruct Q as (n & _ & Q1 & Q2). exists n. split; assumption.
  Qed.

  Lemma read_instruments_all cobjs files : forall before xs, read_all (fun b => reading_instrument F cobjs b) before files xs -> read_instruments F cobjs before files xs.
  Proof. induction files as [|n files IH]; intros before [|x xs] H; cbn [read_all read_instruments] in *; try contradiction; [exact I|]. split; [apply H|]. apply IH, H. Qed.

  Lemma sections_sound s w l : history w l -> sound (process_sections F fresh s) w l (completed F s) (failed F s) (stuck F s).
  Proof.
    intros H0. unfold process_sections. apply sound_write.
    destruct (section_step (fun n => CurrencyFromJson (File n)) HCurrency (fc_currency F) true (s_currencies s) w l) as (cs & ok & w1 & o & R & Oo & H1 & K1 & Q);
      [intros n; repeat split|intros; apply (proj1 (read_right F fresh w0 (File n)))|discriminate|exact H0|].
    apply (sound_scope _ _ _ _ _ _ _ _ _ _ _ R Oo H1). destruct ok; [|destruct Q as (n & Q); left; exists n; exact Q]. destruct Q as (cobjs & Qc & Hc).
    apply sound_write.
    destruct (read_files_step HInstrument (fun b => reading_instrument F cobjs b) (fun is n => InstrumentFromJson (File n) WriteOnce cs WriteOnce is) cs
      (fun w => Forall2 (fun a x => holds w a (HCurrency x)) cs cobjs)
      (fun w w' K => kept_all cs HCurrency w w' cs cobjs (incl_refl cs) K)
      (fun w l hs xs n H I1 I2 F1 F2 => instrument_ok cs cobjs w l hs xs n H I1 I2 F1 F2) ltac:(discriminate) true (s_instruments s) w1 _ [] [] H1)
      as (is & ok & w2 & o2 & R2 & O2 & H2 & K2 & Q2); [|intros a []|exact Hc|constructor|].
    { intros a Ia. cbn [l_handles]. apply in_or_app. left. apply in_rev. rewrite rev_involutive. exact Ia. }
    apply (sound_scope _ _ _ _ _ _ _ _ _ _ _ R2 O2 H2). cbn [l_handles l_strings] in H2, K2 |- *.
    destruct ok; [|destruct Q2 as (n & b & Q2); right; left; exists n, cobjs, b; exact Q2]. destruct Q2 as (iobjs & Qi & Hi). cbn [app] in Hi, R2, H2.
    pose proof (read_all_length _ _ _ _ Qi) as Li. apply read_instruments_all in Qi.
    apply sound_write.
    edestruct (section_step (fun n => MarketDataFromJson (File n)) HMarketData (fc_market_data F) false (s_market_data s) w2)
      as (ms & ok & w3 & o3 & R3 & O3 & H3 & K3 & Q3);
      [intros n; repeat split|intros w0 n; destruct (read_right F fresh w0 (File n)) as (_ & _ & _ & X & _); exact X|discriminate|exact H2|].
    apply (sound_scope _ _ _ _ _ _ _ _ _ _ _ R3 O3 H3). cbn [l_handles l_strings] in H3, K3 |- *.
    destruct ok; [|destruct Q3 as (n & Q3); right; right; left; exists n; exact Q3]. destruct Q3 as (mobjs & Qm & Hm).
    apply sound_write.
    edestruct (section_step (fun n => FixingTableFromJson (File n)) HFixingTable (fc_fixing_table F) false (s_fixings s) w3)
      as (fs & ok & w4 & o4 & R4 & O4 & H4 & K4 & Q4);
      [intros n; repeat split|intros w0 n; destruct (read_right F fresh w0 (File n)) as (_ & _ & X & _); exact X|discriminate|exact H3|].
    apply (sound_scope _ _ _ _ _ _ _ _ _ _ _ R4 O4 H4). cbn [l_handles l_strings] in H4, K4 |- *.
    destruct ok; [|destruct Q4 as (n & Q4); do 3 right; left; exists n; exact Q4]. destruct Q4 as (fobjs & Qf & Hf).
    apply sound_write.
    edestruct (section_step (fun n => PricerFactoryFromJson (File n)) HPricerFactory (fc_pricer_factory F) false (s_pricers s) w4)
      as (ps & ok & w5 & o5 & R5 & O5 & H5 & K5 & Q5);
      [intros n; repeat split|intros w0 n; destruct (read_right F fresh w0 (File n)) as (_ & X & _); exact X|discriminate|exact H4|].
    apply (sound_scope _ _ _ _ _ _ _ _ _ _ _ R5 O5 H5). cbn [l_handles l_strings] in H5, K5 |- *.
    destruct ok; [|destruct Q5 as (n & Q5); do 4 right; left; exists n; exact Q5]. destruct Q5 as (pobjs & Qp & Hp).
    apply sound_write.
    edestruct (section_step (fun n => ReportGeneratorFromJson (File n)) HReportGenerator (fc_report_generator F) false (s_reports s) w5)
      as (gs & ok & w6 & o6 & R6 & O6 & H6 & K6 & Q6);
      [intros n; repeat split|intros w0 n; destruct (read_right F fresh w0 (File n)) as (_ & _ & _ & _ & X & _); exact X|discriminate|exact H5|].
    apply (sound_scope _ _ _ _ _ _ _ _ _ _ _ R6 O6 H6). cbn [l_handles l_strings] in H6, K6 |- *.
    destruct ok; [|destruct Q6 as (n & Q6); do 5 right; left; exists n; exact Q6]. destruct Q6 as (gobjs & Qg & Hg).
    (* the handles still hold what was read *)
    assert (IR : forall (x y : list addr), incl x (rev x ++ y)).
    { intros x y a Ia. apply in_or_app. left. apply in_rev. rewrite rev_involutive. exact Ia. }
    assert (IA : forall (x y z : list addr), incl x y -> incl x (z ++ y)) by (intros x y z I a Ia; apply in_or_app; right; apply I, Ia).
    pose proof (kept_all _ HInstrument _ _ is iobjs (IR is _) K3 Hi) as Hi'. clear Hi. rename Hi' into Hi.
    pose proof (kept_all _ HInstrument _ _ is iobjs (IA _ _ _ (IR is _)) K4 Hi) as Hi'. clear Hi. rename Hi' into Hi.
    pose proof (kept_all _ HInstrument _ _ is iobjs (IA _ _ _ (IA _ _ _ (IR is _))) K5 Hi) as Hi'. clear Hi. rename Hi' into Hi.
    pose proof (kept_all _ HInstrument _ _ is iobjs (IA _ _ _ (IA _ _ _ (IA _ _ _ (IR is _)))) K6 Hi) as Hi'. clear Hi. rename Hi' into Hi.
    pose proof (kept_all _ HMarketData _ _ ms mobjs (IR ms _) K4 Hm) as Hm'. clear Hm. rename Hm' into Hm.
    pose proof (kept_all _ HMarketData _ _ ms mobjs (IA _ _ _ (IR ms _)) K5 Hm) as Hm'. clear Hm. rename Hm' into Hm.
    pose proof (kept_all _ HMarketData _ _ ms mobjs (IA _ _ _ (IA _ _ _ (IR ms _))) K6 Hm) as Hm'. clear Hm. rename Hm' into Hm.
    pose proof (kept_all _ HFixingTable _ _ fs fobjs (IR fs _) K5 Hf) as Hf'. clear Hf. rename Hf' into Hf.
    pose proof (kept_all _ HFixingTable _ _ fs fobjs (IA _ _ _ (IR fs _)) K6 Hf) as Hf'. clear Hf. rename Hf' into Hf.
    pose proof (kept_all _ HPricerFactory _ _ ps pobjs (IR ps _) K6 Hp) as Hp'. clear Hp. rename Hp' into Hp.
    destruct (one fs && one ms && one ps) eqn:One.
    - apply andb_true_iff in One. destruct One as [One Op]. apply andb_true_iff in One. destruct One as [Of Om].
      destruct fs as [|fa [|]]; try discriminate. destruct ms as [|ma [|]]; try discriminate. destruct ps as [|pa [|]]; try discriminate.
      inversion Hf as [|? f ? ? Hfa Hf']; subst. inversion Hf'; subst. inversion Hm as [|? m ? ? Hma Hm']; subst. inversion Hm'; subst. inversion Hp as [|? p ? ? Hpa Hp']; subst. inversion Hp'; subst.
      destruct (rev iobjs) as [|i rest] eqn:Er.
      + assert (iobjs = []) by (rewrite <- (rev_involutive iobjs), Er; reflexivity). subst iobjs. inversion Hi; subst.
        unfold sound, calculate_and_print. cbn. split; [destruct (s_instruments s); [reflexivity|discriminate]|].
        exists cobjs, m, f, p, gobjs. repeat split; assumption.
      + assert (iobjs = rev rest ++ [i]) by (rewrite <- (rev_involutive iobjs), Er; reflexivity). subst iobjs.
        apply (sound_weaken _ _ _ _ _ False); [intros []|]. apply (calculate_sound w6 _ [pa] p is (rev rest) i [ma] m [fa] f gs gobjs); try assumption.
        * intros a Ia. cbn [l_handles]. rewrite ?in_app_iff in *. cbn [In rev app] in *. rewrite ?in_app_iff in *. rewrite <- ?in_rev. cbn [In] in *. tauto.
        * intros t St. exists cobjs, (rev rest), i, m, f, p, gobjs. repeat split; try assumption.
    - apply sound_write. cbn [sound ret]. split; [reflexivity|]. split; [|exact H6].
      assert (Lm : List.length ms = List.length (s_market_data s)) by (rewrite (forall2_length _ _ _ Hm), (forall2_length _ _ _ Qm); reflexivity).
      assert (Lf : List.length fs = List.length (s_fixings s)) by (rewrite (forall2_length _ _ _ Hf), (forall2_length _ _ _ Qf); reflexivity).
      assert (Lp : List.length ps = List.length (s_pricers s)) by (rewrite (forall2_length _ _ _ Hp), (forall2_length _ _ _ Qp); reflexivity).
      pose proof (one_length fs) as Wf. pose proof (one_length ms) as Wm. pose proof (one_length ps) as Wp.
      do 6 right. rewrite <- Lm, <- Lf, <- Lp. destruct (one fs), (one ms), (one ps); try discriminate; cbn in One;
        repeat match goal with W : false = true <-> ?P |- _ => assert (~ P) by (intros X; apply W in X; discriminate); clear W end; tauto.
  Qed.

  (** ** The whole *)

  Lemma file_sound name file w l : history w l ->
    match process_file F fresh name file w with
    | Undefined _ => exists lines, file = Some lines /\ (orphan lines \/ stuck F (config lines))
    | Defined (true, w', o) => exists lines r t, file = Some lines /\ ~ orphan lines /\ (forall h, ~ unknown h lines) /\
        outs o = [t] /\ completed F (config lines) t /\ history w' (mkLedger (r :: l_handles l) (l_strings l))
    | Defined (false, w', o) => outs o = [] /\ history w' l /\
        (file = None \/ exists lines, file = Some lines /\ ~ orphan lines /\ ((exists h, unknown h lines) \/ failed F (config lines)))
    end.
  Proof.
    intros H. destruct file as [lines|]; cbn [process_file].
    - pose proof (parse_config lines) as PC. destruct (parse lines None _) as [[h|s]|].
      + unfold seq, write, ret. split; [reflexivity|]. split; [exact H|]. right. exists lines. split; [reflexivity|]. split; [apply PC|]. left. exists h. apply PC.
      + destruct PC as (NO & AK & ->). pose proof (sections_sound (config lines) w l H) as SS. unfold sound in SS.
        destruct (process_sections F fresh (config lines) w) as [[[b w'] o]|].
        * destruct b.
          -- destruct SS as (r & t & O1 & Y & H'). exists lines, r, t. repeat split; try assumption.
             intros h (b & a & E & Hh & Nh & _). apply Nh, AK; [|exact Hh]. rewrite E. apply in_or_app. right. now left.
          -- destruct SS as (O1 & Y & H'). split; [exact O1|]. split; [exact H'|]. right. exists lines. repeat split; auto.
        * exists lines. split; [reflexivity|]. now right.
      + exists lines. split; [reflexivity|]. now left.
    - unfold seq, write, ret. split; [reflexivity|]. split; [exact H|]. now left.
  Qed.

  Lemma orphan_undefined name lines w : orphan lines -> process_file F fresh name (Some lines) w = Undefined "null pointer".
  Proof.
    intros O. cbn [process_file]. enough (E : parse lines None (mkSections [] [] [] [] [] []) = Undefined "null pointer") by now rewrite E.
    destruct O as (b & f & a & -> & Nf & Hb). induction b as [|l b IH].
    - cbn [app parse]. rewrite skipped_comment. unfold names_file in Nf. apply andb_true_iff in Nf. destruct Nf as [Nc Nh].
      apply negb_true_iff in Nc, Nh. rewrite Nc, (colon_heading f Nc), Nh. reflexivity.
    - cbn [app parse]. rewrite skipped_comment, (Hb l (or_introl eq_refl)). apply IH. intros x I. apply Hb. now right.
  Qed.

  Lemma unopened name w : exists o, process_file F fresh name None w = Defined (false, w, o) /\ outs o = [].
  Proof. eexists. split; reflexivity. Qed.

  Lemma main_sound argv0 files : forall w l, history w l ->
    match main F fresh argv0 files w with
    | Undefined _ => exists name lines, In (name, Some lines) files /\ (orphan lines \/ stuck F (config lines))
    | Defined (ok, w', o) => exists done rest left,
        files = done ++ rest /\ (ok = true <-> rest = []) /\ Forall2 (fun f t => exists lines, snd f = Some lines /\ completed F (config lines) t) done (outs o) /\
        List.length left = List.length done /\ history w' (mkLedger (left ++ l_handles l) (l_strings l)) /\
        forall f rest', rest = f :: rest' -> snd f = None \/ exists lines, snd f = Some lines /\ ((exists h, unknown h lines) \/ failed F (config lines))
    end.
  Proof.
    induction files as [|[name file] files IH]; intros w l H; cbn [main].
    - unfold ret. exists [], [], []. repeat split; try reflexivity; try constructor; [destruct l; exact H|]. discriminate.
    - unfold seq at 1. pose proof (file_sound name file w l H) as FS. destruct (process_file F fresh name file w) as [[[ok w1] o1]|].
      + destruct ok.
        * destruct FS as (lines & r & t & -> & _ & _ & O1 & C & H1). specialize (IH w1 _ H1).
          destruct (main F fresh argv0 files w1) as [[[ok w'] o']|].
          -- destruct IH as (dn & rest & left & -> & B & Fa & L & H' & Rs). exists ((name, Some lines) :: dn), rest, (left ++ [r]).
             split; [reflexivity|]. split; [exact B|]. split; [rewrite outs_app, O1; constructor; [|exact Fa]; exists lines; split; [reflexivity|exact C]|].
             split; [rewrite app_length, L; cbn; apply PeanoNat.Nat.add_1_r|]. split; [|exact Rs]. cbn [l_handles l_strings] in H'. rewrite <- app_assoc. exact H'.
          -- destruct IH as (nm & ls & I & Q). exists nm, ls. split; [now right|exact Q].
        * destruct FS as (O1 & H1 & Q). unfold seq, write, ret. exists [], ((name, file) :: files), [].
          split; [reflexivity|]. split; [split; discriminate|]. split; [rewrite outs_app, O1; constructor|]. split; [reflexivity|]. split; [destruct l; exact H1|].
          intros f rest' E. injection E as <- _. cbn [snd]. destruct Q as [Q|(ls & -> & _ & Q)]; [now left|]. right. exists ls. split; [reflexivity|exact Q].
      + destruct FS as (ls & -> & Q). exists name, ls. split; [now left|exact Q].
  Qed.

  (** ** The class that owns a handle *)

  Lemma copy_empty w l : history w l -> handle_copy F fresh 0%N w = Undefined "dangling handle".
  Proof.
    intros H. unfold handle_copy, seq, qm. cbn [run]. destruct (block 0%N (w_handles w)) as [x|] eqn:B; [|reflexivity]. exfalso.
    destruct (history_owned F fresh Fresh w l H) as (_ & O & _). apply (proj1 (nonnull w l H) 0%N); [|reflexivity]. apply O. exists x. exact B.
  Qed.

  Lemma copy_step h x w l : history w l -> In h (l_handles l) -> holds w h x ->
    exists h' w', handle_copy F fresh h w = Defined (h', w', []) /\ ~ In h' (l_handles l) /\ h' <> 0%N /\
      history w' (mkLedger (h' :: l_handles l) (l_strings l)) /\ holds w' h' (clone x) /\ kept (l_handles l) w w'.
  Proof.
    intros H I Hx. destruct (step (Clone h) w l H) as (a & w' & R & H' & K).
    { split; [intros b [<-|[]]; exact I|]. split; [intros b []|constructor]. }
    pose proof (answer_nonnull _ _ _ _ R) as NN. pose proof R as R0. cbn [run] in R. unfold holds in Hx. rewrite Hx in R. cbn [from_handle] in R. injection R as <- <-.
    eexists _, _. unfold handle_copy, seq, qm. rewrite R0. cbn [number_of]. split; [reflexivity|].
    unfold settle in H'. cbn [freed strings_freed app] in H', K. rewrite !without_nil in H'. rewrite without_nil in K.
    destruct (history_owned F fresh Fresh _ _ H') as (ND & _). inversion ND as [|? ? NI _]; subst.
    split; [exact NI|]. split; [exact NN|]. split; [exact H'|]. split; [|exact K]. unfold holds. cbn [w_handles block]. rewrite N.eqb_refl. reflexivity.
  Qed.

  Lemma assign_step this that x w l : history w l -> In this (l_handles l) -> In that (l_handles l) -> this <> that -> holds w that x ->
    exists h w', handle_assign F fresh this that w = Defined (h, w', []) /\ holds w' h (clone x) /\
      history w' (mkLedger (h :: without [this] (l_handles l)) (l_strings l)).
  Proof.
    intros H I1 I2 NE Hx. destruct (drop_step this w l H I1) as (w1 & E1 & H1). unfold handle_assign. unfold seq at 1. rewrite E1.
    assert (NZ : N.eqb that 0 = false) by (apply N.eqb_neq; exact (proj1 (nonnull w l H) that I2)). rewrite NZ.
    assert (I2' : In that (without [this] (l_handles l))) by (apply without_in; split; [exact I2|intros [E|[]]; now apply NE]).
    assert (Hx1 : holds w1 that x).
    { destruct (step (FreeHandle this) w l H) as (a & w1' & R & _ & K).
      { split; [intros b [<-|[]]; exact I1|]. split; [intros b []|]. repeat constructor. intros []. }
      unfold handle_drop in E1. assert (NZ1 : N.eqb this 0 = false) by (apply N.eqb_neq; exact (proj1 (nonnull w l H) this I1)). rewrite NZ1 in E1.
      unfold seq, qm in E1. rewrite R in E1. injection E1 as E1. subst w1'. apply K; [exact I2'|exact Hx]. }
    destruct (copy_step that x w1 _ H1 I2' Hx1) as (h & w' & E & _ & _ & H' & Hh & _). rewrite E. exists h, w'. split; [reflexivity|]. split; [exact Hh|exact H'].
  Qed.
End Runner.
