(** Fixing instruments and portfolios. *)
From Coq Require Import ZArith List String Bool Lia Reals Lra.
From Verif Require Import Prelude Num M_Dates M_Calendar M_Curves M_Fixings M_Forward M_Vol M_Instruments S_Instruments
  L_Num.
Import ListNotations.
Open Scope list_scope.
Open Scope R_scope.

(** Induction over instruments with nested members and underlyings. *)
Section Induction.
  Context {T : Type} (P : instrument T -> Prop).
  Hypothesis HC : forall c, P (ICurrency c).
  Hypothesis HE : forall id cur s, P (ICreditEntity id cur s).
  Hypothesis HQ : forall id cr cur s, P (IEquity id cr cur s).
  Hypothesis HZ : forall id cr cur ex pay s, P (IZeroCoupon id cr cur ex pay s).
  Hypothesis HB : forall id cr cur s ms, Forall (fun h => P (snd h)) ms -> P (IBasket id cr cur s ms).
  Hypothesis HS : forall v k, P (van_underlying v) -> P (ISpotEuropean v k).
  Hypothesis HF : forall v f d x, P (van_underlying v) -> P (IForwardEuropean v f d x).
  Fixpoint instrument_nested_ind (i : instrument T) : P i :=
    match i with
    | ICurrency c => HC c
    | ICreditEntity id cur s => HE id cur s
    | IEquity id cr cur s => HQ id cr cur s
    | IZeroCoupon id cr cur ex pay s => HZ id cr cur ex pay s
    | IBasket id cr cur s ms =>
        HB id cr cur s ms
          ((fix go (l : holdings T) : Forall (fun h => P (snd h)) l :=
              match l with
              | [] => Forall_nil _
              | (w, u) :: l' => Forall_cons (w, u) (instrument_nested_ind u) (go l')
              end) ms)
    | ISpotEuropean v k => HS v k (instrument_nested_ind (van_underlying v))
    | IForwardEuropean v f d x => HF v f d x (instrument_nested_ind (van_underlying v))
    end.
End Induction.

(** ** One option *)
Lemma get_fixing_cases {T} (t : fixing_table T) id dt :
  (forall x, get_optional t id dt = Some x -> get_fixing t id dt = Ok (Some x)) /\
  (get_optional t id dt = None -> (known_until t <= dt_date dt)%Z -> get_fixing t id dt = Ok None) /\
  (get_optional t id dt = None -> (dt_date dt < known_until t)%Z -> exists m, get_fixing t id dt = Err m).
Proof.
  unfold get_fixing. repeat split.
  - intros x ->. reflexivity.
  - intros -> L. destruct (Z.ltb_spec (dt_date dt) (known_until t)); [lia|reflexivity].
  - intros -> L. destruct (Z.ltb_spec (dt_date dt) (known_until t)); [eexists; reflexivity|lia].
Qed.

Lemma payoff_sign pc x k : payoff pc x k = Rmax (option_sign pc * (x - k)) 0.
Proof. destruct pc; unfold payoff, option_sign; rnum; f_equal; lra. Qed.

Section European.
  Variables (t : fixing_table R) (v : vanilla R) (k x : R).
  Hypothesis F : get_optional t (instrument_id (van_underlying v)) (van_expiry v) = Some x.

  Lemma fix_cash : van_cash_or_physical v = CashSettled ->
    fix_instrument t (ISpotEuropean v k) =
      Ok (Some (if Rltb 0 (payoff (van_put_or_call v) x k) then [(payoff (van_put_or_call v) x k, payment_of v)] else [])).
  Proof.
    intros C. cbn [fix_instrument]. unfold fix_spot_european.
    rewrite (proj1 (get_fixing_cases t _ _) x F), C. cbn [bind]. do 2 f_equal.
    rewrite payoff_sign. rnum. set (y := option_sign (van_put_or_call v) * (x - k)).
    destruct (Rltb_spec 0 y).
    - rewrite Rmax_left by lra. destruct (Rltb_spec 0 y); [reflexivity|lra].
    - rewrite Rmax_right by lra. destruct (Rltb_spec 0 0); [lra|reflexivity].
  Qed.

  Lemma fix_physical : van_cash_or_physical v = PhysicalSettled ->
    fix_instrument t (ISpotEuropean v k) =
      Ok (Some (if Rltb 0 (payoff (van_put_or_call v) x k)
                then match van_put_or_call v with
                     | Call => [(- k, payment_of v); (1, van_underlying v)]
                     | Put => [(k, payment_of v); (- 1, van_underlying v)]
                     end
                else [])).
  Proof.
    intros C. cbn [fix_instrument]. unfold fix_spot_european.
    rewrite (proj1 (get_fixing_cases t _ _) x F), C. cbn [bind]. do 2 f_equal.
    rewrite payoff_sign. set (y := option_sign (van_put_or_call v) * (x - k)).
    change (nmul (option_sign (van_put_or_call v)) (nsub x k)) with y.
    assert (E : Rltb 0 (Rmax y 0) = nltb n0 y).
    { rnum. destruct (Rltb_spec 0 y); destruct (Rltb_spec 0 (Rmax y 0)); try reflexivity.
      - rewrite Rmax_left in *; lra.
      - rewrite Rmax_right in *; lra. }
    rewrite E. destruct (nltb n0 y); [|reflexivity]. unfold option_sign. destruct (van_put_or_call v); rnum; repeat f_equal; lra.
  Qed.

  Lemma cash_of_payment : cash_of v (payment_of v).
  Proof. eexists _, _. reflexivity. Qed.

  (** The settlement is worth the payoff. *)
  Lemma fix_settles : exists d, fix_instrument t (ISpotEuropean v k) = Ok (Some d) /\
    adds_up (settles v x) d (payoff (van_put_or_call v) x k).
  Proof.
    destruct (van_cash_or_physical v) eqn:C.
    - eexists. split; [apply fix_cash; exact C|]. set (p := payoff _ _ _).
      assert (0 <= p) by (unfold p; rewrite payoff_sign; apply Rmax_r).
      destruct (Rltb_spec 0 p).
      + replace p with (p * 1 + 0) at 2 by lra. constructor; [left; split; [apply cash_of_payment|reflexivity]|constructor].
      + replace p with 0 by lra. constructor.
    - eexists. split; [apply fix_physical; exact C|]. unfold payoff. destruct (van_put_or_call v); set (p := Rmax _ _).
      + assert (0 <= p) by (apply Rmax_r). destruct (Rltb_spec 0 p).
        * assert (p = k * 1 + (- 1 * x + 0)) as ->.
          { unfold p in *. destruct (Rle_dec (k - x) 0); [rewrite Rmax_right in * by lra; lra|rewrite Rmax_left by lra; lra]. }
          constructor; [left; split; [apply cash_of_payment|reflexivity]|].
          constructor; [right; auto|constructor].
        * replace p with 0 by lra. constructor.
      + assert (0 <= p) by (apply Rmax_r). destruct (Rltb_spec 0 p).
        * assert (p = - k * 1 + (1 * x + 0)) as ->.
          { unfold p in *. destruct (Rle_dec (x - k) 0); [rewrite Rmax_right in * by lra; lra|rewrite Rmax_left by lra; lra]. }
          constructor; [left; split; [apply cash_of_payment|reflexivity]|].
          constructor; [right; auto|constructor].
        * replace p with 0 by lra. constructor.
  Qed.
End European.

Lemma fix_unknown {T} {N : Num T} (t : fixing_table T) v k : get_optional t (instrument_id (van_underlying v)) (van_expiry v) = None ->
  ((known_until t <= dt_date (van_expiry v))%Z -> fix_instrument t (ISpotEuropean v k) = Ok None) /\
  ((dt_date (van_expiry v) < known_until t)%Z -> exists m, fix_instrument t (ISpotEuropean v k) = Err m).
Proof.
  intros F. destruct (get_fixing_cases t (instrument_id (van_underlying v)) (van_expiry v)) as (_ & A & B).
  cbn [fix_instrument]. unfold fix_spot_european. split; intros L.
  - now rewrite (A F L).
  - destruct (B F L) as (m & ->). exists m. reflexivity.
Qed.

(** ** Forward-starting options *)
Lemma fix_forward {T} {N : Num T} (t : fixing_table T) v f d x0 x : get_optional t (instrument_id (van_underlying v)) d = Some x ->
  fix_instrument t (IForwardEuropean v f d x0) =
  match fix_instrument t (ISpotEuropean v (nmul x f)) with
  | Ok None => Ok (Some [(n1, ISpotEuropean v (nmul x f))])
  | r => r
  end.
Proof.
  intros F. cbn [fix_instrument]. unfold fix_forward_european. rewrite (proj1 (get_fixing_cases t _ _) x F). cbn [bind].
  destruct (fix_spot_european t v (nmul x f)) as [[l|]|e|e]; reflexivity.
Qed.

Lemma fix_forward_unknown {T} {N : Num T} (t : fixing_table T) v f d x0 : get_optional t (instrument_id (van_underlying v)) d = None ->
  ((known_until t <= dt_date d)%Z -> fix_instrument t (IForwardEuropean v f d x0) = Ok None) /\
  ((dt_date d < known_until t)%Z -> exists m, fix_instrument t (IForwardEuropean v f d x0) = Err m).
Proof.
  intros F. destruct (get_fixing_cases t (instrument_id (van_underlying v)) d) as (_ & A & B).
  cbn [fix_instrument]. unfold fix_forward_european. split; intros L.
  - now rewrite (A F L).
  - destruct (B F L) as (m & ->). exists m. reflexivity.
Qed.

(** ** Portfolios *)
Definition changed {T} (d : option (holdings T)) : bool := match d with Some _ => true | None => false end.

Section FixAllProof.
  Context {T : Type} {N : Num T} (f : instrument T -> res (option (holdings T))).

  Lemma loop_ok orig : forall rest basket n b pre r, fix_all_loop f orig rest basket n b = Ok r ->
    (b = false -> basket = [] /\ orig = pre ++ rest /\ List.length pre = n) ->
    exists ds, Forall2 (fun h d => f (snd h) = Ok d) rest ds /\
      r = if b || existsb changed ds then Some ((if b then basket else pre) ++ replaced_all rest ds) else None.
  Proof.
    induction rest as [|(w, i) rest IH]; intros basket n b pre r E B; cbn [fix_all_loop] in E.
    - injection E as <-. exists []. split; [constructor|]. cbn. destruct b; cbn; [now rewrite app_nil_r|reflexivity].
    - destruct (f i) as [[d|]|e|e] eqn:Ei; try discriminate.
      + apply (IH _ _ _ pre) in E; [|discriminate]. destruct E as (ds & A & E). exists (Some d :: ds). split; [constructor; assumption|].
        cbn [orb existsb changed] in *. rewrite orb_true_r. cbn [replaced_all replaced_by fst snd]. rewrite E. f_equal.
        destruct b; cbn [app]; [rewrite <- app_assoc; reflexivity|]. destruct (B eq_refl) as (-> & -> & <-). cbn [app].
        rewrite firstn_app, Nat.sub_diag, firstn_all. cbn [firstn]. rewrite app_nil_r, <- app_assoc. reflexivity.
      + destruct b.
        * apply (IH _ _ _ pre) in E; [|discriminate]. destruct E as (ds & A & E). exists (None :: ds). split; [constructor; assumption|].
          cbn [orb existsb replaced_all replaced_by] in *. rewrite E, <- app_assoc. reflexivity.
        * destruct (B eq_refl) as (-> & -> & <-). apply (IH _ _ _ (pre ++ [(w, i)])) in E.
          -- destruct E as (ds & A & E). exists (None :: ds). split; [constructor; assumption|].
             cbn [orb existsb changed] in *. cbn [replaced_all replaced_by]. rewrite E, <- app_assoc. reflexivity.
          -- intros _. split; [reflexivity|]. split; [now rewrite <- app_assoc|rewrite app_length; cbn; lia].
  Qed.

  Lemma loop_total orig : forall rest basket n b ds, Forall2 (fun h d => f (snd h) = Ok d) rest ds ->
    exists r, fix_all_loop f orig rest basket n b = Ok r.
  Proof.
    induction rest as [|(w, i) rest IH]; intros basket n b ds A; cbn [fix_all_loop].
    - eexists. reflexivity.
    - inversion A; subst. cbn [snd] in *. rewrite H1. destruct y; [eauto|]. destruct b; eauto.
  Qed.

  Lemma loop_bad orig (X : res (option (holdings T))) : (forall a, X <> Ok a) -> forall rest basket n b,
    fix_all_loop f orig rest basket n b = X <->
    exists h : T * instrument T, first_failure (fun h => f (snd h)) rest h /\ f (snd h) = X.
  Proof.
    intros NX. induction rest as [|(w, i) rest IH]; intros basket n b; cbn [fix_all_loop].
    - split; [intros <-; now destruct (NX (if b then Some basket else None))|].
      intros (h & (l1 & l2 & E & _) & _). destruct l1; discriminate.
    - assert (Cs : forall y, f i = Ok y ->
        (exists h : T * instrument T, first_failure (fun h => f (snd h)) ((w, i) :: rest) h /\ f (snd h) = X) <->
        (exists h : T * instrument T, first_failure (fun h => f (snd h)) rest h /\ f (snd h) = X)).
      { intros y Ey. split.
        - intros (h & (l1 & l2 & E & A) & B). destruct l1 as [|h1 l1]; injection E as <- E.
          + cbn [snd] in B. rewrite Ey in B. symmetry in B. now apply NX in B.
          + exists h. split; [|exact B]. exists l1, l2. split; [exact E|]. now inversion A.
        - intros (h & (l1 & l2 & -> & A) & B). exists h. split; [|exact B]. exists ((w, i) :: l1), l2. split; [reflexivity|].
          constructor; [exists y; exact Ey|exact A]. }
      assert (Hd : (forall a, f i <> Ok a) -> forall Y,
        (f i = Y <-> exists h : T * instrument T, first_failure (fun h => f (snd h)) ((w, i) :: rest) h /\ f (snd h) = Y)).
      { intros NY Y. split.
        - intros E. exists (w, i). split; [|exact E]. exists [], rest. split; [reflexivity|constructor].
        - intros (h & (l1 & l2 & E & A) & B). destruct l1 as [|h1 l1]; injection E as E1 E2.
          + subst h. exact B.
          + subst h1. inversion A; subst. destruct H1 as (y & Ey). now apply NY in Ey. }
      destruct (f i) as [[y|]|e|e] eqn:Ei.
      + rewrite (Cs _ eq_refl). apply IH.
      + rewrite (Cs _ eq_refl). destruct b; apply IH.
      + apply Hd. discriminate.
      + apply Hd. discriminate.
  Qed.
End FixAllProof.

Lemma fix_all_ok {T} {N : Num T} (t : fixing_table T) l r : fix_all l t = Ok r <->
  exists ds, Forall2 (fun h d => fix_instrument t (snd h) = Ok d) l ds /\
    r = if existsb changed ds then Some (replaced_all l ds) else None.
Proof.
  unfold fix_all. split.
  - intros E. apply (loop_ok _ _ _ _ _ _ []) in E; [|intros _; auto]. exact E.
  - intros (ds & A & ->). destruct (loop_total _ l l [] 0%nat false ds A) as (r & E). rewrite E.
    apply (loop_ok _ _ _ _ _ _ []) in E; [|intros _; auto]. destruct E as (ds' & A' & ->). cbn [orb app].
    assert (ds = ds') as ->; [|reflexivity].
    clear - A A'. revert ds' A'. induction A; intros ds' A'; inversion A'; subst; [reflexivity|].
    rewrite H in H2. injection H2 as ->. f_equal. auto.
Qed.

Lemma fix_all_bad {T} {N : Num T} (t : fixing_table T) l X : (forall a, X <> Ok a) ->
  (fix_all l t = X <-> exists h : T * instrument T, first_failure (fun h => fix_instrument t (snd h)) l h /\ fix_instrument t (snd h) = X).
Proof. intros NX. apply loop_bad; exact NX. Qed.

Lemma fix_all_none {T} {N : Num T} (t : fixing_table T) l : fix_all l t = Ok None <-> Forall (fun h => unaffected t (snd h)) l.
Proof.
  rewrite fix_all_ok. split.
  - intros (ds & A & E). destruct (existsb changed ds) eqn:X; [discriminate|]. clear E. induction A as [|h d l ds H A IH]; constructor.
    + cbn in X. apply orb_false_iff in X. destruct X as (X & _). destruct d; [discriminate|exact H].
    + apply IH. cbn in X. now apply orb_false_iff in X.
  - intros A. exists (map (fun _ => None) l). split.
    + induction A; constructor; assumption.
    + replace (existsb changed (map (fun _ : T * instrument T => None) l)) with false; [reflexivity|]. induction l; [reflexivity|]. cbn. apply IHl. now inversion A.
Qed.

Lemma fix_basket {T} {N : Num T} (t : fixing_table T) id cr cur s ms :
  fix_instrument t (IBasket id cr cur s ms) =
  match fix_all ms t with
  | Ok (Some ms') => Ok (Some [(n1, IBasket (id ++ ":fixed") cr cur s ms')])
  | r => r
  end.
Proof. cbn [fix_instrument]. fold (fix_all ms t). unfold fix_all. destruct (fix_all_loop _ _ _ _ _ _) as [[l|]|e|e]; reflexivity. Qed.

(** ** Sums of values *)
Section Sums.
  Context {I : Type} (val : I -> R -> Prop).

  Lemma adds_app l l' x y : adds_up val l x -> adds_up val l' y -> adds_up val (l ++ l') (x + y).
  Proof.
    intros A B. induction A; cbn [app].
    - now rewrite Rplus_0_l.
    - rewrite Rplus_assoc. now constructor.
  Qed.

  Lemma adds_app_inv l l' z : adds_up val (l ++ l') z -> exists x y, adds_up val l x /\ adds_up val l' y /\ z = x + y.
  Proof.
    revert z. induction l as [|(w, i) l IH]; intros z A; cbn [app] in A.
    - exists 0, z. split; [constructor|]. split; [exact A|lra].
    - inversion A; subst. destruct (IH _ H4) as (x' & y' & X & Y & ->). exists (w * x + x'), y'. split; [now constructor|].
      split; [exact Y|lra].
  Qed.

  Lemma adds_scale w l x : adds_up val l x -> adds_up val (map (fun h => (w * fst h, snd h)) l) (w * x).
  Proof.
    intros A. induction A; cbn [map fst snd].
    - rewrite Rmult_0_r. constructor.
    - replace (w * (w0 * x + y)) with (w * w0 * x + w * y) by lra. now constructor.
  Qed.

  Lemma adds_one i x : val i x -> adds_up val [(1, i)] x.
  Proof. intros V. replace x with (1 * x + 0) by lra. now constructor; [|constructor]. Qed.
End Sums.

Lemma adds_replaced (val : instrument R -> R -> Prop) l ds x : Forall2 (fun h d => forall y, val (snd h) y ->
    match d with None => True | Some e => adds_up val e y end) l ds ->
  adds_up val l x -> adds_up val (replaced_all l ds) x.
Proof.
  intros A. revert x. induction A as [|(w, i) d l ds H A IH]; intros x B; [exact B|]. inversion B; subst. cbn [replaced_all].
  apply adds_app; [|now apply IH]. cbn [snd] in H. match goal with V : val i _ |- _ => specialize (H _ V) end. destruct d; cbn [replaced_by fst snd].
  - now apply (adds_scale val w) in H.
  - match goal with |- adds_up _ _ ?z => replace z with (z + 0) by lra end. constructor; [assumption|constructor].
Qed.

(** A valuation that values baskets by their members, and options like what the table turns them into. *)
Definition respects (t : fixing_table R) (val : instrument R -> R -> Prop) : Prop :=
  (forall id cr cur s ms x, val (IBasket id cr cur s ms) x <-> adds_up val ms x) /\
  (forall v k d x, fix_instrument t (ISpotEuropean v k) = Ok (Some d) -> val (ISpotEuropean v k) x -> adds_up val d x) /\
  (forall v f d0 x0 d x, fix_instrument t (IForwardEuropean v f d0 x0) = Ok (Some d) -> val (IForwardEuropean v f d0 x0) x -> adds_up val d x).

(** Fixing preserves every valuation that respects the table, through baskets at any depth. *)
Lemma fix_value t val : respects t val -> forall i d x, fix_instrument t i = Ok (Some d) -> val i x -> adds_up val d x.
Proof.
  intros (RB & RS & RF) i. induction i as [c|id cur s|id cr cur s|id cr cur ex pay s|id cr cur s ms IH|v k IH|v f d0 x0 IH] using instrument_nested_ind;
    intros d x E V; try discriminate E.
  - rewrite fix_basket in E. destruct (fix_all ms t) as [[ms'|]|e|e] eqn:A; try discriminate. injection E as <-.
    apply fix_all_ok in A. destruct A as (ds & A & Q). destruct (existsb changed ds); [|discriminate]. injection Q as ->.
    apply adds_one. apply RB. apply RB in V. apply adds_replaced; [|exact V].
    clear V. induction A as [|h d l ds H A IHA]; constructor.
    + intros y Vy. destruct d; [|exact I]. inversion IH; subst. eauto.
    + apply IHA. now inversion IH.
  - eapply RS; eauto.
  - eapply RF; eauto.
Qed.

Lemma fix_all_value t val : respects t val -> forall l l' x, fix_all l t = Ok (Some l') -> adds_up val l x -> adds_up val l' x.
Proof.
  intros RT l l' x E A. apply fix_all_ok in E. destruct E as (ds & F & Q). destruct (existsb changed ds); [|discriminate].
  injection Q as ->. apply adds_replaced; [|exact A]. clear A. induction F; constructor; [|assumption].
  intros z V. destruct y; [|exact I]. eapply fix_value; eauto.
Qed.

(** ** Fixing twice *)
Lemma payment_unaffected {T} {N : Num T} (t : fixing_table T) v : unaffected t (payment_of v).
Proof. reflexivity. Qed.

Lemma fix_spot_members {T} {N : Num T} (t : fixing_table T) v k d : fix_spot_european t v k = Ok (Some d) ->
  Forall (fun h => snd h = payment_of v \/ snd h = van_underlying v) d.
Proof.
  unfold fix_spot_european. intros E. inv_bind E. destruct a as [x|]; [|discriminate]. injection E as <-.
  destruct (van_cash_or_physical v); (match goal with |- context [nltb ?a ?b] => destruct (nltb a b) end); repeat (apply Forall_cons || apply Forall_nil); cbn; auto.
Qed.

Lemma replaced_members {T} {N : Num T} (Q : instrument T -> Prop) l ds : Forall2 (fun (h : T * instrument T) (d : option (holdings T)) =>
    match d with None => Q (snd h) | Some e => Forall (fun h => Q (snd h)) e end) l ds ->
  Forall (fun h => Q (snd h)) (replaced_all l ds).
Proof.
  intros A. induction A as [|h d l ds H A IH]; [constructor|]. cbn [replaced_all]. apply Forall_app. split; [|exact IH].
  destruct d as [e|]; cbn [replaced_by]; [|repeat constructor; exact H]. apply Forall_map. exact H.
Qed.

Lemma fix_twice {T} {N : Num T} (t : fixing_table T) i d : plain_underlyings t i -> fix_instrument t i = Ok (Some d) -> Forall (fun h => unaffected t (snd h)) d.
Proof.
  intros U. revert d. induction i as [c|id cur s|id cr cur s|id cr cur ex pay s|id cr cur s ms IH|v k IH|v f d0 x0 IH] using instrument_nested_ind;
    intros d E; try discriminate E.
  - inversion U; subst. rewrite fix_basket in E. destruct (fix_all ms t) as [[ms'|]|e|e] eqn:A; try discriminate. injection E as <-.
    repeat constructor. cbn [snd]. unfold unaffected. rewrite fix_basket.
    assert (X : fix_all ms' t = Ok None); [|now rewrite X].
    apply fix_all_none. apply fix_all_ok in A. destruct A as (ds & A & Q). destruct (existsb changed ds); [|discriminate]. injection Q as ->.
    apply replaced_members. clear U. induction A as [|h d l ds H A IHA]; constructor; inversion IH; inversion H0; subst; auto.
    destruct d; [eauto|exact H].
  - inversion U; subst. cbn [fix_instrument] in E. apply fix_spot_members in E. eapply Forall_impl; [|exact E].
    cbn beta. intros h [Hh|Hh]; rewrite Hh; [apply payment_unaffected|assumption].
  - inversion U; subst. cbn [fix_instrument] in E. unfold fix_forward_european in E. inv_bind E.
    destruct a as [x|]; [|discriminate]. inv_bind E. destruct a as [l|].
    + injection E as <-. apply fix_spot_members in E1. eapply Forall_impl; [|exact E1].
      cbn beta. intros h [Hh|Hh]; rewrite Hh; [apply payment_unaffected|assumption].
    + injection E as <-. repeat constructor. exact E1.
Qed.

Lemma fix_all_twice {T} {N : Num T} (t : fixing_table T) l l' : Forall (fun h => plain_underlyings t (snd h)) l -> fix_all l t = Ok (Some l') -> fix_all l' t = Ok None.
Proof.
  intros U A. apply fix_all_none. apply fix_all_ok in A. destruct A as (ds & A & Q). destruct (existsb changed ds); [|discriminate].
  injection Q as ->. apply replaced_members. induction A as [|h d l ds H A IHA]; constructor; inversion U; subst; auto.
  destruct d; [eapply fix_twice; eauto|exact H].
Qed.

(** ** What things are finally worth *)
Section Worth.
  Variables (fx : string -> datetime -> R) (now : string -> R) (t : fixing_table R).
  Hypothesis TR : truthful fx t.

  Lemma adds_impl (v1 v2 : instrument R -> R -> Prop) l x : (forall i y, v1 i y -> v2 i y) -> adds_up v1 l x -> adds_up v2 l x.
  Proof. intros A B. induction B; constructor; auto. Qed.

  Lemma get_fixing_some id dt x : get_fixing t id dt = Ok (Some x) -> x = fx id dt.
  Proof.
    unfold get_fixing. intros E. destruct (get_optional t id dt) eqn:G; [injection E as ->; now apply TR|].
    destruct (_ <? _)%Z; discriminate.
  Qed.

  Lemma worth_fixed v k d x : x = fx (instrument_id (van_underlying v)) (van_expiry v) ->
    (van_cash_or_physical v = PhysicalSettled -> worth fx now (van_underlying v) x) ->
    fix_spot_european t v k = Ok (Some d) -> adds_up (worth fx now) d (payoff (van_put_or_call v) x k).
  Proof.
    intros -> U E. set (x := fx _ _) in *.
    assert (G : get_optional t (instrument_id (van_underlying v)) (van_expiry v) = Some x).
    { pose proof E as E'. unfold fix_spot_european in E'. destruct (get_fixing t _ _) as [[y|]|e|e] eqn:G; try discriminate.
      pose proof (get_fixing_some _ _ _ G) as ->. unfold get_fixing in G. destruct (get_optional t _ _); [now injection G as ->|].
      destruct (_ <? _)%Z; discriminate. }
    destruct (fix_settles t v k x G) as (d' & E' & A). cbn [fix_instrument] in E'. rewrite E in E'. injection E' as <-.
    destruct (van_cash_or_physical v) eqn:C.
    - pose proof (fix_cash t v k x G C) as E'. cbn [fix_instrument] in E'. rewrite E in E'. injection E' as ->.
      destruct (Rltb_spec 0 (payoff (van_put_or_call v) x k)).
      + clear A. set (p := payoff _ _ _) in *. assert (Q : adds_up (worth fx now) [(p, payment_of v)] (p * 1 + 0)) by (constructor; constructor).
        now rewrite Rmult_1_r, Rplus_0_r in Q.
      + inversion A; subst. constructor.
    - refine (adds_impl _ _ _ _ _ A). intros i y [((id & cur & ->) & ->)|(-> & ->)]; [constructor|auto].
  Qed.

  Lemma worth_respects : respects t (worth fx now).
  Proof.
    repeat split.
    - intros W. now inversion W.
    - intros A. now constructor.
    - intros v k d x E W. inversion W; subst. eapply worth_fixed; eauto.
    - intros v f d0 x0 d x E W. inversion W; subst. cbn [fix_instrument] in E. unfold fix_forward_european in E.
      destruct (get_fixing t _ d0) as [[y|]|e|e] eqn:G; try discriminate. cbn [bind] in E.
      apply get_fixing_some in G. rnum. rewrite <- G, (Rmult_comm f y).
      destruct (fix_spot_european t v (y * f)) as [[l|]|e|e] eqn:E2; try discriminate.
      + injection E as <-. eapply worth_fixed; eauto.
      + injection E as <-. apply adds_one. now constructor.
  Qed.

  Lemma fix_worth l l' x : adds_up (worth fx now) l x -> fix_all l t = Ok (Some l') -> adds_up (worth fx now) l' x.
  Proof. intros A E. exact (fix_all_value t _ worth_respects l l' x E A). Qed.
End Worth.
