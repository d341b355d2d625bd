(** Pricing against what was declared. *)
From Coq Require Import ZArith List String Bool Lia Reals Lra.
From Verif Require Import Prelude Num M_Dates M_Calendar M_Interp M_Curves M_Fixings M_Forward M_Vol M_Instruments M_Deps
  S_Vol S_Instruments S_Deps L_Num L_Curves L_Vol L_VolTime L_VolCases L_Instruments L_Pricing L_Deps L_InstrumentCases.
Import ListNotations.
Open Scope list_scope.
Open Scope R_scope.

Lemma same_incl {T} (l l' : list (ask T)) c1 c2 : incl l l' -> same_answers l' c1 c2 -> same_answers l c1 c2.
Proof. intros I [A B C D E]. constructor; eauto. Qed.

Section Same.
  Context {T : Type} {N : Num T} {TR : Trans T}.
  Variables (nan : T) (cdf : T -> T) (c1 c2 : pricing_context T).

  Lemma basket_loop_ext f g ms : Forall (fun h => f (snd h) = g (snd h)) ms -> forall out : list T, basket_loop f ms out = basket_loop g ms out.
  Proof.
    intros A. induction A as [|(w, i) ms H A IH]; intros out; [reflexivity|]. cbn [basket_loop]. cbn [snd] in H. rewrite H.
    destruct (g i); auto.
  Qed.

  Lemma simple_same eq i : simple eq i -> forall today l dates, declares today i l -> same_answers (l ++ its_spot i) c1 c2 ->
    (eq = true -> exists d, dates = [d] /\ dt_date d = ctx_spot_date c1) ->
    prices nan cdf c1 i dates = prices nan cdf c2 i dates.
  Proof.
    intros S. induction i as [c|id cur s|id cr cur s|id cr cur ex pay s|id cr cur s ms IH|v k IH|v f d0 x0 IH] using instrument_nested_ind;
      intros today l dates D SA EQ; try reflexivity; try (inversion S; fail).
    - inversion S; subst. destruct (EQ eq_refl) as (d & -> & E). cbn [prices]. destruct SA as [S1 _ S3 _ _]. rewrite <- S1, E, Z.eqb_refl.
      assert (Q : ctx_spot c1 id = ctx_spot c2 id); [|now rewrite Q].
      apply (S3 (IEquity id cr cur s)). apply in_or_app. right. now left.
    - inversion D; subst. cbn [prices]. assert (Q : ctx_yield_curve c1 cr pay = ctx_yield_curve c2 cr pay); [|now rewrite Q].
      destruct SA as [_ S2 _ _ _]. apply (S2 cr pay pay); [|lia]. now left.
    - inversion S; subst. inversion D; subst. cbn [prices]. apply basket_loop_ext. unfold its_spot in SA. cbn [has_a_spot] in SA. rewrite app_nil_r in SA.
      match goal with A : declares_all _ _ _ |- _ => rename A into DA end. clear D S. revert l DA SA.
      induction IH as [|(w, u) ms H IH IHl]; intros l DA SA; constructor.
      + inversion DA; subst. cbn [snd] in *. match goal with A : Forall _ (_ :: _) |- _ => inversion A; subst end.
        eapply H; eauto. eapply same_incl; [|exact SA]. unfold its_spot. destruct (has_a_spot u); rewrite ?app_nil_r; intros a I.
        * apply in_or_app. left. apply in_or_app. right. exact I.
        * apply in_or_app. now left.
      + inversion DA; subst. match goal with A : Forall _ (_ :: _) |- _ => inversion A; subst end.
        eapply IHl; eauto. eapply same_incl; [|exact SA]. intros a I. apply in_or_app. now right.
  Qed.

  (** Options on an equity: the curve of the underlying's credit must be declared to the payment date as well. *)
  Section OnEquity.
    Variables (v : vanilla T) (own : list (ask T)) (id cr : string) (cur : currency T) (s : date_rule T).
    Hypothesis U : van_underlying v = IEquity id cr cur s.
    Hypothesis SA : same_answers (Discount cr (van_pay_date v) :: option_asks v own) c1 c2.

    Lemma asks_forward : In (ForwardOf (van_underlying v) (dt_date (van_expiry v))) (Discount cr (van_pay_date v) :: option_asks v own).
    Proof. unfold option_asks, its_forward. do 4 right. now left. Qed.
    Lemma asks_vol : In (VolOf (van_underlying v) (dt_date (van_expiry v))) (Discount cr (van_pay_date v) :: option_asks v own).
    Proof. unfold option_asks. right. apply in_or_app. right. apply in_or_app. right. now left. Qed.
    Lemma asks_spot : In (SpotOf (van_underlying v)) (Discount cr (van_pay_date v) :: option_asks v own).
    Proof.
      unfold option_asks, its_forward, its_spot. rewrite U. right. apply in_or_app. right. apply in_or_app. left. apply in_or_app. right.
      apply in_or_app. right. now left.
    Qed.

    Lemma same_vanilla dates from sf : vanilla_prices nan cdf c1 v dates from sf = vanilla_prices nan cdf c2 v dates from sf.
    Proof.
      unfold vanilla_prices. destruct dates as [|d dates]; [reflexivity|]. destruct SA as [S1 S2 S3 S4 S5].
      assert (C : credit_id (van_underlying v) = cr) by (rewrite U; reflexivity).
      rewrite C, (S2 cr (van_pay_date v) (van_pay_date v)) by (try lia; now left).
      rewrite (S4 _ _ _ asks_forward (Z.le_refl _)). now rewrite (S5 _ _ _ _ asks_vol (Z.le_refl _)).
    Qed.

    Lemma same_expiry : prices nan cdf c1 (van_underlying v) [van_expiry v] = prices nan cdf c2 (van_underlying v) [van_expiry v].
    Proof.
      pose proof asks_spot as AS. pose proof asks_forward as AF. destruct SA as [S1 S2 S3 S4 S5].
      pose proof (S3 _ AS) as Q3. pose proof (S4 _ _ _ AF (Z.le_refl _)) as Q4. rewrite U in *. cbn [prices instrument_id last] in *.
      rewrite <- S1. now rewrite Q3, Q4.
    Qed.

    Lemma same_two d0 : prices nan cdf c1 (van_underlying v) [d0; van_expiry v] = prices nan cdf c2 (van_underlying v) [d0; van_expiry v].
    Proof.
      pose proof asks_forward as AF. destruct SA as [S1 S2 S3 S4 S5].
      pose proof (S4 _ _ _ AF (Z.le_refl _)) as Q4. rewrite U in *. cbn [prices last] in *. now rewrite Q4.
    Qed.

    Lemma option_same i dates : (exists k, i = ISpotEuropean v k) \/ (exists f d0 x0, i = IForwardEuropean v f d0 x0) ->
      prices nan cdf c1 i dates = prices nan cdf c2 i dates.
    Proof.
      intros [(k & ->)|(f & d0 & x0 & ->)]; cbn [prices].
      - rewrite same_vanilla, same_expiry. reflexivity.
      - rewrite same_two, (sa_date _ _ _ SA). destruct (_ <? _)%Z; [reflexivity|]. apply same_vanilla.
    Qed.
  End OnEquity.

  (** The option's own credit is never looked at. *)
  Lemma own_credit_unused v cr k dates :
    prices nan cdf c1 (ISpotEuropean (with_credit cr v) k) dates = prices nan cdf c1 (ISpotEuropean v k) dates.
  Proof. reflexivity. Qed.

  Lemma own_credit_unused_forward v cr f d0 x0 dates :
    prices nan cdf c1 (IForwardEuropean (with_credit cr v) f d0 x0) dates = prices nan cdf c1 (IForwardEuropean v f d0 x0) dates.
  Proof. reflexivity. Qed.
End Same.

(** ** What options ask for without saying so *)

Definition two_days : date_rule R := BusinessDays EveryDay 2 true.
Definition late_option : vanilla R :=
  mkVanilla "OPT" "OPT-CR" stock two_days (mkDT 365%Z Open_) Call CashSettled (mkDDF 365%Z 0) 367%Z.
Definition flat_vol : vol_surface R := FlatVolSurface (/ 5) EveryDay (mkDDF 0%Z 0).

Lemma late_option_new : spot_european_new "OPT" "OPT-CR" stock two_days (mkDT 365%Z Open_) 100 Call CashSettled = Ok (ISpotEuropean late_option 100).
Proof.
  unfold spot_european_new, vanilla_new. rnum. destruct (Rltb_spec 100 0); [lra|].
  change (apply_rule two_days (dt_date (mkDT 365%Z Open_))) with (@Ok date 367%Z). cbn [bind]. rewrite stock_time. reflexivity.
Qed.

Lemma flat_vol_year nan k : variance nan flat_vol (mkDDF 365%Z 0) k = Ok (1 * (/ 5) ^ 2).
Proof.
  apply variance_real. unfold volatility_is, flat_vol. cbn [volatilities map]. rewrite every_years by (cbn; lia). cbn [bind].
  do 2 f_equal. cbn [ddf_date ddf_frac]. replace (IZR (365 - 0)) with 365 by reflexivity. field.
Qed.

(** A context with everything, and the same one without the curves of one credit after one date. *)
Definition full : pricing_context R := market (ZeroRateCurve 0%Z) 100 (DriftlessForward 100) flat_vol.
Definition without_curve (credit : string) (after : date) : pricing_context R :=
  mkContext 0%Z (fun cr d => if String.eqb cr credit && (after <? d)%Z then Err "not fetched" else Ok (ZeroRateCurve 0%Z))
    (fun _ => Ok 100) (fun _ _ => Ok (DriftlessForward 100)) (fun _ _ _ => Ok flat_vol).
Definition without_forward (id : string) : pricing_context R :=
  mkContext 0%Z (fun _ _ => Ok (ZeroRateCurve 0%Z))
    (fun _ => Ok 100) (fun u _ => if String.eqb (instrument_id u) id then Err "not fetched" else Ok (DriftlessForward 100)) (fun _ _ _ => Ok flat_vol).

Lemma priced_in_full nan cdf : exists x, price nan cdf full (ISpotEuropean late_option 100) (mkDT 0%Z Open_) = Ok x.
Proof.
  eexists. apply (option_price nan cdf full late_option) with (F := 100) (disp := 0) (x := 1 * (/ 5) ^ 2)
    (tm := mkDDF 0%Z 0) (vol := flat_vol) (yc := ZeroRateCurve 0%Z) (st := 2%Z); try reflexivity; try apply zero_rt; try lra.
  - apply stock_time.
  - apply leb_same.
  - right. reflexivity.
  - apply flat_vol_year.
Qed.

Lemma undeclared_curve nan cdf : exists i l c1 c2 x e,
  spot_european_new "OPT" "OPT-CR" stock two_days (mkDT 365%Z Open_) 100 Call CashSettled = Ok i /\
  declares (ctx_spot_date c1) i l /\ same_answers l c1 c2 /\
  price nan cdf c1 i (mkDT 0%Z Open_) = Ok x /\ price nan cdf c2 i (mkDT 0%Z Open_) = Err e.
Proof.
  destruct (priced_in_full nan cdf) as (x & X).
  exists (ISpotEuropean late_option 100), (option_asks late_option [Discount "BP-CR" 0%Z]), full, (without_curve "BP-CR" 365%Z), x, "not fetched"%string.
  split; [exact late_option_new|]. split; [constructor; constructor; reflexivity|]. split; [|split; [exact X|reflexivity]].
  constructor; try reflexivity. intros cr d e I L. cbn [ctx_yield_curve full market without_curve].
  destruct (String.eqb_spec cr "BP-CR") as [->|]; [|reflexivity]. cbn [andb]. destruct (Z.ltb_spec 365 e); [|reflexivity].
  cbn in I. intuition; try discriminate; inversion H0; subst; lia.
Qed.

(** On a basket, the forwards of the members are asked for as well. *)
Definition pair : instrument R := IBasket "PAIR" "PAIR-CR" usd NullRule [(1, stock)].
Definition pair_option : vanilla R :=
  mkVanilla "OPT" "PAIR-CR" pair NullRule (mkDT 365%Z Open_) Call CashSettled (mkDDF 365%Z 0) 365%Z.

Lemma pair_time d : time_to_day_fraction pair (mkDT d Open_) = Ok (mkDDF d 0).
Proof. cbn [time_to_day_fraction pair dt_date dt_tod]. rnum. apply ddf_new_zero. Qed.

Lemma pair_option_new : spot_european_new "OPT" "PAIR-CR" pair NullRule (mkDT 365%Z Open_) 100 Call CashSettled = Ok (ISpotEuropean pair_option 100).
Proof.
  unfold spot_european_new, vanilla_new. rnum. destruct (Rltb_spec 100 0); [lra|]. cbn [apply_rule bind dt_date]. rewrite pair_time. reflexivity.
Qed.

Lemma pair_in_full nan cdf : exists x, price nan cdf full (ISpotEuropean pair_option 100) (mkDT 0%Z Open_) = Ok x.
Proof.
  eexists. apply (option_price nan cdf full pair_option) with (F := 0 + 100 * 1) (disp := 0) (x := 1 * (/ 5) ^ 2)
    (tm := mkDDF 0%Z 0) (vol := flat_vol) (yc := ZeroRateCurve 0%Z) (st := 0%Z); try reflexivity; try apply zero_rt; try lra.
  - apply pair_time.
  - apply leb_same.
  - right. reflexivity.
  - apply flat_vol_year.
Qed.

Lemma undeclared_forward nan cdf : exists i l c1 c2 x e,
  spot_european_new "OPT" "PAIR-CR" pair NullRule (mkDT 365%Z Open_) 100 Call CashSettled = Ok i /\
  declares (ctx_spot_date c1) i l /\ same_answers l c1 c2 /\
  (forall cr d, ctx_yield_curve c1 cr d = ctx_yield_curve c2 cr d) /\
  price nan cdf c1 i (mkDT 0%Z Open_) = Ok x /\ price nan cdf c2 i (mkDT 0%Z Open_) = Err e.
Proof.
  destruct (pair_in_full nan cdf) as (x & X).
  exists (ISpotEuropean pair_option 100), (option_asks pair_option ([Discount "BP-CR" 0%Z] ++ [Discount "BP-CR" 0%Z] ++ [SpotOf stock])),
    full, (without_forward "BP"), x, "not fetched"%string.
  split; [exact pair_option_new|]. split.
  { constructor. cbn [van_underlying pair_option pair]. constructor.
    pose proof (dec_cons 0%Z 1 stock [] [Discount "BP-CR" 0%Z] [] (dec_equity 0%Z "BP" "BP-CR" usd NullRule 0%Z eq_refl) (dec_nil _)) as Q.
    cbn [has_a_spot stock] in Q. rewrite app_nil_r in Q. exact Q. }
  split; [|split; [reflexivity|split; [exact X|reflexivity]]].
  constructor; try reflexivity. intros u d e I L. cbn [ctx_forward_curve full market without_forward].
  destruct (String.eqb_spec (instrument_id u) "BP") as [E|]; [|reflexivity].
  cbn in I. repeat (destruct I as [I|I]; [inversion I; subst; discriminate E|]). destruct I.
Qed.

(** An equity on another day than the spot date asks for a forward it never declares. *)
Lemma undeclared_equity nan cdf : exists l c1 c2 x e,
  declares (ctx_spot_date c1) stock l /\ same_answers (l ++ its_spot stock) c1 c2 /\
  price nan cdf c1 stock (mkDT 5%Z Open_) = Ok x /\ price nan cdf c2 stock (mkDT 5%Z Open_) = Err e.
Proof.
  exists [Discount "BP-CR" 0%Z], full, (without_forward "BP"), 100, "not fetched"%string. split; [constructor; reflexivity|].
  split; [|split; reflexivity]. constructor; try reflexivity. intros u d e I. cbn in I. intuition discriminate.
Qed.
