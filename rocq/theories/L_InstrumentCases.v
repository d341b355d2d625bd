(** Worked instruments: concrete cases and counterexamples. *)
From Coq Require Import ZArith List String Bool Lia Reals Lra.
From Verif Require Import Prelude Num M_Dates M_Search M_Calendar M_Interp M_Curves M_Fixings M_Forward M_Vol M_Black76 M_Instruments
  S_Vol S_Instruments L_Num L_Curves L_Vol L_VolTime L_VolPillars L_VolCases L_Instruments L_Pricing.
Import ListNotations.
Open Scope list_scope.
Open Scope R_scope.

Definition usd : currency R := mkCurrency "USD" NullRule.
Definition stock : instrument R := IEquity "BP" "BP-CR" usd NullRule.
Definition option_on (u : instrument R) (expiry : Z) (pc : put_or_call) (cp : option_settlement) : vanilla R :=
  mkVanilla "OPT" "OPT-CR" u NullRule (mkDT expiry Open_) pc cp (mkDDF expiry 0) expiry.

(** One curve, forward and surface for everything, seen from day 0. *)
Definition market (yc : curve R) (spot : R) (fwd : forward R) (vol : vol_surface R) : pricing_context R :=
  mkContext 0%Z (fun _ _ => Ok yc) (fun _ => Ok spot) (fun _ _ => Ok fwd) (fun _ _ _ => Ok vol).

Lemma ddf_new_zero d : ddf_new d (0 : R) = Ok (mkDDF d 0).
Proof.
  unfold ddf_new. rnum. destruct (Rleb_spec 0 0); [|lra]. destruct (Rltb_spec 0 1); [|lra]. reflexivity.
Qed.

Lemma stock_time d : time_to_day_fraction stock (mkDT d Open_) = Ok (mkDDF d 0).
Proof. cbn [time_to_day_fraction stock dt_date dt_tod]. rnum. apply ddf_new_zero. Qed.

Lemma option_on_new d pc cp : vanilla_new "OPT" "OPT-CR" stock NullRule (mkDT d Open_) pc cp = Ok (option_on stock d pc cp).
Proof. unfold vanilla_new. cbn [apply_rule bind]. rewrite stock_time. reflexivity. Qed.

Lemma leb_same (a : ddf R) : ddf_leb a a = true.
Proof. unfold ddf_leb, ddf_cmp. rewrite Z.compare_refl. rnum. destruct (Rltb_spec (ddf_frac a) (ddf_frac a)); [lra|reflexivity]. Qed.

(** An option priced on the day its surface starts. *)
Lemma option_price nan cdf c v k d tm F vol x disp yc st u r :
  first_price (prices nan cdf c (van_underlying v) [van_expiry v]) = Ok F ->
  ctx_yield_curve c (credit_id (van_underlying v)) (van_pay_date v) = Ok yc ->
  ctx_vol_surface c (van_underlying v) (dt_date (van_expiry v)) (ctx_forward_curve c (van_underlying v) (dt_date (van_expiry v))) = Ok vol ->
  rt nan yc (van_pay_date v) = Ok u -> displacement nan vol (dt_date (van_expiry v)) = Ok disp -> 0 <= F - disp ->
  dt_leb d (van_expiry v) = true -> apply_rule (van_settlement v) (dt_date d) = Ok st -> rt nan yc st = Ok r ->
  time_to_day_fraction (van_underlying v) d = Ok tm -> ddf_leb (mkDDF from_nil 0) tm = true -> upto tm (vs_base vol) ->
  variance nan vol (van_expiry_time v) k = Ok x -> 0 <= x ->
  price nan cdf c (ISpotEuropean v k) d =
  Ok (match van_put_or_call v with
      | Call => call_price cdf (exp (- u) * exp r) (F - disp) (k + disp) (sqrt x)
      | Put => put_price cdf (exp (- u) * exp r) (F - disp) (k + disp) (sqrt x)
      end).
Proof.
  intros F1 Y V U DI P L ST RT TT NIL B VAR X.
  assert (E : prices nan cdf c (ISpotEuropean v k) [d] =
    Ok [match van_put_or_call v with
      | Call => call_price cdf (exp (- u) * exp r) (F - disp) (k + disp) (sqrt x)
      | Put => put_price cdf (exp (- u) * exp r) (F - disp) (k + disp) (sqrt x)
      end]).
  { cbn [prices]. apply vanilla_open; [discriminate|]. exists yc, vol, k, F, u, disp. split.
    - constructor; try assumption. rewrite F1. reflexivity.
    - apply mapM_one. unfold vanilla_price. rewrite L, ST. cbn [bind]. rewrite RT. cbn [bind]. rewrite TT. cbn [bind].
      rnum. rewrite NIL. rewrite forward_variance_started by exact B. rewrite VAR. cbn [bind]. unfold guard.
      destruct (Rltb_spec x 0); [lra|]. cbn [negb bind]. destruct (van_put_or_call v); reflexivity. }
  unfold price. rewrite E. reflexivity.
Qed.

Lemma zero_rt nan d : rt nan (ZeroRateCurve 0%Z) d = Ok (0 : R).
Proof. unfold rt. cbn [r_and_t bind]. rnum. f_equal. lra. Qed.

(** Any surface that knows the variance from its base date on prices any option on the stock. *)
Lemma market_price nan cdf spot F vol pc cp k d x disp : vs_base vol = mkDDF 0%Z 0 -> variance nan vol (mkDDF d 0) k = Ok x -> 0 <= x ->
  (0 < d)%Z -> displacement nan vol d = Ok disp -> 0 <= F - disp ->
  price nan cdf (market (ZeroRateCurve 0%Z) spot (DriftlessForward F) vol) (ISpotEuropean (option_on stock d pc cp) k) (mkDT 0%Z Open_) =
  Ok (match pc with Call => call_price cdf 1 (F - disp) (k + disp) (sqrt x) | Put => put_price cdf 1 (F - disp) (k + disp) (sqrt x) end).
Proof.
  intros B V X D DI P. replace 1 with (exp (- 0) * exp 0) by (rewrite <- exp_plus, <- exp_0; f_equal; lra).
  apply (option_price nan cdf (market (ZeroRateCurve 0%Z) spot (DriftlessForward F) vol) (option_on stock d pc cp)) with
    (tm := mkDDF 0%Z 0) (vol := vol) (yc := ZeroRateCurve 0%Z) (st := 0%Z); try reflexivity; try assumption; try apply zero_rt.
  - unfold first_price. cbn [prices stock option_on van_underlying van_expiry market ctx_spot_date dt_date].
    destruct (Z.eqb_spec d 0); [lia|]. reflexivity.
  - unfold dt_leb, dt_ltb. cbn [option_on van_expiry dt_date dt_tod]. destruct (Z.ltb_spec d 0); [lia|].
    destruct (Z.eqb_spec d 0); [lia|]. reflexivity.
  - apply stock_time.
  - apply leb_same.
  - right. now rewrite B.
Qed.

(** A surface that subtracts fixed dividends of five. *)
Definition five : linear R date := mkLinear Flat Flat [(0%Z, 5)].

Lemma five_at nan d : linear_at nan five d = Ok 5.
Proof.
  unfold linear_at, linear_interpolate_extrapolate, binary_search_by. cbn -[Z.compare]. destruct (0 ?= d)%Z; reflexivity.
Qed.

Lemma divs_surface nan : exists v, vbp_new nan (term (/ 5) (/ 5)) EveryDay (year_end 0) level five FixedDivs = Ok v.
Proof.
  apply new_iff. split; [discriminate|]. exists [1 * (/ 5) ^ 2; 2 * (/ 5) ^ 2]. destruct (term_pillars nan (/ 5) (/ 5)) as (P & Q). split.
  - constructor; [exists 100, (/ 5), 1; auto|]. constructor; [exists 100, (/ 5), 2; auto|constructor].
  - cbn [rising]. split; [lra|]. split; [lra|exact I].
Qed.

Lemma vbp_new_fields (nan : R) smiles cal base fwd divs da v : vbp_new nan smiles cal base fwd divs da = Ok v ->
  vbp_base v = base /\ vbp_fixed_divs v = divs /\ vbp_assumptions v = da.
Proof.
  unfold vbp_new. destruct smiles; [discriminate|]. destruct (foldM _ _ _) as [(acc, ((fs, ss), ts))|e|e]; try discriminate.
  cbn [bind]. intros E. injection E as <-. auto.
Qed.

(** With fixed dividends, put-call parity on the true forward fails. *)
Lemma parity_fails nan cdf : (forall x, cdf (- x) = 1 - cdf x) -> exists c v k F x y,
  (forall d, price nan cdf c (van_underlying v) (mkDT d Open_) = Ok F) /\
  (forall cr d, ctx_yield_curve c cr d = Ok (ZeroRateCurve 0%Z)) /\
  price nan cdf c (ISpotEuropean (as_kind Call v) k) (mkDT 0%Z Open_) = Ok x /\
  price nan cdf c (ISpotEuropean (as_kind Put v) k) (mkDT 0%Z Open_) = Ok y /\ x - y = (F - k) - 10 /\ F = 100 /\ k = 90.
Proof.
  intros sym. destruct (divs_surface nan) as (s & E). destruct (vbp_new_fields _ _ _ _ _ _ _ _ E) as (B & DV & DA).
  exists (market (ZeroRateCurve 0%Z) 100 (DriftlessForward 100) (VolByProbability s)), (option_on stock 365%Z Call CashSettled), 90, 100.
  assert (V : variance nan (VolByProbability s) (mkDDF 365%Z 0) 90 = Ok (1 * (/ 5) ^ 2)).
  { apply variance_real. destruct (term_pillars nan (/ 5) (/ 5)) as (P & Q).
    refine (at_pillar nan EveryDay (year_end 0) level _ five FixedDivs s E (term_ordered _ _) (year_end 1, FlatSmile (/ 5)) 100 (/ 5) 1 90 (/ 5) _ P _).
    - now left.
    - reflexivity. }
  assert (DI : displacement nan (VolByProbability s) 365%Z = Ok 5).
  { cbn [displacement]. rewrite DA, DV. apply five_at. }
  assert (PR : forall pc, price nan cdf (market (ZeroRateCurve 0%Z) 100 (DriftlessForward 100) (VolByProbability s))
      (ISpotEuropean (option_on stock 365%Z pc CashSettled) 90) (mkDT 0%Z Open_) = _) by
    (intros pc; apply market_price with (1 := B) (2 := V) (disp := 5); [lra|lia|exact DI|lra]).
  do 2 eexists. split; [|split; [reflexivity|split; [exact (PR Call)|split; [exact (PR Put)|split; [|split; reflexivity]]]]].
  - intros d. unfold price, first_price. cbn. destruct (Z.eqb_spec d 0); reflexivity.
  - cbn beta iota. rewrite (L_Black76.parity cdf) by exact sym. lra.
Qed.

(** After expiry the same market prices the option at nothing. *)
Lemma expired_case nan cdf pc : price nan cdf (market (ZeroRateCurve 0%Z) 100 (DriftlessForward 100) (FlatVolSurface (/ 5) EveryDay (mkDDF 0%Z 0)))
  (ISpotEuropean (option_on stock 365%Z pc CashSettled) 90) (mkDT 400%Z Open_) = Ok 0.
Proof.
  set (c := market _ _ _ _). set (v := option_on _ _ _ _). unfold price.
  assert (E : prices nan cdf c (ISpotEuropean v 90) [mkDT 400%Z Open_] = Ok [0]); [|rewrite E; reflexivity].
  cbn [prices]. apply vanilla_open; [discriminate|]. exists (ZeroRateCurve 0%Z), (FlatVolSurface (/ 5) EveryDay (mkDDF 0%Z 0)), 90, 100, 0, 0. split.
  - constructor; try reflexivity.
    + unfold rt. cbn [r_and_t bind]. rnum. f_equal. lra.
    + lra.
  - reflexivity.
Qed.

(** A fixing table and a nested portfolio holding an option that has expired and one that has not. *)
Definition one_fixing : fixing_table R := mkTable 10%Z [("BP"%string, [(mkDT 5%Z Open_, 120)])].

Lemma one_fixing_new : from_fixings 10%Z [("BP"%string, [(mkDT 5%Z Open_, 120)])] = Ok one_fixing.
Proof. reflexivity. Qed.

Definition live : instrument R := ISpotEuropean (option_on stock 15%Z Put CashSettled) 130.
Definition dead : instrument R := ISpotEuropean (option_on stock 5%Z Call PhysicalSettled) 100.
Definition book : holdings R := [(2, stock); (3, IBasket "B" "CR" usd NullRule [(4, live); (5, dead)]); (6, live)].

Lemma live_left : fix_instrument one_fixing live = Ok None.
Proof. reflexivity. Qed.

Lemma dead_fixed : fix_instrument one_fixing dead = Ok (Some [(- 100, payment_of (option_on stock 5%Z Call PhysicalSettled)); (1, stock)]).
Proof.
  unfold dead. rewrite (fix_physical one_fixing (option_on stock 5%Z Call PhysicalSettled) 100 120 eq_refl eq_refl). cbn [van_put_or_call option_on payoff van_underlying].
  destruct (Rltb_spec 0 (Rmax (120 - 100) 0)); [reflexivity|]. rewrite Rmax_left in *; lra.
Qed.

Lemma book_fixed : exists d, fix_all book one_fixing = Ok (Some d).
Proof.
  assert (D : forall x : R, fix_instrument one_fixing (snd (x, dead)) = Ok (Some _)) by (intros x; exact dead_fixed).
  assert (L : forall x : R, fix_instrument one_fixing (snd (x, live)) = Ok None) by (intros x; exact live_left).
  assert (M : exists ms, fix_all [(4, live); (5, dead)] one_fixing = Ok (Some ms)).
  { eexists. apply fix_all_ok. exists [None; Some [(- 100, payment_of (option_on stock 5%Z Call PhysicalSettled)); (1, stock)]].
    split; [repeat constructor; auto|reflexivity]. }
  destruct M as (ms & M). eexists. apply fix_all_ok. exists [None; Some [(1, IBasket ("B" ++ ":fixed") "CR" usd NullRule ms)]; None].
  split; [|reflexivity]. constructor; [reflexivity|]. constructor; [cbn [snd]; rewrite fix_basket, M; reflexivity|].
  constructor; [apply L|constructor].
Qed.

Lemma book_worth : exists x, adds_up (worth (fun _ _ => 120) (fun _ => 120)) book x.
Proof.
  assert (L : worth (fun _ _ => 120) (fun _ => 120) live (payoff Put 120 130)).
  { unfold live. apply (worth_spot _ _ (option_on stock 15%Z Put CashSettled)); [reflexivity|discriminate]. }
  assert (D : worth (fun _ _ => 120) (fun _ => 120) dead (payoff Call 120 100)).
  { unfold dead. apply (worth_spot _ _ (option_on stock 5%Z Call PhysicalSettled)); [reflexivity|]. intros _. unfold stock. cbn. apply worth_equity. }
  unfold book. eexists. constructor; [unfold stock; apply worth_equity|].
  constructor; [apply worth_basket; constructor; [exact L|constructor; [exact D|constructor]]|].
  constructor; [exact L|constructor].
Qed.

Lemma one_fixing_truthful : truthful (fun _ _ => 120) one_fixing.
Proof.
  intros id dt x E. unfold get_optional, one_fixing in E. cbn in E. destruct (String.eqb id "BP"); [|discriminate].
  cbn in E. destruct (dt_eqb dt (mkDT 5%Z Open_)); congruence.
Qed.

Lemma book_plain t : Forall (fun h => plain_underlyings t (snd h)) book.
Proof.
  unfold book, live, dead. repeat constructor.
Qed.
