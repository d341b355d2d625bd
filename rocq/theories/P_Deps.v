(** Properties of dependencies (C37, C38). *)
From Coq Require Import ZArith List String Bool Reals.
From Verif Require Import Prelude Num M_Dates M_Calendar M_Curves M_Fixings M_Forward M_Vol M_Instruments M_Deps
  S_Vol S_Instruments S_Deps L_Deps L_InstrumentCases L_DepsPricing.
Import ListNotations.
Open Scope list_scope.
Open Scope R_scope.

(** ** C37: pricing asks only for what was declared *)

(** Cash, bonds and baskets of them, on any dates, and with equities on the spot date: contexts that agree on what was
    declared give the same prices. *)
Theorem C37_simple : forall T (N : Num T) (TR : Trans T) (nan : T) cdf c1 c2 eq i, simple eq i -> forall today l dates, declares today i l ->
  same_answers (l ++ its_spot i) c1 c2 -> (eq = true -> exists d, dates = [d] /\ dt_date d = ctx_spot_date c1) ->
  prices nan cdf c1 i dates = prices nan cdf c2 i dates.
Proof. exact @simple_same. Qed.
Print Assumptions C37_simple.

(** Options on an equity, if the curve of the underlying's credit were declared to the payment date as well. *)
Theorem C37_option_with_underlying_curve : forall T (N : Num T) (TR : Trans T) (nan : T) cdf c1 c2 v own id cr cur s, van_underlying v = IEquity id cr cur s ->
  same_answers (Discount cr (van_pay_date v) :: option_asks v own) c1 c2 -> forall i dates,
  (exists k, i = ISpotEuropean v k) \/ (exists f d0 x0, i = IForwardEuropean v f d0 x0) ->
  prices nan cdf c1 i dates = prices nan cdf c2 i dates.
Proof. exact @option_same. Qed.
Print Assumptions C37_option_with_underlying_curve.

(** They do not declare that: an option discounts on the curve of its underlying's credit and not on its own. *)
Theorem C37_option_refuted : forall nan cdf, exists i l c1 c2 x e,
  spot_european_new "OPT" "OPT-CR" stock two_days (mkDT 365%Z Open_) 100 Call CashSettled = Ok i /\
  declares (ctx_spot_date c1) i l /\ same_answers l c1 c2 /\
  price nan cdf c1 i (mkDT 0%Z Open_) = Ok x /\ price nan cdf c2 i (mkDT 0%Z Open_) = Err e.
Proof. exact undeclared_curve. Qed.
Print Assumptions C37_option_refuted.

Theorem C37_own_credit_unused : forall T (N : Num T) (TR : Trans T) nan cdf c (v : vanilla T) cr k dates,
  prices nan cdf c (ISpotEuropean (with_credit cr v) k) dates = prices nan cdf c (ISpotEuropean v k) dates.
Proof. exact (fun T N TR => own_credit_unused). Qed.
Print Assumptions C37_own_credit_unused.

Theorem C37_own_credit_unused_forward : forall T (N : Num T) (TR : Trans T) nan cdf c (v : vanilla T) cr f d0 x0 dates,
  prices nan cdf c (IForwardEuropean (with_credit cr v) f d0 x0) dates = prices nan cdf c (IForwardEuropean v f d0 x0) dates.
Proof. exact (fun T N TR => own_credit_unused_forward). Qed.
Print Assumptions C37_own_credit_unused_forward.

(** An option on a basket asks for the forwards of the members. *)
Theorem C37_basket_option_refuted : forall nan cdf, exists i l c1 c2 x e,
  spot_european_new "OPT" "PAIR-CR" pair NullRule (mkDT 365%Z Open_) 100 Call CashSettled = Ok i /\
  declares (ctx_spot_date c1) i l /\ same_answers l c1 c2 /\
  (forall cr d, ctx_yield_curve c1 cr d = ctx_yield_curve c2 cr d) /\
  price nan cdf c1 i (mkDT 0%Z Open_) = Ok x /\ price nan cdf c2 i (mkDT 0%Z Open_) = Err e.
Proof. exact undeclared_forward. Qed.
Print Assumptions C37_basket_option_refuted.

(** And an equity on any other day asks for its forward. *)
Theorem C37_equity_forward_refuted : forall nan cdf, exists l c1 c2 x e,
  declares (ctx_spot_date c1) stock l /\ same_answers (l ++ its_spot stock) c1 c2 /\
  price nan cdf c1 stock (mkDT 5%Z Open_) = Ok x /\ price nan cdf c2 stock (mkDT 5%Z Open_) = Err e.
Proof. exact undeclared_equity. Qed.
Print Assumptions C37_equity_forward_refuted.

Example C37_case :
  let i := IBasket "B" "CR" usd NullRule [(2, stock); (3, ICurrency usd)] in
  let l := ([Discount "BP-CR" 0%Z] ++ [Discount "BP-CR" 0%Z] ++ [SpotOf stock]) ++ [Discount "USD" 0%Z] ++ [] in
  simple true i /\ declares 0%Z i l /\ same_answers (l ++ its_spot i) full (without_curve "BP-CR" 1%Z) /\
  van_underlying late_option = stock /\
  same_answers (Discount "BP-CR" (van_pay_date late_option) :: option_asks late_option []) full (without_curve "BP-CR" 367%Z).
Proof.
  split; [repeat constructor|]. split.
  - constructor. apply (dec_cons 0%Z 2 stock _ [Discount "BP-CR" 0%Z] _); [now constructor|].
    apply (dec_cons 0%Z 3 (ICurrency usd) [] [Discount "USD" 0%Z] []); [now constructor|constructor].
  - split; [|split; [reflexivity|]].
    + constructor; try reflexivity. intros cr d e I L. cbn. destruct (String.eqb_spec cr "BP-CR") as [->|]; [|reflexivity].
      cbn [andb]. destruct (Z.ltb_spec 1 e); [|reflexivity]. exfalso. cbn in I.
      repeat (destruct I as [I|I]; [inversion I; subst; Lia.lia|]). destruct I.
    + constructor; try reflexivity. intros cr d e I L. cbn. destruct (String.eqb_spec cr "BP-CR") as [->|]; [|reflexivity].
      cbn [andb]. destruct (Z.ltb_spec 367 e); [|reflexivity]. exfalso. cbn in I.
      repeat (destruct I as [I|I]; [inversion I; subst; Lia.lia|]). destruct I.
Qed.

(** ** C38: the dependency collector *)

(** After any requests the collector knows the latest date of each curve, forward and surface asked for, each once. *)
Theorem C38_high_water_marks : forall T (N : Num T) today rs (s : collector T) l, collect_all today rs = Ok s -> all_come_to today rs l ->
  (forall cr, latest (discounts_to cr l) (yield_curve_hwm cr s)) /\
  (forall u, latest (forwards_to (instrument_id u) l) (forward_curve_hwm u s)) /\
  (forall u, latest (vols_to (instrument_id u) l) (vol_surface_hwm u s)).
Proof. exact (fun T N today rs s l E C => collected_hwm today rs s l E C). Qed.
Print Assumptions C38_high_water_marks.

Theorem C38_once : forall T (N : Num T) today rs (s : collector T), collect_all today rs = Ok s ->
  NoDup (keys (col_yield_curves s)) /\ NoDup (keys (col_forward_curves s)) /\ NoDup (keys (col_vol_surfaces s)) /\ NoDup (keys (col_spots s)).
Proof. exact (fun T N today rs s E => collected_once today rs s E). Qed.
Print Assumptions C38_once.

(** Exactly the spots asked for. *)
Theorem C38_spots : forall T (N : Num T) today rs (s : collector T) l, collect_all today rs = Ok s -> all_come_to today rs l ->
  forall u, has_spot u s = true <-> spot_asked (instrument_id u) l.
Proof. exact (fun T N today rs s l E C => collected_spots today rs s l E C). Qed.
Print Assumptions C38_spots.

(** The fixings as asked for, in order. *)
Theorem C38_fixings : forall T (N : Num T) today rs (s : collector T) l, collect_all today rs = Ok s -> all_come_to today rs l ->
  forall id, fixings_of id s = fixings_asked id l.
Proof. exact (fun T N today rs s l E C => collected_fixings today rs s l E C). Qed.
Print Assumptions C38_fixings.

(** For each credit the forwards on it, in order, a forward asked for twice being there twice. *)
Theorem C38_forwards_of_credit : forall T (N : Num T) today rs (s : collector T) l, collect_all today rs = Ok s -> all_come_to today rs l ->
  forall cr, forward_ids_of cr s = forwards_on cr l.
Proof. exact (fun T N today rs s l E C => collected_forward_ids today rs s l E C). Qed.
Print Assumptions C38_forwards_of_credit.

(** Instruments with a spot or a surface can be found by their id. *)
Theorem C38_instruments : forall T (N : Num T) today rs (s : collector T) l, collect_all today rs = Ok s -> all_come_to today rs l ->
  (forall id u, instrument_by_id id s = Some u -> instrument_id u = id /\ (In (SpotOf u) l \/ exists d, In (VolOf u d) l)) /\
  (forall u, In (SpotOf u) l \/ (exists d, In (VolOf u d) l) -> instrument_by_id (instrument_id u) s <> None).
Proof. exact (fun T N today rs s l E C => collected_instruments today rs s l E C). Qed.
Print Assumptions C38_instruments.

(** Collecting succeeds exactly when every request comes to something: when every settlement date asked for exists. *)
Theorem C38_total : forall T (N : Num T) today (rs : list (request T)), (exists s, collect_all today rs = Ok s) <-> exists l, all_come_to today rs l.
Proof. exact @collect_total. Qed.
Print Assumptions C38_total.

(** What requests come to is unique. *)
Theorem C38_unique : forall T today (rs : list (request T)) (N : Num T) l l', all_come_to today rs l -> all_come_to today rs l' -> l = l'.
Proof. exact (fun T today rs N l l' => comes_to_fun today rs l l'). Qed.
Print Assumptions C38_unique.

Example C38_case : all_come_to 0%Z [WantForward stock 10%Z; WantForward stock 5%Z; WantDiscount "BP-CR" 7%Z]
  (its_forward stock 10%Z [Discount "BP-CR" 0%Z] ++ its_forward stock 5%Z [Discount "BP-CR" 0%Z] ++ [Discount "BP-CR" 7%Z] ++ []) /\
  exists s, collect_all 0%Z [WantForward stock 10%Z; WantForward stock 5%Z; WantDiscount "BP-CR" 7%Z] = Ok s /\
    yield_curve_hwm "BP-CR" s = Some 10%Z /\ forward_ids_of "BP-CR" s = ["BP"%string; "BP"%string].
Proof.
  split; [|eexists; split; [reflexivity|split; reflexivity]].
  repeat (apply act_cons); repeat constructor.
Qed.
