(** C78: portfolios and their parts. *)
From Coq Require Import ZArith List String Bool Reals.
From Verif Require Import Prelude Num M_Dates M_Calendar M_Curves M_Forward M_Vol M_Instruments M_Deps M_Risk M_Reports
  S_Data S_Deps S_Risk S_Reports S_Portfolio L_RiskCases L_ReportCases L_Portfolio L_PortfolioPrices L_PortfolioRisk L_PortfolioReports L_PortfolioCases.
Import ListNotations.
Open Scope list_scope.
Open Scope string_scope.
Open Scope R_scope.

(** Forwards of a share, in any arithmetic, from curves made for two high-water marks h and h', h the earlier.  Dividends are in
    order, and none goes ex on the base date or one goes ex after it that the curve to h takes in.  If there is a curve to h' then there is
    one to h, it gives exactly the same forwards as far as it goes, and an error further out. *)
Theorem C78_forward : forall T (N : Num T) (TR : Trans T) (nan : T) base spot settlement rate borrow s h h' f', (h <= h')%Z -> base_clear base s h ->
  equity_forward_new nan base spot settlement rate borrow s h' = Ok f' ->
  exists f, equity_forward_new nan base spot settlement rate borrow s h = Ok f /\
    (forall d, (d <= reach s h)%Z -> forward_at nan f d = forward_at nan f' d) /\
    (forall d, (reach s h < d)%Z -> exists m, forward_at nan f d = Err m).
Proof. exact @forward_longer. Qed.
Print Assumptions C78_forward.

(** A dividend today and another in 20 days: clear from a high-water mark of 20 days on and not before. *)
Example C78_forward_example : forall nan, base_clear 0%Z stream 20%Z /\ ~ base_clear 0%Z stream 19%Z /\
  (exists f, equity_forward_new nan 0%Z 100 NullRule zero zero stream 30%Z = Ok f).
Proof. exact clear_case. Qed.

(** With a dividend going ex on the base date and one of a proportion later, it matters how far out the curve goes: a share at 100 with a
    dividend of 2 today has a forward to day 15 of 100 from the curve to day 15, and of 98 from the curve to day 30. *)
Theorem C78_forward_refuted : forall nan, exists f f',
  equity_forward_new nan 0%Z 100 NullRule zero zero (stream_new [ex_today; ex_in_20] zero) 15%Z = Ok f /\
  equity_forward_new nan 0%Z 100 NullRule zero zero (stream_new [ex_today; ex_in_20] zero) 30%Z = Ok f' /\
  forward_at nan f 15%Z = Ok 100 /\ forward_at nan f' 15%Z = Ok 98.
Proof. exact forward_depends. Qed.
Print Assumptions C78_forward_refuted.

(** A portfolio and a larger one holding at least the same instruments, both with pricers off the same market data, in any arithmetic.
    No two instruments share an id and dividends are clear of today.  Any prices of any instrument that the pricer of the part can give,
    the pricer of the whole gives, to the last bit. *)
Theorem C78_prices : forall T (N : Num T) (TR : Trans T) (nan : T) (cdf : T -> T) (part whole : holdings T) md a1 a sp1 sp,
  self_pricer_new nan part md = Ok sp1 -> self_pricer_new nan whole md = Ok sp -> part_of part whole ->
  asks_of md part a1 -> asks_of md whole a -> one_per_id a -> dividends_clear md a1 ->
  forall i dates ps, prices nan cdf (prefetch_context nan (sp_context sp1)) i dates = Ok ps ->
  prices nan cdf (prefetch_context nan (sp_context sp)) i dates = Ok ps.
Proof. exact @part_prices. Qed.
Print Assumptions C78_prices.

(** The value of two portfolios together is the sum of their values. *)
Theorem C78_adds : forall nan cdf (l1 l2 : holdings R) md a sp1 sp2 sp,
  self_pricer_new nan l1 md = Ok sp1 -> self_pricer_new nan l2 md = Ok sp2 -> self_pricer_new nan (l1 ++ l2) md = Ok sp ->
  asks_of md (l1 ++ l2) a -> one_per_id a -> dividends_clear md a ->
  forall x1 x2, self_price nan cdf sp1 = Ok x1 -> self_price nan cdf sp2 = Ok x2 -> self_price nan cdf sp = Ok (x1 + x2).
Proof. exact prices_add. Qed.
Print Assumptions C78_adds.

(** And so it is after any sequence of bumps, of spots, yields, borrow, dividends and volatilities, applied to all three. *)
Theorem C78_bumped : forall nan cdf (l1 l2 : holdings R) md a sp1 sp2 sp,
  self_pricer_new nan l1 md = Ok sp1 -> self_pricer_new nan l2 md = Ok sp2 -> self_pricer_new nan (l1 ++ l2) md = Ok sp ->
  asks_of md (l1 ++ l2) a -> one_per_id a -> dividends_clear md a ->
  forall bs x1 x2 x, Forall (fun b => target b <> None) bs -> price_after (self_ops nan cdf) bs sp1 = Ok x1 -> price_after (self_ops nan cdf) bs sp2 = Ok x2 ->
  price_after (self_ops nan cdf) bs sp = Ok x -> x = x1 + x2.
Proof. exact bumped_add. Qed.
Print Assumptions C78_bumped.

(** And so are deltas and gammas, and vegas and volgas, share by share: what a report does not mention counts as nothing. *)
Theorem C78_reports : forall nan cdf (l1 l2 : holdings R) md a sp1 sp2 sp,
  self_pricer_new nan l1 md = Ok sp1 -> self_pricer_new nan l2 md = Ok sp2 -> self_pricer_new nan (l1 ++ l2) md = Ok sp ->
  asks_of md (l1 ++ l2) a -> one_per_id a -> dividends_clear md a ->
  forall g u1 u2 u r1 r2 r q1 q2 q v1 v2 v, (exists h, g = DeltaGammaGenerator h) \/ (exists f, g = VegaVolgaGenerator f) ->
  self_price nan cdf sp1 = Ok u1 -> self_price nan cdf sp2 = Ok u2 -> self_price nan cdf sp = Ok u ->
  generate nan (self_ops nan cdf) g sp1 saved_prefetch_new u1 = (Ok r1, q1, v1) -> generate nan (self_ops nan cdf) g sp2 saved_prefetch_new u2 = (Ok r2, q2, v2) ->
  generate nan (self_ops nan cdf) g sp saved_prefetch_new u = (Ok r, q, v) ->
  exists size m1 m2 m, (r1 = DeltaGammaReport size m1 /\ r2 = DeltaGammaReport size m2 /\ r = DeltaGammaReport size m \/
    r1 = VegaVolgaReport size m1 /\ r2 = VegaVolgaReport size m2 /\ r = VegaVolgaReport size m) /\
    forall id, entry id m = (fst (entry id m1) + fst (entry id m2), snd (entry id m1) + snd (entry id m2)).
Proof. exact reports_add. Qed.
Print Assumptions C78_reports.

(** The hypotheses of these hold of a call and a short put on a share without dividends. *)
Example C78_reports_example : forall nan cdf s h, 0 < s -> 0 < h < 1 -> exists sp1 sp2 sp u1 u2 u r1 r2 r q1 q2 q v1 v2 v,
  self_pricer_new nan call_part (flat_market s) = Ok sp1 /\ self_pricer_new nan put_part (flat_market s) = Ok sp2 /\
  self_pricer_new nan (call_part ++ put_part) (flat_market s) = Ok sp /\ asks_of (flat_market s) (call_part ++ put_part) twice_asked /\
  one_per_id twice_asked /\ dividends_clear (flat_market s) twice_asked /\
  self_price nan cdf sp1 = Ok u1 /\ self_price nan cdf sp2 = Ok u2 /\ self_price nan cdf sp = Ok u /\
  generate nan (self_ops nan cdf) (DeltaGammaGenerator h) sp1 saved_prefetch_new u1 = (Ok r1, q1, v1) /\
  generate nan (self_ops nan cdf) (DeltaGammaGenerator h) sp2 saved_prefetch_new u2 = (Ok r2, q2, v2) /\
  generate nan (self_ops nan cdf) (DeltaGammaGenerator h) sp saved_prefetch_new u = (Ok r, q, v).
Proof. exact reports_case. Qed.

(** With a dividend going ex today values need not add: a call less a put in 15 days and a call in 30 days are worth 2 less together. *)
Theorem C78_adds_refuted : forall nan cdf, (forall x, cdf (- x) = 1 - cdf x) -> exists (l1 l2 : holdings R) md a sp1 sp2 sp x1 x2,
  self_pricer_new nan l1 md = Ok sp1 /\ self_pricer_new nan l2 md = Ok sp2 /\ self_pricer_new nan (l1 ++ l2) md = Ok sp /\
  asks_of md (l1 ++ l2) a /\ one_per_id a /\
  self_price nan cdf sp1 = Ok x1 /\ self_price nan cdf sp2 = Ok x2 /\ self_price nan cdf sp = Ok (x1 + x2 - 2).
Proof. exact prices_do_not_add. Qed.
Print Assumptions C78_adds_refuted.

(** Nor need a part have a report because the whole has one: a share held alone has none, and beside an option on it it has. *)
Theorem C78_reports_refuted : forall nan cdf s h, 0 < s -> 0 < h < 1 -> exists (l1 l2 : holdings R) md sp1 sp u1 u m r q1 q v1 v,
  self_pricer_new nan l1 md = Ok sp1 /\ self_pricer_new nan (l1 ++ l2) md = Ok sp /\ self_price nan cdf sp1 = Ok u1 /\ self_price nan cdf sp = Ok u /\
  generate nan (self_ops nan cdf) (DeltaGammaGenerator h) sp1 saved_prefetch_new u1 = (Err m, q1, v1) /\
  generate nan (self_ops nan cdf) (DeltaGammaGenerator h) sp saved_prefetch_new u = (Ok r, q, v).
Proof. exact report_needs_others. Qed.
Print Assumptions C78_reports_refuted.
