(** Properties of pricers and risk reports (C44 to C47, and the rest of C31, C35 and C43). *)
From Coq Require Import ZArith List String Bool Reals Permutation Lra.
From Verif Require Import Prelude Num M_Dates M_Calendar M_Curves M_Fixings M_Forward M_Vol M_Instruments M_Deps M_Risk M_Reports
  S_Data S_Instruments S_Risk S_Reports L_Num L_Reports L_SelfPricer L_SelfReports L_Compare L_InstrumentCases L_RiskCases L_ReportCases.
Import ListNotations.
Open Scope list_scope.
Open Scope R_scope.

(** ** C44: risk reports leave the pricer as they found it *)

(** The pricer on instruments' own prices is one whose restore undoes its bumps of spots and volatilities. *)
Theorem C44_self_pricer : forall T (N : Num T) (TR : Trans T) (nan : T) cdf, well_behaved (self_ops nan cdf) saved_prefetch_new.
Proof. exact (fun T N TR => self_well_behaved). Qed.
Print Assumptions C44_self_pricer.

(** Every successful report leaves such a pricer, and the save area, as they were. *)
Theorem C44_leaves_pricer : forall T (N : Num T) (nan : T) P (ops : pricer_ops T P) new, well_behaved ops new ->
  forall g p u r p' sv', generate nan ops g p new u = (Ok r, p', sv') -> p' = p /\ sv' = new.
Proof. exact (fun T N nan P => generate_leaves nan). Qed.
Print Assumptions C44_leaves_pricer.

(** Several reports in one go are the reports made one by one. *)
Theorem C44_separately : forall T (N : Num T) (nan : T) P (ops : pricer_ops T P) new, well_behaved ops new ->
  forall p u gs rs, op_price ops p = Ok u ->
  calculate nan ops p gs = Ok rs <-> Forall2 (fun g r => calculate nan ops p [g] = Ok [r]) gs rs.
Proof. exact (fun T N nan P => calculate_separately nan). Qed.
Print Assumptions C44_separately.

(** In another order the same reports are made. *)
Theorem C44_any_order : forall T (N : Num T) (nan : T) P (ops : pricer_ops T P) new, well_behaved ops new ->
  forall p gs gs' rs, Permutation gs gs' -> calculate nan ops p gs = Ok rs ->
  exists rs', calculate nan ops p gs' = Ok rs' /\ Permutation (combine gs rs) (combine gs' rs').
Proof. exact (fun T N nan P => calculate_permuted nan). Qed.
Print Assumptions C44_any_order.

(** A time-bumped report never changes the pricer, whatever the pricer and the outcome. *)
Theorem C44_time_bumped : forall T (N : Num T) (nan : T) P (ops : pricer_ops T P) bt gs p sv u r p' sv',
  generate nan ops (TimeBumpedGenerator bt gs) p sv u = (r, p', sv') -> p' = p.
Proof. exact (fun T N nan P => time_bumped_leaves nan). Qed.
Print Assumptions C44_time_bumped.

(** A report that fails may leave the pricer bumped. *)
Theorem C44_failure_refuted : forall nan cdf s h u, exists sp m sp' sv', self_pricer_new nan [(1, stock)] (flat_market s) = Ok sp /\
  generate nan (self_ops nan cdf) (DeltaGammaGenerator h) sp saved_prefetch_new u = (Err m, sp', sv') /\
  look (pf_data (sp_context sp)) (SpotFor "BP") = Some (ASpot s) /\
  look (pf_data (sp_context sp')) (SpotFor "BP") = Some (ASpot (s * (1 + h))).
Proof. exact equity_left_bumped. Qed.
Print Assumptions C44_failure_refuted.

Example C44_applies : forall nan cdf s h, (forall x, cdf (- x) = 1 - cdf x) -> 0 < s -> 0 < h < 1 -> exists sp r u,
  self_pricer_new nan call_less_put (flat_market s) = Ok sp /\ self_price nan cdf sp = Ok u /\
  generate nan (self_ops nan cdf) (DeltaGammaGenerator h) sp saved_prefetch_new u = (Ok r, sp, saved_prefetch_new).
Proof. exact holding_reported. Qed.

(** ** C43: delta reports on portfolios with a spot and no forward *)

(** They never succeed. *)
Theorem C43_delta_fails : forall nan cdf h sp u id s r sp' sv',
  In id (keys (col_instruments (pf_deps (sp_context sp)))) ->
  look (pf_data (sp_context sp)) (SpotFor id) = Some (ASpot s) -> get id (pf_forwards (sp_context sp)) = None ->
  generate nan (self_ops nan cdf) (DeltaGammaGenerator h) sp saved_prefetch_new u <> (Ok r, sp', sv').
Proof. exact delta_fails. Qed.
Print Assumptions C43_delta_fails.

Example C43_delta_fails_applies : forall nan s, exists sp, self_pricer_new nan [(1, stock)] (flat_market s) = Ok sp /\
  In "BP"%string (keys (col_instruments (pf_deps (sp_context sp)))) /\
  look (pf_data (sp_context sp)) (SpotFor "BP") = Some (ASpot s) /\ get "BP" (pf_forwards (sp_context sp)) = None.
Proof. intros nan s. eexists. split; [reflexivity|]. split; [now left|]. split; reflexivity. Qed.

(** ** C45: delta and gamma *)

(** They are central differences of the price at s(1+h) and s(1-h), for the ids the portfolio depends on. *)
Theorem C45_samples : forall nan cdf h sp u r sp' sv', h <> 0 -> 1 + h <> 0 -> self_price nan cdf sp = Ok u ->
  generate nan (self_ops nan cdf) (DeltaGammaGenerator h) sp saved_prefetch_new u = (Ok r, sp', sv') ->
  exists m, r = DeltaGammaReport h m /\
  (forall id, In id (keys (col_instruments (pf_deps (sp_context sp)))) <-> get id m <> None) /\
  forall id e, get id m = Some e -> exists s x y,
    look (pf_data (sp_context sp)) (SpotFor id) = Some (ASpot s) /\
    price_with_spot (self_ops nan cdf) id (s * (1 + h)) sp = Ok x /\ price_with_spot (self_ops nan cdf) id (s * (1 - h)) sp = Ok y /\
    (s <> 0 -> e = ((x - y) / (2 * (h * s)), (x + y - 2 * u) / ((h * s) * (h * s)))).
Proof. exact delta_samples. Qed.
Print Assumptions C45_samples.

(** In any arithmetic, with its roundings: the price with the spot bumped up, the price with that spot bumped again by the opposite
    amount, and the quotients of their differences. *)
Theorem C45_samples_exact : forall T (N : Num T) (TR : Trans T) (nan : T) cdf h sp u r sp' sv', self_price nan cdf sp = Ok u ->
  generate nan (self_ops nan cdf) (DeltaGammaGenerator h) sp saved_prefetch_new u = (Ok r, sp', sv') ->
  exists m, r = DeltaGammaReport h m /\
  (forall id, In id (keys (col_instruments (pf_deps (sp_context sp)))) <-> get id m <> None) /\
  forall id e, get id m = Some e -> exists s x y, let up := nmul s (nadd n1 h) in
    look (pf_data (sp_context sp)) (SpotFor id) = Some (ASpot s) /\
    price_with_spot (self_ops nan cdf) id up sp = Ok x /\
    price_with_spot (self_ops nan cdf) id (nmul up (nadd n1 (nsub (ndiv (nsub n1 h) (nadd n1 h)) n1))) sp = Ok y /\
    e = (ndiv (nsub x y) (nmul (nofZ 2) (nmul h s)), ndiv (nsub (nadd x y) (nmul (nofZ 2) u)) (nmul (nmul h s) (nmul h s))).
Proof. exact @delta_exact. Qed.
Print Assumptions C45_samples_exact.

(** On prices quadratic in the spot near the spot they are the derivatives. *)
Theorem C45_quadratic : forall nan cdf h sp u r sp' sv' a b c id s, h <> 0 -> 1 + h <> 0 -> s <> 0 ->
  self_price nan cdf sp = Ok (a + b * s + c * (s * s)) -> u = a + b * s + c * (s * s) ->
  look (pf_data (sp_context sp)) (SpotFor id) = Some (ASpot s) ->
  (forall x, Rabs (x - s) <= Rabs (h * s) -> price_with_spot (self_ops nan cdf) id x sp = Ok (a + b * x + c * (x * x))) ->
  generate nan (self_ops nan cdf) (DeltaGammaGenerator h) sp saved_prefetch_new u = (Ok r, sp', sv') ->
  In id (keys (col_instruments (pf_deps (sp_context sp)))) ->
  exists m, r = DeltaGammaReport h m /\ get id m = Some (b + 2 * c * s, 2 * c).
Proof. exact delta_quadratic. Qed.
Print Assumptions C45_quadratic.

(** A time-bumped report has the price after the bump, the difference from the price before it, and the reports
    calculated after it. *)
Theorem C45_theta : forall T (N : Num T) (nan : T) P (ops : pricer_ops T P) new, well_behaved ops new ->
  forall bt gs p u r p' sv', generate nan ops (TimeBumpedGenerator bt gs) p new u = (Ok r, p', sv') ->
  exists clone x subs, op_bump_time ops bt p = (Ok tt, clone) /\ op_price ops clone = Ok x /\ r = TimeBumpedReport x (nsub x u) subs /\
    calculate nan ops clone gs = Ok subs.
Proof. exact (fun T N nan P => time_entries nan). Qed.
Print Assumptions C45_theta.

(** A call less a put has delta one and no gamma. *)
Example C45_applies : forall nan cdf s h, (forall x, cdf (- x) = 1 - cdf x) -> 0 < s -> 0 < h < 1 -> exists sp u m,
  self_pricer_new nan call_less_put (flat_market s) = Ok sp /\ self_price nan cdf sp = Ok u /\
  generate nan (self_ops nan cdf) (DeltaGammaGenerator h) sp saved_prefetch_new u = (Ok (DeltaGammaReport h m), sp, saved_prefetch_new) /\
  get "BP" m = Some (1, 0).
Proof. exact holding_delta. Qed.

(** ** C31: the opposite bumps of the reports *)

(** The two samples of a spot are symmetric: bumping up by h and then by the opposite is having the spot at s(1-h). *)
Theorem C31_spot_opposite : forall nan cdf id h sp s x, 1 + h <> 0 ->
  look (pf_data (sp_context sp)) (SpotFor id) = Some (ASpot s) ->
  price_after (self_ops nan cdf) [BSpot id (RelativeSpot h)] sp = Ok x ->
  price_after (self_ops nan cdf) [BSpot id (RelativeSpot h); BSpot id (RelativeSpot ((1 - h) / (1 + h) - 1))] sp =
  price_with_spot (self_ops nan cdf) id (s * (1 - h)) sp.
Proof. exact spot_opposite. Qed.
Print Assumptions C31_spot_opposite.

(** The vega of a price linear in volatility, for a pricer whose restore undoes its bumps: off by a factor of 1+b, and
    with a volga that is not zero. *)
Theorem C31_vega_linear : forall nan P (ops : pricer_ops R P) new f b p a k r p' sv' id, well_behaved ops new -> b <> 0 -> 1 + b <> 0 ->
  f = FlatAdditive b -> op_price ops p = Ok a ->
  price_after ops [BVol id f] p = Ok (a + k * b) ->
  (forall y, price_after ops [BVol id f; BVol id (FlatAdditive y)] p = Ok (a + k * (b + y))) ->
  generate nan ops (VegaVolgaGenerator f) p new a = (Ok r, p', sv') ->
  (exists ids, reported_ids ops p = Ok ids /\ In id ids) ->
  exists m, r = VegaVolgaReport b m /\ get id m = Some (k / (1 + b), 2 * k / (1 + b)).
Proof. exact (fun nan P => vega_linear nan). Qed.
Print Assumptions C31_vega_linear.

(** The entries of every vega report, in any arithmetic. *)
Theorem C31_vega_samples : forall T (N : Num T) (TR : Trans T) (nan : T) P (ops : pricer_ops T P) new, well_behaved ops new ->
  forall f p u r p' sv', op_price ops p = Ok u -> generate nan ops (VegaVolgaGenerator f) p new u = (Ok r, p', sv') ->
  exists ids m, reported_ids ops p = Ok ids /\ r = VegaVolgaReport (vol_bumpsize nan f) m /\ (forall id, In id ids <-> get id m <> None) /\
  forall id e, get id m = Some e -> exists x y,
    price_after ops [BVol id f] p = Ok x /\ price_after ops [BVol id f; BVol id (vol_opposite nan f)] p = Ok y /\
    e = let z := vol_bumpsize nan f in (ndiv (nsub x y) (nmul (nofZ 2) z), ndiv (nsub (nadd x y) (nmul (nofZ 2) u)) (nmul z z)).
Proof. exact (fun T N TR nan P => vega_entries nan). Qed.
Print Assumptions C31_vega_samples.

Example C31_spot_opposite_applies : forall nan cdf s, (forall x, cdf (- x) = 1 - cdf x) -> 0 < s -> exists sp x,
  self_pricer_new nan call_less_put (flat_market s) = Ok sp /\ look (pf_data (sp_context sp)) (SpotFor "BP") = Some (ASpot s) /\
  price_after (self_ops nan cdf) [BSpot "BP" (RelativeSpot (/ 2))] sp = Ok x.
Proof. exact opposite_case. Qed.

(** ** C35: the price of a portfolio *)

(** A portfolio's price is the weighted sum of the prices of its instruments. *)
Theorem C35_pricer : forall nan cdf sp x, self_price nan cdf sp = Ok x <->
  adds_up (fun i v => price nan cdf (prefetch_context nan (sp_context sp)) i (mkDT (md_spot_date (pf_data (sp_context sp))) Open_) = Ok v)
    (sp_instruments sp) x.
Proof. exact self_price_sum. Qed.
Print Assumptions C35_pricer.

(** The prices of two portfolios add up to the price of both. *)
Theorem C35_pricer_concat : forall nan cdf l l' pf x y,
  self_price nan cdf (mkSelfPricer l pf) = Ok x -> self_price nan cdf (mkSelfPricer l' pf) = Ok y ->
  self_price nan cdf (mkSelfPricer (l ++ l') pf) = Ok (x + y).
Proof. exact self_price_app. Qed.
Print Assumptions C35_pricer_concat.

Example C35_pricer_applies : forall nan cdf s, (forall x, cdf (- x) = 1 - cdf x) -> 0 < s -> exists sp,
  self_pricer_new nan call_less_put (flat_market s) = Ok sp /\ self_price nan cdf sp = Ok (s - 100 * exp (- growth)).
Proof. intros nan cdf s sym S. eexists. split; [apply holding_new|]. apply holding_price; [exact sym|lra]. Qed.

(** ** C46: comparing reports *)

(** Calculated reports have no id twice. *)
Theorem C46_calculated : forall T (N : Num T) (nan : T) P (ops : pricer_ops T P) p gs rs, calculate nan ops p gs = Ok rs -> Forall proper rs.
Proof. exact (fun T N nan P => calculated_proper nan). Qed.
Print Assumptions C46_calculated.

(** For those, no difference is found exactly when the reports agree one by one. *)
Theorem C46_exact : forall tol mine other, Forall proper mine -> Forall proper other ->
  assert_approx_eq_reports tol mine other = Ok tt <-> Forall2 (agree tol) mine other.
Proof. exact all_spec. Qed.
Print Assumptions C46_exact.

(** Agreement is symmetric when the bump sizes are the same. *)
Theorem C46_symmetric : forall tol mine other, same_sizes mine other -> agree tol mine other -> agree tol other mine.
Proof. exact agree_sym. Qed.
Print Assumptions C46_symmetric.

(** The bump size of the other report does not matter. *)
Theorem C46_size_ignored : forall T (N : Num T) (tol : tolerances T) h h' h'' m o,
  compare_reports tol (DeltaGammaReport h m) (DeltaGammaReport h' o) = compare_reports tol (DeltaGammaReport h m) (DeltaGammaReport h'' o) /\
  compare_reports tol (VegaVolgaReport h m) (VegaVolgaReport h' o) = compare_reports tol (VegaVolgaReport h m) (VegaVolgaReport h'' o).
Proof. exact @size_ignored. Qed.
Print Assumptions C46_size_ignored.

(** So agreement is not symmetric when the sizes differ. *)
Theorem C46_symmetric_refuted : exists tol (mine other : report R), proper mine /\ proper other /\
  assert_approx_eq_reports tol [mine] [other] = Ok tt /\ assert_approx_eq_reports tol [other] [mine] <> Ok tt.
Proof. exact not_symmetric. Qed.
Print Assumptions C46_symmetric_refuted.

(** A report of delta or vega agrees with itself when its bump size is positive. *)
Theorem C46_itself : forall tol h m, 0 < tol_unit_risk tol -> 0 < tol_currency_risk tol -> 0 < h ->
  agree tol (DeltaGammaReport h m) (DeltaGammaReport h m) /\ agree tol (VegaVolgaReport h m) (VegaVolgaReport h m).
Proof. exact sized_self. Qed.
Print Assumptions C46_itself.

(** When it is negative it never does, unless it has no entries. *)
Theorem C46_negative_refuted : forall tol h m, 0 <= tol_unit_risk tol -> 0 <= tol_currency_risk tol -> h < 0 -> m <> [] ->
  assert_approx_eq_reports tol [DeltaGammaReport h m] [DeltaGammaReport h m] <> Ok tt /\
  assert_approx_eq_reports tol [VegaVolgaReport h m] [VegaVolgaReport h m] <> Ok tt.
Proof. exact negative_sizes. Qed.
Print Assumptions C46_negative_refuted.

Example C46_applies : exists tol mine other, Forall proper mine /\ Forall proper other /\ mine <> other /\ Forall2 (agree tol) mine other.
Proof. exact agree_case. Qed.

(** ** C47: time bumps *)

(** What moving the date does to the instruments: if no fixing that matters falls between the old date and the new one,
    nothing; otherwise they are fixed from a table that has exactly those fixings, at the spot or at the forward. *)
Theorem C47_fixes_window : forall T (N : Num T) (TR : Trans T) (nan : T) bt ins c deps changed ins', update_instruments nan bt ins c deps = Ok (changed, ins') ->
  (changed = false -> ins' = ins) /\
  ((changed = false /\ forall id u f, In (id, u) (col_instruments deps) -> In f (fixings_of id deps) -> ~ in_window bt c f) \/
   exists t, known_until t = bsd_date (bt_spot_date_bump bt) /\
     (forall id f v, get_optional t id f = Some v <->
        exists u, In (id, u) (col_instruments deps) /\ In f (fixings_of id deps) /\ in_window bt c f /\ fixes_at nan bt c id u f v) /\
     fix_all ins t = Ok (if changed then Some ins' else None)).
Proof. exact @update_spec. Qed.
Print Assumptions C47_fixes_window.

Theorem C47_nothing : forall T (N : Num T) (TR : Trans T) (nan : T) bt (ins : holdings T) c deps,
  (forall id u f, In (id, u) (col_instruments deps) -> In f (fixings_of id deps) -> ~ in_window bt c f) ->
  update_instruments nan bt ins c deps = Ok (false, ins).
Proof. exact @nothing_passed. Qed.
Print Assumptions C47_nothing.

(** Moving the date of the data: with sticky spots nothing else changes, with sticky forwards the spots become the
    forwards to the new date. *)
Theorem C47_date : forall T (N : Num T) (TR : Trans T) (nan : T) b p save r p' save', prefetch_bump nan (BSpotDate b) p save = (Ok r, p', save') ->
  md_spot_date (pf_data p') = bsd_date b /\ md_yields (pf_data p') = md_yields (pf_data p) /\ md_borrows (pf_data p') = md_borrows (pf_data p) /\
  md_divs (pf_data p') = md_divs (pf_data p) /\ md_vols (pf_data p') = md_vols (pf_data p) /\ keys (md_spots (pf_data p')) = keys (md_spots (pf_data p)) /\
  (r = false -> p' = p) /\
  (bsd_dynamics b = StickySpot -> md_spots (pf_data p') = md_spots (pf_data p)) /\
  (bsd_dynamics b = StickyForward -> r = true -> forall id s', In (id, s') (md_spots (pf_data p')) ->
     match instrument_by_id id (pf_deps p) with
     | Some u => exists fwd, md_forward_curve nan (pf_data p) u (bsd_date b) = Ok fwd /\ forward_at nan fwd (bsd_date b) = Ok s'
     | None => In (id, s') (md_spots (pf_data p))
     end).
Proof. exact @date_moved. Qed.
Print Assumptions C47_date.

(** A time-bumped pricer has the instruments so changed, in a context with the date so changed. *)
Theorem C47_pricer : forall T (N : Num T) (TR : Trans T) (nan : T) bt sp sp', self_bump_time nan bt sp = (Ok tt, sp') ->
  exists changed ins' r pf' save', let c := prefetch_context nan (sp_context sp) in
    update_instruments nan bt (sp_instruments sp) c (pf_deps (sp_context sp)) = Ok (changed, ins') /\
    prefetch_bump nan (BSpotDate (bt_spot_date_bump bt)) (sp_context sp) None = (Ok r, pf', save') /\
    (if changed then self_pricer_new nan ins' (pf_data pf') = Ok sp' else sp' = mkSelfPricer (sp_instruments sp) pf').
Proof. exact @time_bumped. Qed.
Print Assumptions C47_pricer.

(** If a fixing in the window is listed twice, the time bump fails. *)
Theorem C47_duplicates : forall T (N : Num T) (TR : Trans T) (nan : T) bt (ins : holdings T) c deps id u l1 l2 l3 f, In (id, u) (col_instruments deps) -> in_window bt c f ->
  fixings_of id deps = l1 ++ f :: l2 ++ f :: l3 -> forall r, update_instruments nan bt ins c deps <> Ok r.
Proof. exact @repeated_fails. Qed.
Print Assumptions C47_duplicates.

(** Which happens for a call and a put that expire together. *)
Theorem C47_two_options_refuted : forall nan s, exists sp m, self_pricer_new nan call_less_put (flat_market s) = Ok sp /\
  self_bump_time nan (to_day 20%Z) sp = (Err m, sp).
Proof. exact both_expire. Qed.
Print Assumptions C47_two_options_refuted.

(** One of them on its own is settled. *)
Example C47_applies : forall nan s, exists sp sp', self_pricer_new nan [(1, call_100)] (flat_market s) = Ok sp /\
  self_bump_time nan (to_day 20%Z) sp = (Ok tt, sp') /\ sp_instruments sp' = settled s /\ md_spot_date (pf_data (sp_context sp')) = 20%Z.
Proof. exact time_passes. Qed.
