(** Model of src/pricers/selfpricer.rs, src/risk/mod.rs, bumptime.rs, deltagamma.rs, vegavolga.rs, timebumped.rs and the
    calculations of src/facade/mod.rs. *)
From Coq Require Import ZArith List String Bool.
From Verif Require Import Prelude Num M_Dates M_Calendar M_Curves M_Fixings M_Forward M_Vol M_Black76 M_Instruments M_Deps M_Risk.
Import ListNotations.
Open Scope string_scope.

(** risk/bumptime.rs:20-23 [struct BumpTime]; the ex-from date is not used by the code. *)
Record bump_time := mkBumpTime { bt_spot_date_bump : bump_spot_date; bt_ex_from : date }.

(** pricers/selfpricer.rs:31-34 [struct SelfPricer]. *)
Record self_pricer (T : Type) := mkSelfPricer { sp_instruments : holdings T; sp_context : prefetch T }.
Arguments mkSelfPricer {T}.
Arguments sp_instruments {T} s : rename.
Arguments sp_context {T} s : rename.

(** risk/mod.rs:36-53, 79-84 and 90-109: the methods of [trait Pricer], with those of [Bumpable] and [TimeBumpable], for
    pricers held as a [P].  A method taking [&mut self] returns the changed pricer along with its outcome; a save area
    passed by reference is returned too. *)
Record pricer_ops (T P : Type) := mkPricer {
  op_price : P -> res T;
  op_dependencies : P -> res (collector T);
  op_context : P -> pricing_context T;
  op_bump : bump T -> P -> option (saveable T) -> res bool * P * option (saveable T);
  op_new_saveable : P -> saveable T;
  op_restore : saveable T -> P -> res unit * P;
  op_bump_time : bump_time -> P -> res unit * P
}.
Arguments mkPricer {T P}.
Arguments op_price {T P} p : rename.
Arguments op_dependencies {T P} p : rename.
Arguments op_context {T P} p : rename.
Arguments op_bump {T P} p : rename.
Arguments op_new_saveable {T P} p : rename.
Arguments op_restore {T P} p : rename.
Arguments op_bump_time {T P} p : rename.

(** The implementations of [trait Report]: deltagamma.rs:27-30, vegavolga.rs:36-39, timebumped.rs:22-26.  An entry is
    delta and gamma, or vega and volga. *)
Inductive report (T : Type) :=
| DeltaGammaReport (bumpsize : T) (results : smap (T * T))
| VegaVolgaReport (bumpsize : T) (results : smap (T * T))
| TimeBumpedReport (price theta : T) (subreports : list (report T)).
Arguments DeltaGammaReport {T} bumpsize results.
Arguments VegaVolgaReport {T} bumpsize results.
Arguments TimeBumpedReport {T} price theta subreports.

(** The implementations of [trait ReportGenerator]: deltagamma.rs:118-120, vegavolga.rs:121-123, timebumped.rs:88-91. *)
Inductive generator (T : Type) :=
| DeltaGammaGenerator (bumpsize : T)
| VegaVolgaGenerator (b : bump_vol T)
| TimeBumpedGenerator (b : bump_time) (subgenerators : list (generator T)).
Arguments DeltaGammaGenerator {T} bumpsize.
Arguments VegaVolgaGenerator {T} b.
Arguments TimeBumpedGenerator {T} b subgenerators.

(** risk/mod.rs:151-155 [struct ReportTolerances]. *)
Record tolerances (T : Type) := mkTol { tol_price : T; tol_currency_risk : T; tol_unit_risk : T }.
Arguments mkTol {T}.
Arguments tol_price {T} t : rename.
Arguments tol_currency_risk {T} t : rename.
Arguments tol_unit_risk {T} t : rename.

Section SelfPricer.
  Context {T : Type} {N : Num T} {TR : Trans T}.
  Variable nan : T.
  Variable cdf : T -> T.
  Local Open Scope num_scope.

  (** selfpricer.rs:58-83: the dependencies of a portfolio.  Every kind of instrument is priceable. *)
  Definition portfolio_dependencies (instruments : holdings T) (spot_date : date) : res (collector T) :=
    foldM (fun s h => collect_spot (snd h) s) (collector_new spot_date) instruments.

  (** selfpricer.rs:73-95 [SelfPricer::new]. *)
  Definition self_pricer_new (instruments : holdings T) (md : market_data T) : res (self_pricer T) :=
    let* deps := portfolio_dependencies instruments (md_spot_date md) in
    let* context := prefetch_new nan md deps in
    Ok (mkSelfPricer instruments context).

  (** selfpricer.rs:58-71 and montecarlo.rs:70-75: the portfolio after applying the fixings. *)
  Definition fixed_portfolio (i : instrument T) (t : fixing_table T) : res (holdings T) :=
    let* fixed := fix_instrument t i in
    Ok (match fixed with Some l => l | None => [(n1, i)] end).

  (** selfpricer.rs:58-71 [SelfPricerFactory::new]. *)
  Definition self_pricer_factory (i : instrument T) (t : fixing_table T) (md : market_data T) : res (self_pricer T) :=
    let* instruments := fixed_portfolio i t in self_pricer_new instruments md.

  (** selfpricer.rs:103-121 [price]. *)
  Definition self_price (sp : self_pricer T) : res T :=
    let c := prefetch_context nan (sp_context sp) in
    let val_date := mkDT (ctx_spot_date c) Open_ in
    foldM (fun total h => let* x := price nan cdf c (snd h) val_date in Ok (total + fst h * x)) n0 (sp_instruments sp).

  (** bumptime.rs:72-92: the fixings an id has between the old and the new spot date, with their values. *)
  Definition passed_fixings (bt : bump_time) (c : pricing_context T) (deps : collector T) (id : string) (u : instrument T)
      : res (list (datetime * T)) :=
    let new_date := bsd_date (bt_spot_date_bump bt) in
    mapM (fun f =>
            let* value := match bsd_dynamics (bt_spot_date_bump bt) with
                          | StickyForward =>
                              let* curve := ctx_forward_curve c u new_date in forward_at nan curve (dt_date f)
                          | StickySpot => ctx_spot c id
                          end in
            Ok (f, value))
      (filter (fun f => ((ctx_spot_date c <=? dt_date f) && (dt_date f <? new_date))%Z) (fixings_of id deps)).

  (** bumptime.rs:71-92: the fixing map. *)
  Fixpoint fixing_map (bt : bump_time) (c : pricing_context T) (deps : collector T) (instruments : smap (instrument T))
      : res (list (string * list (datetime * T))) :=
    match instruments with
    | [] => Ok []
    | (id, u) :: rest =>
        let* fs := passed_fixings bt c deps id u in
        let* m := fixing_map bt c deps rest in
        Ok (match fs with [] => m | _ => (id, fs) :: m end)
    end.

  (** bumptime.rs:57-106 [update_instruments]: whether the instruments have changed, and what they are now. *)
  Definition update_instruments (bt : bump_time) (instruments : holdings T) (c : pricing_context T) (deps : collector T)
      : res (bool * holdings T) :=
    let* m := fixing_map bt c deps (col_instruments deps) in
    match m with
    | [] => Ok (false, instruments)
    | _ =>
        let* table := from_fixings (bsd_date (bt_spot_date_bump bt)) m in
        let* fixed := fix_all instruments table in
        Ok (match fixed with Some replacement => (true, replacement) | None => (false, instruments) end)
    end.

  (** bumptime.rs:35-52 [apply] on the context of a pricer. *)
  Definition apply_time_bump {P} (bt : bump_time) (instruments : holdings T) (c : pricing_context T) (deps : res (collector T))
      (bump_it : bump T -> P -> option (saveable T) -> res bool * P * option (saveable T)) (p : P)
      : res bool * holdings T * P :=
    match (let* deps := deps in update_instruments bt instruments c deps) with
    | Err m => (Err m, instruments, p)
    | Panic m => (Panic m, instruments, p)
    | Ok (modified, instruments') =>
        let '(r, p', _) := bump_it (BSpotDate (bt_spot_date_bump bt)) p None in
        (rmap (fun _ => modified) r, instruments', p')
    end.

  (** selfpricer.rs:151-158 [bump_time]. *)
  Definition self_bump_time (bt : bump_time) (sp : self_pricer T) : res unit * self_pricer T :=
    let pf := sp_context sp in
    let '(r, instruments, pf') :=
      apply_time_bump bt (sp_instruments sp) (prefetch_context nan pf) (Ok (pf_deps pf)) (prefetch_bump nan) pf in
    let sp' := mkSelfPricer instruments pf' in
    match r with
    | Err m => (Err m, sp')
    | Panic m => (Panic m, sp')
    | Ok false => (Ok tt, sp')
    | Ok true =>
        match self_pricer_new instruments (pf_data pf') with
        | Ok sp'' => (Ok tt, sp'')
        | Err m => (Err m, sp')
        | Panic m => (Panic m, sp')
        end
    end.

  (** selfpricer.rs:124-149 [impl Bumpable for SelfPricer]. *)
  Definition self_bump (b : bump T) (sp : self_pricer T) (save : option (saveable T))
      : res bool * self_pricer T * option (saveable T) :=
    let '(r, pf, save') := prefetch_bump nan b (sp_context sp) save in (r, mkSelfPricer (sp_instruments sp) pf, save').
  Definition self_restore (s : saveable T) (sp : self_pricer T) : res unit * self_pricer T :=
    let '(r, pf) := prefetch_restore s (sp_context sp) in (r, mkSelfPricer (sp_instruments sp) pf).

  Definition self_ops : pricer_ops T (self_pricer T) :=
    mkPricer self_price (fun sp => Ok (pf_deps (sp_context sp))) (fun sp => prefetch_context nan (sp_context sp))
      self_bump (fun _ => saved_prefetch_new) self_restore self_bump_time.
End SelfPricer.

Section Reports.
  Context {T : Type} {N : Num T} {TR : Trans T}.
  Variable nan : T.
  Context {P : Type}.
  Variable ops : pricer_ops T P.
  Local Open Scope num_scope.

  (** risk/mod.rs:268-276 [bumped_price]. *)
  Definition bumped_price (b : bump T) (p : P) (save : option (saveable T)) (unbumped : T)
      : res T * P * option (saveable T) :=
    match op_bump ops b p save with
    | (Ok true, p', save') => (op_price ops p', p', save')
    | (Ok false, p', save') => (Ok unbumped, p', save')
    | (Err m, p', save') => (Err m, p', save')
    | (Panic m, p', save') => (Panic m, p', save')
    end.

  (** deltagamma.rs:154-166 and vegavolga.rs:154-163: bump up with the save area, bump down without, restore, clear.  The
      two prices, the pricer and the save area. *)
  Definition up_and_down (up down : bump T) (unbumped : T) (p : P) (sv : saveable T) : res (T * T) * P * saveable T :=
    let '(r1, p1, s1) := bumped_price up p (Some sv) unbumped in
    let sv1 := match s1 with Some s => s | None => sv end in
    match r1 with
    | Err m => (Err m, p1, sv1)
    | Panic m => (Panic m, p1, sv1)
    | Ok upbumped =>
        let '(r2, p2, _) := bumped_price down p1 None unbumped in
        match r2 with
        | Err m => (Err m, p2, sv1)
        | Panic m => (Panic m, p2, sv1)
        | Ok downbumped =>
            let '(r3, p3) := op_restore ops sv1 p2 in
            match r3 with
            | Err m => (Err m, p3, sv1)
            | Panic m => (Panic m, p3, sv1)
            | Ok _ => (Ok (upbumped, downbumped), p3, clear sv1)
            end
        end
    end.

  (** vegavolga.rs:166-167 and deltagamma.rs:169-170: the two derivatives for a bump of the given absolute size. *)
  Definition first_and_second (up down unbumped size : T) : T * T :=
    ((up - down) / (nofZ 2 * size), (up + down - nofZ 2 * unbumped) / (size * size)).

  (** deltagamma.rs:151-172: the loop over the instruments. *)
  Fixpoint delta_loop (bumpsize unbumped : T) (ids : list string) (results : smap (T * T)) (p : P) (sv : saveable T)
      : res (smap (T * T)) * P * saveable T :=
    match ids with
    | [] => (Ok results, p, sv)
    | id :: rest =>
        match ctx_spot (op_context ops p) id with
        | Err m => (Err m, p, sv)
        | Panic m => (Panic m, p, sv)
        | Ok spot =>
            let down_bump := (n1 - bumpsize) / (n1 + bumpsize) - n1 in
            match up_and_down (BSpot id (RelativeSpot bumpsize)) (BSpot id (RelativeSpot down_bump)) unbumped p sv with
            | (Ok (up, down), p', sv') =>
                delta_loop bumpsize unbumped rest (put id (first_and_second up down unbumped (bumpsize * spot)) results) p' sv'
            | (Err m, p', sv') => (Err m, p', sv')
            | (Panic m, p', sv') => (Panic m, p', sv')
            end
        end
    end.

  (** vegavolga.rs:151-169: the loop over the instruments. *)
  Fixpoint vega_loop (b : bump_vol T) (unbumped : T) (ids : list string) (results : smap (T * T)) (p : P) (sv : saveable T)
      : res (smap (T * T)) * P * saveable T :=
    match ids with
    | [] => (Ok results, p, sv)
    | id :: rest =>
        match up_and_down (BVol id b) (BVol id (vol_opposite nan b)) unbumped p sv with
        | (Ok (up, down), p', sv') =>
            vega_loop b unbumped rest (put id (first_and_second up down unbumped (vol_bumpsize nan b)) results) p' sv'
        | (Err m, p', sv') => (Err m, p', sv')
        | (Panic m, p', sv') => (Panic m, p', sv')
        end
    end.

  Section Several.
    Variable gen : generator T -> P -> saveable T -> T -> res (report T) * P * saveable T.

    (** timebumped.rs:138-141 and facade/mod.rs:143-146: one report after another. *)
    Fixpoint generate_each (gs : list (generator T)) (p : P) (sv : saveable T) (unbumped : T)
        : res (list (report T)) * P * saveable T :=
      match gs with
      | [] => (Ok [], p, sv)
      | g :: rest =>
          match gen g p sv unbumped with
          | (Ok r, p', sv') =>
              let '(rs, p'', sv'') := generate_each rest p' sv' unbumped in (rmap (cons r) rs, p'', sv'')
          | (Err m, p', sv') => (Err m, p', sv')
          | (Panic m, p', sv') => (Panic m, p', sv')
          end
      end.
  End Several.

  (** [ReportGenerator::generate]: deltagamma.rs:137-176, vegavolga.rs:141-173, timebumped.rs:120-145.  Lookups of
      [instruments_clone] are the ids the pricer depends on. *)
  Fixpoint generate (g : generator T) (p : P) (sv : saveable T) (unbumped : T) : res (report T) * P * saveable T :=
    match g with
    | DeltaGammaGenerator bumpsize =>
        match op_dependencies ops p with
        | Err m => (Err m, p, sv)
        | Panic m => (Panic m, p, sv)
        | Ok deps =>
            let '(r, p', sv') := delta_loop bumpsize unbumped (keys (col_instruments deps)) [] p sv in
            (rmap (DeltaGammaReport bumpsize) r, p', sv')
        end
    | VegaVolgaGenerator b =>
        match op_dependencies ops p with
        | Err m => (Err m, p, sv)
        | Panic m => (Panic m, p, sv)
        | Ok deps =>
            let '(r, p', sv') := vega_loop b unbumped (keys (col_instruments deps)) [] p sv in
            (rmap (VegaVolgaReport (vol_bumpsize nan b)) r, p', sv')
        end
    | TimeBumpedGenerator bt gs =>
        let '(r, clone) := op_bump_time ops bt p in
        match r with
        | Err m => (Err m, p, sv)
        | Panic m => (Panic m, p, sv)
        | Ok _ =>
            match op_price ops clone with
            | Err m => (Err m, p, sv)
            | Panic m => (Panic m, p, sv)
            | Ok time_bumped =>
                let '(rs, _, sv') := generate_each generate gs clone sv time_bumped in
                (rmap (TimeBumpedReport time_bumped (time_bumped - unbumped)) rs, p, sv')
            end
        end
    end.

  (** facade/mod.rs:133-149 [calculate], once the pricer has been made. *)
  Definition calculate (p : P) (gs : list (generator T)) : res (list (report T)) :=
    let* unbumped := op_price ops p in
    let '(rs, _, _) := generate_each generate gs p (op_new_saveable ops p) unbumped in rs.
End Reports.

Section Compare.
  Context {T : Type} {N : Num T}.
  Local Open Scope num_scope.

  (** deltagamma.rs:104-114 and vegavolga.rs:108-118: compare one entry. *)
  Definition compare_entry (x y : T * T) (tol1 tol2 : T) : list string :=
    ((if approx_eq (fst x) (fst y) tol1 then [] else ["first"]) ++
     (if approx_eq (snd x) (snd y) tol2 then [] else ["second"]))%list.

  (** deltagamma.rs:49-74 and vegavolga.rs:57-82 [validate]: the differences written, empty when there are none. *)
  Definition compare_results (tol bumpsize : T) (mine other : smap (T * T)) : list string :=
    let tol1 := tol / bumpsize in
    let tol2 := tol1 / bumpsize in
    ((if Nat.eqb (List.length mine) (List.length other) then [] else ["number of reports"]) ++
     flat_map (fun kv => match get (fst kv) other with
                         | Some y => compare_entry (snd kv) y tol1 tol2
                         | None => ["missing"]
                         end) mine)%list.

  Section Many.
    Variable compare : report T -> report T -> list string.
    (** mod.rs:243-245, timebumped.rs:73-75: [zip] and compare. *)
    Fixpoint compare_zip (mine other : list (report T)) : list string :=
      match mine, other with
      | x :: mine', y :: other' => (compare x y ++ compare_zip mine' other')%list
      | _, _ => []
      end.
  End Many.

  (** [validate_report]: deltagamma.rs:76-86, vegavolga.rs:84-94, timebumped.rs:51-92. *)
  Fixpoint compare_reports (tol : tolerances T) (mine other : report T) {struct mine} : list string :=
    match mine, other with
    | DeltaGammaReport bumpsize results, DeltaGammaReport _ results' =>
        compare_results (tol_unit_risk tol) bumpsize results results'
    | VegaVolgaReport bumpsize results, VegaVolgaReport _ results' =>
        compare_results (tol_currency_risk tol) bumpsize results results'
    | TimeBumpedReport price theta subs, TimeBumpedReport price' theta' subs' =>
        ((if approx_eq price price' (tol_price tol) then [] else ["price"]) ++
         (if approx_eq theta theta' (tol_price tol) then [] else ["theta"]) ++
         (if Nat.eqb (List.length subs) (List.length subs') then [] else ["number of subreports"]) ++
         compare_zip (compare_reports tol) subs subs')%list
    | _, _ => ["mismatching report"]
    end.

  (** mod.rs:237-248: compare two lists of reports. *)
  Definition compare_all (tol : tolerances T) (mine other : list (report T)) : list string :=
    ((if Nat.eqb (List.length mine) (List.length other) then [] else ["length"]) ++
     compare_zip (compare_reports tol) mine other)%list.

  (** facade/mod.rs:170-181 [assert_approx_eq_reports]. *)
  Definition assert_approx_eq_reports (tol : tolerances T) (mine other : list (report T)) : res unit :=
    match compare_all tol mine other with [] => Ok tt | _ => Err "Mismatch" end.
End Compare.
