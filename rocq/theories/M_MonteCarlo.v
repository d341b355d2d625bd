(** Model of src/models (mod.rs, blackdiffusion.rs), src/pricers/montecarlo.rs and of [MonteCarloPriceable]. *)
From Coq Require Import ZArith List String Bool.
From Verif Require Import Prelude Num M_Dates M_Calendar M_Curves M_Fixings M_Forward M_Vol M_Black76 M_Instruments M_Deps M_Risk M_Reports.
Import ListNotations.
Open Scope string_scope.

(** models/mod.rs:95-100 [struct MonteCarloTimeline].  The map is keyed by the id of the instrument (instruments/mod.rs:
    211-226) and remembers the instrument that was the key first. *)
Record timeline (T : Type) := mkTimeline {
  tl_observations : smap (instrument T * list (ddf T));
  tl_flows : list (instrument T)
}.
Arguments mkTimeline {T}.
Arguments tl_observations {T} t : rename.
Arguments tl_flows {T} t : rename.

(** models/blackdiffusion.rs:47-52 [struct BlackDiffusionFactory] without the correlation substep, which is not used. *)
Record diffusion_factory (T : Type) := mkFactory { df_path_substep : T; df_n_paths : nat }.
Arguments mkFactory {T}.
Arguments df_path_substep {T} d : rename.
Arguments df_n_paths {T} d : rename.

(** A two-dimensional array indexed by path, then step or observation. *)
Notation matrix T := (list (list T)).

(** models/blackdiffusion.rs:126-135 [struct BlackDiffusion].  The arrays are indexed by path, step or observation and
    asset in the code; here by asset, path, and step or observation.  The key from ids to assets is the position of the
    id among the instruments.  The number of paths is kept as it is part of the shape of the arrays. *)
Record diffusion (T : Type) := mkDiffusion {
  bd_observations : list (ddf T);
  bd_flows : list (instrument T);
  bd_context : prefetch T;
  bd_instruments : list (instrument T);
  bd_substepping : list nat;
  bd_n_paths : nat;
  bd_gaussians : list (matrix T);
  bd_paths : list (matrix T)
}.
Arguments mkDiffusion {T}.
Arguments bd_observations {T} d : rename.
Arguments bd_flows {T} d : rename.
Arguments bd_context {T} d : rename.
Arguments bd_instruments {T} d : rename.
Arguments bd_substepping {T} d : rename.
Arguments bd_n_paths {T} d : rename.
Arguments bd_gaussians {T} d : rename.
Arguments bd_paths {T} d : rename.

(** pricers/montecarlo.rs:31-35 [struct MonteCarloPricer], with the one kind of model there is. *)
Record mc_pricer (T : Type) := mkMcPricer {
  mp_factory : diffusion_factory T;
  mp_instruments : holdings T;
  mp_model : diffusion T
}.
Arguments mkMcPricer {T}.
Arguments mp_factory {T} m : rename.
Arguments mp_instruments {T} m : rename.
Arguments mp_model {T} m : rename.

(** [array.subview_mut(Axis(2), k).assign(x)] within bounds. *)
Fixpoint set_nth {A} (k : nat) (x : A) (l : list A) : list A :=
  match k, l with
  | O, _ :: l' => x :: l'
  | S k', y :: l' => y :: set_nth k' x l'
  | _, [] => []
  end.

(** [HashMap<usize, _>::insert]. *)
Fixpoint put_nat {A} (k : nat) (x : A) (m : list (nat * A)) : list (nat * A) :=
  match m with
  | [] => [(k, x)]
  | (k', y) :: m' => if Nat.eqb k k' then (k', x) :: m' else (k', y) :: put_nat k x m'
  end.

Section MonteCarlo.
  Context {T : Type} {N : Num T} {TR : Trans T}.
  Variable nan : T.
  Variable cdf : T -> T.
  Local Open Scope num_scope.
  Implicit Types i u : instrument T.
  Implicit Types d : diffusion T.

  (** models/mod.rs:139-146 [observation]: [entry(instrument).or_insert(Vec::new()).push(date_time)]. *)
  Definition observe u (when : ddf T) (t : timeline T) : timeline T :=
    mkTimeline
      (match get (instrument_id u) (tl_observations t) with
       | None => put (instrument_id u) (u, [when]) (tl_observations t)
       | Some (key, l) => put (instrument_id u) (key, (l ++ [when])%list) (tl_observations t)
       end) (tl_flows t).

  (** models/mod.rs:148-153 [flow]. *)
  Definition add_flow i (t : timeline T) : timeline T := mkTimeline (tl_observations t) (tl_flows t ++ [i])%list.

  (** options.rs:491-498 and 557-564: the payment of an option as far as Monte-Carlo is concerned. *)
  Definition expiry_flow (v : vanilla T) : instrument T :=
    IZeroCoupon (van_id v ++ ":Expiry") (van_credit_id v) (payoff_currency (van_underlying v))
      (van_expiry v) (van_pay_date v) (van_settlement v).

  (** options.rs:482-501 and 547-567 [mc_dependencies]; montecarlo.rs:98-103 for the instruments that are not
      [MonteCarloPriceable]. *)
  Definition mc_dependencies i (t : timeline T) : res (timeline T) :=
    match i with
    | ISpotEuropean v _ => Ok (add_flow (expiry_flow v) (observe (van_underlying v) (van_expiry_time v) t))
    | IForwardEuropean v _ _ strike_time =>
        Ok (add_flow (expiry_flow v)
              (observe (van_underlying v) (van_expiry_time v) (observe (van_underlying v) strike_time t)))
    | _ => Err ("Instrument " ++ instrument_id i ++ " is not priceable by MonteCarlo")
    end.

  (** f64::ceil, as an integer. *)
  Definition nceil (x : T) : Z := let t := ntrunc x in if nofZ t <? x then (t + 1)%Z else t.

  (** blackdiffusion.rs:273-288: the inner loop, over the observations of one asset. *)
  Fixpoint substep_loop (fwd : forward T) (surface : vol_surface T) (path_substep prev_var : T)
      (observations : list (ddf T)) (substepping : list nat) : res (list nat) :=
    match observations, substepping with
    | obs :: observations', substep :: substepping' =>
        let* atm := forward_at nan fwd (ddf_date obs) in
        let* var := variance nan surface obs atm in
        let fwd_var := var - prev_var in
        let* _ := guard (negb (fwd_var <? n0)) "Negative forward variance" in
        let steps := Z.to_nat (nceil (fwd_var / path_substep)) in
        let* rest := substep_loop fwd surface path_substep var observations' substepping' in
        Ok (Nat.max substep steps :: rest)
    | _, _ => Ok substepping
    end.

  (** [observations.last().unwrap().date()]. *)
  Definition last_date (observations : list (ddf T)) : date :=
    match observations with [] => 0%Z | o :: rest => ddf_date (last rest o) end.

  (** blackdiffusion.rs:251-291 [calculate_substepping]. *)
  Definition calculate_substepping (observations : list (ddf T)) (c : pricing_context T) (instruments : list (instrument T))
      (path_substep : T) : res (list nat) :=
    let* _ := guard (negb (Nat.eqb (List.length observations) 0)) "No observations" in
    let hwm := last_date observations in
    foldM (fun substepping u =>
             let* fwd := ctx_forward_curve c u hwm in
             let* surface := ctx_vol_surface c u hwm (Ok fwd) in
             substep_loop fwd surface path_substep n0 observations substepping)
      (map (fun _ => 1%nat) observations) instruments.

  (** blackdiffusion.rs:296-377 [fetch_correlated_gaussians].  [draws] are the samples of the normal distribution by path
      and step; the generator is seeded by the operating system (line 352).  With one asset the correlation matrix and its
      root are the unit matrix.  With more the first correlation asked for is an error (marketdata.rs:228-231, cache.rs:
      202-205). *)
  Definition fetch_gaussians (draws : nat -> nat -> T) (instruments : list (instrument T)) (substepping : list nat) (n_paths : nat)
      : res (list (matrix T)) :=
    let n_steps := list_sum substepping in
    let* _ := assert_ (Nat.ltb 0 n_steps) "n_steps > 0" in
    let* _ := assert_ (Nat.ltb 0 (List.length instruments)) "n_assets > 0" in
    let* _ := assert_ (Nat.ltb 0 n_paths) "n_paths > 0" in
    match instruments with
    | [_] => Ok [map (fun path => map (draws path) (seq 0 n_steps)) (seq 0 n_paths)]
    | _ => Err "Correlation not implemented"
    end.

  (** blackdiffusion.rs:428-437: the forward less the displacement, the variance and the displacement at an observation. *)
  Definition fetch_marks (curve : forward T) (surface : vol_surface T) (observations : list (ddf T)) : res (list (T * T * T)) :=
    mapM (fun obs =>
            let* fwd := forward_at nan curve (ddf_date obs) in
            let* var := variance nan surface obs fwd in
            let* disp := displacement nan surface (ddf_date obs) in
            Ok (fwd - disp, var, disp)) observations.

  (** blackdiffusion.rs:444-453: the standard deviation of a substep towards each observation. *)
  Fixpoint fetch_sigmas (prev_var : T) (variances : list T) (substepping : list nat) : res (list T) :=
    match variances, substepping with
    | var :: variances', substep :: substepping' =>
        let fwd_var := (var - prev_var) / nofZ (Z.of_nat substep) in
        let* _ := guard (negb (fwd_var <? n0)) "Negative forward variance" in
        let* rest := fetch_sigmas var variances' substepping' in
        Ok (nsqrt fwd_var :: rest)
    | _, _ => Ok []
    end.

  (** blackdiffusion.rs:464-467: the substeps towards an observation.  The point reached and the draws left. *)
  Fixpoint take_substeps (n : nat) (sigma point : T) (gaussians : list T) : res (T * list T) :=
    match n with
    | O => Ok (point, gaussians)
    | S n' =>
        match gaussians with
        | g :: gaussians' => take_substeps n' sigma (point * (n1 + g * sigma)) gaussians'
        | [] => Panic "index out of bounds"
        end
    end.

  (** blackdiffusion.rs:459-471: the walk along one path, over the standard deviation, number of substeps, forward less
      displacement, and displacement of each observation. *)
  Fixpoint walk_path (legs : list (T * nat * (T * T))) (point : T) (gaussians : list T) : res (list T) :=
    match legs with
    | [] => Ok []
    | (sigma, n, (forward, disp)) :: legs' =>
        let* (point, gaussians) := take_substeps n sigma point gaussians in
        let* rest := walk_path legs' point gaussians in
        Ok (point * forward + disp :: rest)
    end.

  (** blackdiffusion.rs:408-477 [fetch_path]. *)
  Definition fetch_path u (c : pricing_context T) (observations : list (ddf T)) (gaussians : matrix T) (substepping : list nat)
      : res (matrix T) :=
    let n_obs := List.length observations in
    let* _ := assert_ (Nat.ltb 0 n_obs) "n_obs > 0" in
    let* _ := assert_ (forallb (fun g => Nat.leb n_obs (List.length g)) gaussians) "shape[1] >= n_obs" in
    let hwm := last_date observations in
    let* curve := ctx_forward_curve c u hwm in
    let* surface := ctx_vol_surface c u hwm (Ok curve) in
    let* marks := fetch_marks curve surface observations in
    let* sigmas := fetch_sigmas n0 (map (fun m => snd (fst m)) marks) substepping in
    let legs := combine (combine sigmas substepping) (map (fun m => (fst (fst m), snd m)) marks) in
    mapM (walk_path legs n1) gaussians.

  (** blackdiffusion.rs:379-406 [fetch_paths]. *)
  Definition fetch_paths (observations : list (ddf T)) (gaussians : list (matrix T)) (c : pricing_context T)
      (instruments : list (instrument T)) (substepping : list nat) (n_paths : nat) : res (list (matrix T)) :=
    let* _ := assert_ (Nat.ltb 0 (List.length observations)) "n_obs > 0" in
    let* _ := assert_ (Nat.ltb 0 (List.length instruments)) "n_assets > 0" in
    let* _ := assert_ (Nat.ltb 0 n_paths) "n_paths > 0" in
    mapM (fun ug => fetch_path (fst ug) c observations (snd ug) substepping) (combine instruments gaussians).

  (** The order in which a HashMap from ids to instruments and observations is iterated. *)
  Variable visit : smap (instrument T * list (ddf T)) -> smap (instrument T * list (ddf T)).

  (** blackdiffusion.rs:150-202 [BlackDiffusion::new]. *)
  Definition diffusion_new (draws : nat -> nat -> T) (t : timeline T) (context : prefetch T) (f : diffusion_factory T)
      : res (diffusion T) :=
    let assets := visit (tl_observations t) in
    let observations := match assets with [] => [] | (_, (_, obs)) :: _ => obs end in
    let instruments := map (fun a => fst (snd a)) assets in
    let c := prefetch_context nan context in
    let* substepping := calculate_substepping observations c instruments (df_path_substep f) in
    let* gaussians := fetch_gaussians draws instruments substepping (df_n_paths f) in
    let* paths := fetch_paths observations gaussians c instruments substepping (df_n_paths f) in
    Ok (mkDiffusion observations (tl_flows t) context instruments substepping (df_n_paths f) gaussians paths).

  (** blackdiffusion.rs:158-174: what the key has for an id. *)
  Fixpoint asset_of (id : string) (instruments : list (instrument T)) : option nat :=
    match instruments with
    | [] => None
    | u :: rest => if String.eqb id (instrument_id u) then Some O else option_map S (asset_of id rest)
    end.

  Definition with_paths d (context : prefetch T) (paths : list (matrix T)) : diffusion T :=
    mkDiffusion (bd_observations d) (bd_flows d) context (bd_instruments d) (bd_substepping d) (bd_n_paths d) (bd_gaussians d) paths.

  (** blackdiffusion.rs:205-232 [refetch]. *)
  Definition refetch_path (id : string) (bumped : bool) (saved : option (list (nat * matrix T))) d
      : res bool * diffusion T * option (list (nat * matrix T)) :=
    if negb bumped then (Ok false, d, saved)
    else
      match asset_of id (bd_instruments d) with
      | None => (Err "Failed to find asset", d, saved)
      | Some k =>
          match nth_error (bd_paths d) k, nth_error (bd_instruments d) k, nth_error (bd_gaussians d) k with
          | Some path, Some u, Some g =>
              let saved := option_map (put_nat k path) saved in
              match fetch_path u (prefetch_context nan (bd_context d)) (bd_observations d) g (bd_substepping d) with
              | Ok path' => (Ok true, with_paths d (bd_context d) (set_nth k path' (bd_paths d)), saved)
              | Err m => (Err m, d, saved)
              | Panic m => (Panic m, d, saved)
              end
          | _, _, _ => (Panic "index out of bounds", d, saved)
          end
      end.

  (** blackdiffusion.rs:237-245 [refetch_all]. *)
  Definition refetch_all_paths d : res unit * diffusion T :=
    match fetch_paths (bd_observations d) (bd_gaussians d) (prefetch_context nan (bd_context d)) (bd_instruments d)
            (bd_substepping d) (bd_n_paths d) with
    | Ok paths => (Ok tt, with_paths d (bd_context d) paths)
    | Err m => (Err m, d)
    | Panic m => (Panic m, d)
    end.

  (** blackdiffusion.rs:571-587: the loops of a yield bump. *)
  Fixpoint refetch_each_path (ids : list string) (bumped : bool) (saved : option (list (nat * matrix T))) d
      : res bool * diffusion T * option (list (nat * matrix T)) :=
    match ids with
    | [] => (Ok bumped, d, saved)
    | id :: rest =>
        match refetch_path id bumped saved d with
        | (Ok _, d', saved') => refetch_each_path rest bumped saved' d'
        | (Err m, d', saved') => (Err m, d', saved')
        | (Panic m, d', saved') => (Panic m, d', saved')
        end
    end.

  (** blackdiffusion.rs:554-602: [bump] once the save space has been cast into its two parts. *)
  Definition diffusion_bump_saved (b : bump T) d (inner : option (saveable T)) (saved : option (list (nat * matrix T)))
      : res bool * diffusion T * option (saveable T) * option (list (nat * matrix T)) :=
    let '(r, context, inner') := prefetch_bump nan b (bd_context d) inner in
    let d' := with_paths d context (bd_paths d) in
    match r with
    | Err m => (Err m, d', inner', saved)
    | Panic m => (Panic m, d', inner', saved)
    | Ok bumped =>
        let '(r', d'', saved') :=
          match b with
          | BSpot id _ | BDivs id _ | BBorrow id _ | BVol id _ => refetch_path id bumped saved d'
          | BYield credit _ => refetch_each_path (forward_ids_of credit (pf_deps context)) bumped saved d'
          | BSpotDate _ =>
              if bumped then let '(r, d'') := refetch_all_paths d' in (rmap (fun _ => bumped) r, d'', saved)
              else (Ok bumped, d', saved)
          end in
        (r', d'', inner', saved')
    end.

  (** blackdiffusion.rs:548-602 [Bumpable::bump] with 638-650 [to_saved]. *)
  Definition diffusion_bump (b : bump T) d (save : option (saveable T)) : res bool * diffusion T * option (saveable T) :=
    match save with
    | None => let '(r, d', _, _) := diffusion_bump_saved b d None None in (r, d', None)
    | Some (SaveDiffusion inner paths) =>
        let '(r, d', inner', paths') := diffusion_bump_saved b d (Some inner) (Some paths) in
        (r, d', match inner', paths' with Some inner', Some paths' => Some (SaveDiffusion inner' paths') | _, _ => None end)
    | Some other => (Err "Mismatching save space for black diffusion", d, Some other)
    end.

  (** blackdiffusion.rs:604-607 [new_saveable]. *)
  Definition diffusion_saveable : saveable T := SaveDiffusion saved_prefetch_new [].

  (** blackdiffusion.rs:625-629: the saved paths are put back, in the order of a HashMap.  Saved arrays are taken to have
      the shape of those they replace. *)
  Fixpoint put_back (saved : list (nat * matrix T)) (paths : list (matrix T)) : res unit * list (matrix T) :=
    match saved with
    | [] => (Ok tt, paths)
    | (k, path) :: rest =>
        if Nat.ltb k (List.length paths) then put_back rest (set_nth k path paths)
        else (Panic "index out of bounds", paths)
    end.

  (** blackdiffusion.rs:617-635 [restore]. *)
  Definition diffusion_restore (s : saveable T) d : res unit * diffusion T :=
    match s with
    | SaveDiffusion inner saved =>
        let '(r, context) := prefetch_restore inner (bd_context d) in
        match r with
        | Ok _ => let '(r', paths) := put_back saved (bd_paths d) in (r', with_paths d context paths)
        | _ => (r, with_paths d context (bd_paths d))
        end
    | _ => (Err "Mismatching save space for restore", d)
    end.

  (** blackdiffusion.rs:489-496 [paths]. *)
  Definition mc_paths d u : res (matrix T) :=
    match asset_of (instrument_id u) (bd_instruments d) with
    | None => Err ("BlackDiffusion does not know about '" ++ instrument_id u ++ "'")
    | Some k => match nth_error (bd_paths d) k with Some p => Ok p | None => Panic "index out of bounds" end
    end.

  (** [Instrument::is_pure_rates]: mod.rs:86-88, bonds.rs:90-92. *)
  Definition is_pure_rates i : bool := match i with IZeroCoupon _ _ _ _ _ _ => true | _ => false end.

  Definition nsum (l : list T) : T := fold_left nadd l n0.

  (** blackdiffusion.rs:512-537: the loop over the flows, each with the column of its quantities. *)
  Fixpoint flow_total (c : pricing_context T) (val_date : datetime) (n_paths : nat) (flows : list (instrument T)) (quantities : matrix T)
      (total : T) : res T :=
    match flows with
    | [] => Ok total
    | flow :: flows' =>
        if is_pure_rates flow then
          let average := nsum (map (hd n0) quantities) / nofZ (Z.of_nat n_paths) in
          let* value := price nan cdf c flow val_date in
          flow_total c val_date n_paths flows' (map (@tl T) quantities) (total + average * value)
        else Err "not implemented"
    end.

  (** blackdiffusion.rs:498-539 [evaluate_flows]. *)
  Definition evaluate_flows d (quantities : matrix T) : res T :=
    let* _ := assert_ (Nat.eqb (List.length quantities) (bd_n_paths d)) "flows_shape[0] == n_paths" in
    let* _ := assert_ (forallb (fun row => Nat.eqb (List.length row) (List.length (bd_flows d))) quantities) "flows_shape[1] == flows.len()" in
    let c := prefetch_context nan (bd_context d) in
    flow_total c (mkDT (ctx_spot_date c) Open_) (bd_n_paths d) (bd_flows d) quantities n0.

  (** options.rs:507-541 and 573-608 [mc_price].  Other instruments are skipped by the pricer (montecarlo.rs:130). *)
  Definition mc_price d i : res (option T) :=
    match i with
    | ISpotEuropean v strike =>
        let* paths := mc_paths d (van_underlying v) in
        let* _ := assert_ (forallb (fun path => Nat.eqb (List.length path) 1) paths) "n_obs == 1" in
        let sign := option_sign (van_put_or_call v) in
        let* x := evaluate_flows d
                    (map (fun path => match path with spot :: _ => [nmax (sign * (spot - strike)) n0] | [] => [] end) paths) in
        Ok (Some x)
    | IForwardEuropean v fraction _ _ =>
        let* paths := mc_paths d (van_underlying v) in
        let* _ := assert_ (forallb (fun path => Nat.eqb (List.length path) 2) paths) "n_obs == 2" in
        let sign := option_sign (van_put_or_call v) in
        let* x := evaluate_flows d
                    (map (fun path => match path with
                                      | start :: spot :: _ => [nmax (sign * (spot - fraction * start)) n0]
                                      | _ => []
                                      end) paths) in
        Ok (Some x)
    | _ => Ok None
    end.

  (** montecarlo.rs:91-106: the dependencies and the timeline of a portfolio. *)
  Definition mc_portfolio (instruments : holdings T) (spot_date : date) : res (collector T * timeline T) :=
    foldM (fun s h =>
             let* deps := collect_spot (snd h) (fst s) in
             let* t := mc_dependencies (snd h) (snd s) in
             Ok (deps, t)) (collector_new spot_date, mkTimeline [] []) instruments.

  (** montecarlo.rs:84-115 [MonteCarloPricer::new]. *)
  Definition mc_pricer_new (draws : nat -> nat -> T) (instruments : holdings T) (f : diffusion_factory T) (md : market_data T)
      : res (mc_pricer T) :=
    let* (deps, t) := mc_portfolio instruments (md_spot_date md) in
    let* context := prefetch_new nan md deps in
    let* model := diffusion_new draws t context f in
    Ok (mkMcPricer f instruments model).

  (** montecarlo.rs:68-80 [MonteCarloPricerFactory::new]. *)
  Definition mc_pricer_factory (draws : nat -> nat -> T) (f : diffusion_factory T) i (t : fixing_table T) (md : market_data T)
      : res (mc_pricer T) :=
    let* instruments := fixed_portfolio i t in mc_pricer_new draws instruments f md.

  (** montecarlo.rs:123-141 [price]. *)
  Definition mc_pricer_price (mp : mc_pricer T) : res T :=
    foldM (fun total h =>
             let* x := mc_price (mp_model mp) (snd h) in
             Ok (match x with Some x => total + fst h * x | None => total end)) n0 (mp_instruments mp).

  (** montecarlo.rs:147-168 [impl Bumpable for MonteCarloPricer]. *)
  Definition mc_bump (b : bump T) (mp : mc_pricer T) (save : option (saveable T))
      : res bool * mc_pricer T * option (saveable T) :=
    let '(r, d, save') := diffusion_bump b (mp_model mp) save in (r, mkMcPricer (mp_factory mp) (mp_instruments mp) d, save').
  Definition mc_restore (s : saveable T) (mp : mc_pricer T) : res unit * mc_pricer T :=
    let '(r, d) := diffusion_restore s (mp_model mp) in (r, mkMcPricer (mp_factory mp) (mp_instruments mp) d).

  (** The draws of the model that is made when a time bump changes the instruments.  In the code they differ from one call
      to the next even for the same bump of the same pricer. *)
  Variable redraws : bump_time -> mc_pricer T -> nat -> nat -> T.

  (** montecarlo.rs:171-178 [bump_time]. *)
  Definition mc_bump_time (bt : bump_time) (mp : mc_pricer T) : res unit * mc_pricer T :=
    let d := mp_model mp in
    let pf := bd_context d in
    let '(r, instruments, d') :=
      apply_time_bump nan bt (mp_instruments mp) (prefetch_context nan pf) (Ok (pf_deps pf)) diffusion_bump d in
    let mp' := mkMcPricer (mp_factory mp) instruments d' in
    match r with
    | Err m => (Err m, mp')
    | Panic m => (Panic m, mp')
    | Ok false => (Ok tt, mp')
    | Ok true =>
        match mc_pricer_new (redraws bt mp) instruments (mp_factory mp) (pf_data (bd_context d')) with
        | Ok mp'' => (Ok tt, mp'')
        | Err m => (Err m, mp')
        | Panic m => (Panic m, mp')
        end
    end.

  Definition mc_ops : pricer_ops T (mc_pricer T) :=
    mkPricer mc_pricer_price (fun mp => Ok (pf_deps (bd_context (mp_model mp))))
      (fun mp => prefetch_context nan (bd_context (mp_model mp))) mc_bump (fun _ => diffusion_saveable) mc_restore mc_bump_time.
End MonteCarlo.
