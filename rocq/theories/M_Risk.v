(** Model of src/risk/marketdata.rs, src/risk/cache.rs and src/data/bump.rs. *)
From Coq Require Import ZArith List String Bool.
From Verif Require Import Prelude Num M_Dates M_Calendar M_Curves M_Fixings M_Forward M_Vol M_Black76 M_Instruments M_Deps.
Import ListNotations.
Open Scope string_scope.

(** data/bump.rs:8-15 [enum Bump]. *)
Inductive bump (T : Type) :=
| BSpot (id : string) (b : bump_spot T)
| BDivs (id : string) (b : bump_divs T)
| BBorrow (id : string) (b : bump_yield T)
| BVol (id : string) (b : bump_vol T)
| BYield (credit : string) (b : bump_yield T)
| BSpotDate (b : bump_spot_date).
Arguments BSpot {T} id b.
Arguments BDivs {T} id b.
Arguments BBorrow {T} id b.
Arguments BVol {T} id b.
Arguments BYield {T} credit b.
Arguments BSpotDate {T} b.

(** marketdata.rs:40-48 [struct MarketData]. *)
Record market_data (T : Type) := mkMarket {
  md_spot_date : date;
  md_spots : smap T;
  md_yields : smap (curve T);
  md_borrows : smap (curve T);
  md_divs : smap (div_stream T);
  md_vols : smap (vol_surface T)
}.
Arguments mkMarket {T}.
Arguments md_spot_date {T} m : rename.
Arguments md_spots {T} m : rename.
Arguments md_yields {T} m : rename.
Arguments md_borrows {T} m : rename.
Arguments md_divs {T} m : rename.
Arguments md_vols {T} m : rename.

(** marketdata.rs:351-357 [struct SavedData]. *)
Record saved_data (T : Type) := mkSaved {
  sd_spots : smap T;
  sd_yields : smap (curve T);
  sd_borrows : smap (curve T);
  sd_divs : smap (div_stream T);
  sd_vols : smap (vol_surface T)
}.
Arguments mkSaved {T}.
Arguments sd_spots {T} s : rename.
Arguments sd_yields {T} s : rename.
Arguments sd_borrows {T} s : rename.
Arguments sd_divs {T} s : rename.
Arguments sd_vols {T} s : rename.

(** The implementations of [trait Saveable]: marketdata.rs:351-357, cache.rs:347-351 [SavedPrefetch] and
    models/blackdiffusion.rs:653-656 [SavedBlackDiffusion], whose paths are indexed by asset, then path, then
    observation. *)
Inductive saveable (T : Type) :=
| SaveData (d : saved_data T)
| SavePrefetch (d : saved_data T) (forwards : smap (forward T)) (vols : smap (vol_surface T))
| SaveDiffusion (inner : saveable T) (paths : list (nat * list (list T))).
Arguments SaveData {T} d.
Arguments SavePrefetch {T} d forwards vols.
Arguments SaveDiffusion {T} inner paths.

(** cache.rs:26-31 [struct PricingContextPrefetch]. *)
Record prefetch (T : Type) := mkPrefetch {
  pf_data : market_data T;
  pf_deps : collector T;
  pf_forwards : smap (forward T);
  pf_vols : smap (vol_surface T)
}.
Arguments mkPrefetch {T}.
Arguments pf_data {T} p : rename.
Arguments pf_deps {T} p : rename.
Arguments pf_forwards {T} p : rename.
Arguments pf_vols {T} p : rename.

(** marketdata.rs:230-240 [find_market_data] and cache.rs:209-218 [find_cached_data]. *)
Definition find_data {A} (id : string) (m : smap A) (item : string) : res A :=
  match get id m with
  | Some x => Ok x
  | None => Err (item ++ " not found: '" ++ id ++ "'")
  end.

(** marketdata.rs:320-341 [apply_bump]: what it returns, what is bumped and what is saved. *)
Definition apply_bump {A} (id : string) (f : A -> A) (to_bump : smap A) (to_save : option (smap A))
    : bool * smap A * option (smap A) :=
  match get id to_bump with
  | Some entry => (true, put id (f entry) to_bump, option_map (put id entry) to_save)
  | None => (false, to_bump, to_save)
  end.

(** marketdata.rs:343-349 [copy_from_saved]. *)
Definition copy_from_saved {A} (to_restore saved : smap A) : smap A :=
  fold_left (fun m kv => put (fst kv) (snd kv) m) saved to_restore.

(** Replace one map of a saved data, if there is one. *)
Definition with_saved {T A} (upd : saved_data T -> smap A -> saved_data T) (s : option (saved_data T)) (m : option (smap A))
    : option (saved_data T) :=
  match s, m with Some s, Some m => Some (upd s m) | _, _ => s end.

Section Risk.
  Context {T : Type} {N : Num T} {TR : Trans T}.
  Variable nan : T.
  Local Open Scope num_scope.
  Implicit Types i u : instrument T.
  Implicit Types md : market_data T.
  Implicit Types p : prefetch T.

  (** marketdata.rs:363-370 [SavedData::new]. *)
  Definition saved_data_new : saved_data T := mkSaved [] [] [] [] [].
  (** cache.rs:357-362 [SavedPrefetch::new]. *)
  Definition saved_prefetch_new : saveable T := SavePrefetch saved_data_new [] [].

  (** [Saveable::clear]: marketdata.rs:377-383, cache.rs:369-373, blackdiffusion.rs:673-676. *)
  Fixpoint clear (s : saveable T) : saveable T :=
    match s with
    | SaveData _ => SaveData saved_data_new
    | SavePrefetch _ _ _ => saved_prefetch_new
    | SaveDiffusion inner _ => SaveDiffusion (clear inner) []
    end.

  (** marketdata.rs:188-210 [forward_curve]. *)
  Definition md_forward_curve md u (hwm : date) : res (forward T) :=
    let* spot := find_data (instrument_id u) (md_spots md) "Spot" in
    let* divs := find_data (instrument_id u) (md_divs md) "Dividends" in
    let* borrow := find_data (instrument_id u) (md_borrows md) "Borrow curve" in
    let* yield := find_data (credit_id u) (md_yields md) "Yield curve for forward" in
    equity_forward_new nan (md_spot_date md) spot (settlement u) yield borrow divs hwm.

  (** marketdata.rs:215-226 [vol_surface]. *)
  Definition md_vol_surface md u (hwm : date) (forward_fn : res (forward T)) : res (vol_surface T) :=
    let* vol := find_data (instrument_id u) (md_vols md) "Vol surface" in
    let* vol := time_modify (vol_time_dynamics_of u) vol (md_spot_date md) in
    forward_modify nan (vol_forward_dynamics_of u) vol forward_fn.

  (** marketdata.rs:173-232 [impl PricingContext for MarketData]. *)
  Definition md_context md : pricing_context T :=
    mkContext (md_spot_date md)
      (fun credit _ => find_data credit (md_yields md) "Yield curve")
      (fun id => find_data id (md_spots md) "Spot")
      (md_forward_curve md)
      (md_vol_surface md).

  (** marketdata.rs:102-126 [sticky_forward_bump]: the new spots.  The new map has the keys of the old one, each once. *)
  Definition sticky_forward_spots md (new_date : date) (deps : collector T) : res (smap T) :=
    mapM (fun kv =>
            match instrument_by_id (fst kv) deps with
            | Some u =>
                let* curve := md_forward_curve md u new_date in
                let* new_spot := forward_at nan curve new_date in
                Ok (fst kv, new_spot)
            | None => Ok kv
            end) (md_spots md).

  (** marketdata.rs:87-133 [MarketData::bump_spot_date]; on an error nothing has been changed. *)
  Definition md_bump_spot_date md (b : bump_spot_date) (deps : collector T) : res (market_data T) :=
    let* spots := match bsd_dynamics b with
                  | StickyForward => sticky_forward_spots md (bsd_date b) deps
                  | StickySpot => Ok (md_spots md)
                  end in
    Ok (mkMarket (bsd_date b) spots (md_yields md) (md_borrows md) (md_divs md) (md_vols md)).

  (** marketdata.rs:246-270: [bump] once the save space has been cast. *)
  Definition md_bump_saved (b : bump T) md (s : option (saved_data T))
      : res bool * market_data T * option (saved_data T) :=
    match b with
    | BSpot id f =>
        let '(r, m, sv) := apply_bump id (apply_spot f) (md_spots md) (option_map sd_spots s) in
        (Ok r, mkMarket (md_spot_date md) m (md_yields md) (md_borrows md) (md_divs md) (md_vols md),
         with_saved (fun s m => mkSaved m (sd_yields s) (sd_borrows s) (sd_divs s) (sd_vols s)) s sv)
    | BDivs id f =>
        let '(r, m, sv) := apply_bump id (apply_divs f) (md_divs md) (option_map sd_divs s) in
        (Ok r, mkMarket (md_spot_date md) (md_spots md) (md_yields md) (md_borrows md) m (md_vols md),
         with_saved (fun s m => mkSaved (sd_spots s) (sd_yields s) (sd_borrows s) m (sd_vols s)) s sv)
    | BBorrow id f =>
        let '(r, m, sv) := apply_bump id (apply_yield f) (md_borrows md) (option_map sd_borrows s) in
        (Ok r, mkMarket (md_spot_date md) (md_spots md) (md_yields md) m (md_divs md) (md_vols md),
         with_saved (fun s m => mkSaved (sd_spots s) (sd_yields s) m (sd_divs s) (sd_vols s)) s sv)
    | BVol id f =>
        let '(r, m, sv) := apply_bump id (apply_vol f) (md_vols md) (option_map sd_vols s) in
        (Ok r, mkMarket (md_spot_date md) (md_spots md) (md_yields md) (md_borrows md) (md_divs md) m,
         with_saved (fun s m => mkSaved (sd_spots s) (sd_yields s) (sd_borrows s) (sd_divs s) m) s sv)
    | BYield id f =>
        let '(r, m, sv) := apply_bump id (apply_yield f) (md_yields md) (option_map sd_yields s) in
        (Ok r, mkMarket (md_spot_date md) (md_spots md) m (md_borrows md) (md_divs md) (md_vols md),
         with_saved (fun s m => mkSaved (sd_spots s) m (sd_borrows s) (sd_divs s) (sd_vols s)) s sv)
    | BSpotDate _ => (Err "MarketData does not have enough information to handle spot date bumping on its own", md, s)
    end.

  (** marketdata.rs:246-270 [Bumpable::bump] with 307-317 [to_saved_data]. *)
  Definition md_bump (b : bump T) md (save : option (saveable T)) : res bool * market_data T * option (saveable T) :=
    match save with
    | None => let '(r, md', _) := md_bump_saved b md None in (r, md', None)
    | Some (SaveData d) =>
        let '(r, md', s) := md_bump_saved b md (Some d) in
        (r, md', option_map SaveData s)
    | Some other => (Err "Mismatching save space for bump market data", md, Some other)
    end.

  (** marketdata.rs:284-297: [restore] once the save space has been cast. *)
  Definition md_restore_saved (s : saved_data T) md : market_data T :=
    mkMarket (md_spot_date md)
      (copy_from_saved (md_spots md) (sd_spots s))
      (copy_from_saved (md_yields md) (sd_yields s))
      (copy_from_saved (md_borrows md) (sd_borrows s))
      (copy_from_saved (md_divs md) (sd_divs s))
      (copy_from_saved (md_vols md) (sd_vols s)).

  (** marketdata.rs:284-297 [restore]. *)
  Definition md_restore (s : saveable T) md : res unit * market_data T :=
    match s with
    | SaveData d => (Ok tt, md_restore_saved d md)
    | _ => (Err "Mismatching save space for restore", md)
    end.

  (** cache.rs:140-167 [walk_dependencies], from the maps built so far. *)
  Fixpoint walk_loop md (deps : collector T) (todo : smap (instrument T * date))
      (forwards : smap (forward T)) (vols : smap (vol_surface T))
      : res unit * smap (forward T) * smap (vol_surface T) :=
    match todo with
    | [] => (Ok tt, forwards, vols)
    | (_, (u, hwm)) :: rest =>
        match md_forward_curve md u hwm with
        | Err m => (Err m, forwards, vols)
        | Panic m => (Panic m, forwards, vols)
        | Ok fwd =>
            match vol_surface_hwm u deps with
            | None => walk_loop md deps rest (put (instrument_id u) fwd forwards) vols
            | Some vol_hwm =>
                match md_vol_surface md u vol_hwm (Ok fwd) with
                | Err m => (Err m, forwards, vols)
                | Panic m => (Panic m, forwards, vols)
                | Ok vol => walk_loop md deps rest (put (instrument_id u) fwd forwards) (put (instrument_id u) vol vols)
                end
            end
        end
    end.
  Definition walk_dependencies md (deps : collector T) := walk_loop md deps (col_forward_curves deps) [] [].

  (** cache.rs:39-56 [PricingContextPrefetch::new]. *)
  Definition prefetch_new md (deps : collector T) : res (prefetch T) :=
    let '(r, forwards, vols) := walk_dependencies md deps in
    let* _ := r in Ok (mkPrefetch md deps forwards vols).

  (** cache.rs:60-66 [refetch_all]. *)
  Definition refetch_all p : res unit * prefetch T :=
    let '(r, forwards, vols) := walk_dependencies (pf_data p) (pf_deps p) in
    (r, mkPrefetch (pf_data p) (pf_deps p) forwards vols).

  (** cache.rs:108-126: the last part of [refetch], given the forward in the cache. *)
  Definition refetch_vol (id : string) (bumped_vol : bool) u (fwd : forward T)
      (saved_vols : option (smap (vol_surface T))) p : res bool * prefetch T * option (smap (vol_surface T)) :=
    if bumped_vol then
      match get id (pf_vols p) with
      | None => (Ok true, p, saved_vols)
      | Some vol =>
          let saved_vols := option_map (put id vol) saved_vols in
          match vol_surface_hwm u (pf_deps p) with
          | None => (Err "Cannot find vol", p, saved_vols)
          | Some vol_hwm =>
              match md_vol_surface (pf_data p) u vol_hwm (Ok fwd) with
              | Ok vol' => (Ok true, mkPrefetch (pf_data p) (pf_deps p) (pf_forwards p) (put id vol' (pf_vols p)), saved_vols)
              | Err m => (Err m, p, saved_vols)
              | Panic m => (Panic m, p, saved_vols)
              end
          end
      end
    else (Ok true, p, saved_vols).

  (** cache.rs:70-137 [refetch]: the outcome, the context and the two save maps. *)
  Definition refetch (id : string) (bumped_forward bumped_vol : bool)
      (saved_forwards : option (smap (forward T))) (saved_vols : option (smap (vol_surface T))) p
      : res bool * prefetch T * option (smap (forward T)) * option (smap (vol_surface T)) :=
    if negb bumped_forward && negb bumped_vol then (Ok false, p, saved_forwards, saved_vols)
    else
      match get id (pf_forwards p) with
      | None => (Err "Cannot find prefetched forward", p, saved_forwards, saved_vols)
      | Some fwd =>
          match instrument_by_id id (pf_deps p) with
          | None => (Err "Cannot find instrument", p, saved_forwards, saved_vols)
          | Some u =>
              if bumped_forward then
                let saved_forwards := option_map (put id fwd) saved_forwards in
                match forward_curve_hwm u (pf_deps p) with
                | None => (Err "Cannot find forward", p, saved_forwards, saved_vols)
                | Some hwm =>
                    match md_forward_curve (pf_data p) u hwm with
                    | Err m => (Err m, p, saved_forwards, saved_vols)
                    | Panic m => (Panic m, p, saved_forwards, saved_vols)
                    | Ok fwd' =>
                        let p' := mkPrefetch (pf_data p) (pf_deps p) (put id fwd' (pf_forwards p)) (pf_vols p) in
                        let '(r, p'', saved_vols) := refetch_vol id bumped_vol u fwd' saved_vols p' in
                        (r, p'', saved_forwards, saved_vols)
                    end
                end
              else
                let '(r, p', saved_vols) := refetch_vol id bumped_vol u fwd saved_vols p in
                (r, p', saved_forwards, saved_vols)
          end
      end.

  (** cache.rs:259-277: the loops of a yield bump. *)
  Fixpoint refetch_each (ids : list string) (bumped : bool)
      (saved_forwards : option (smap (forward T))) (saved_vols : option (smap (vol_surface T))) p
      : res bool * prefetch T * option (smap (forward T)) * option (smap (vol_surface T)) :=
    match ids with
    | [] => (Ok bumped, p, saved_forwards, saved_vols)
    | id :: rest =>
        match refetch id bumped false saved_forwards saved_vols p with
        | (Ok _, p', sf, sv) => refetch_each rest bumped sf sv p'
        | (Err m, p', sf, sv) => (Err m, p', sf, sv)
        | (Panic m, p', sf, sv) => (Panic m, p', sf, sv)
        end
    end.

  (** cache.rs:240-290: [bump] once the save space has been cast into its three parts. *)
  Definition prefetch_bump_saved (b : bump T) p (sd : option (saved_data T))
      (sf : option (smap (forward T))) (sv : option (smap (vol_surface T)))
      : res bool * prefetch T * option (saved_data T) * option (smap (forward T)) * option (smap (vol_surface T)) :=
    match b with
    | BSpotDate sdb =>
        if (bsd_date sdb =? md_spot_date (pf_data p))%Z then (Ok false, p, sd, sf, sv)
        else
          match md_bump_spot_date (pf_data p) sdb (pf_deps p) with
          | Err m => (Err m, p, sd, sf, sv)
          | Panic m => (Panic m, p, sd, sf, sv)
          | Ok md' =>
              let '(r, p') := refetch_all (mkPrefetch md' (pf_deps p) (pf_forwards p) (pf_vols p)) in
              (rmap (fun _ => true) r, p', sd, sf, sv)
          end
    | _ =>
        let '(r, md', sd') := md_bump_saved b (pf_data p) sd in
        match r with
        | Err m => (Err m, p, sd, sf, sv)
        | Panic m => (Panic m, p, sd, sf, sv)
        | Ok bumped =>
            let p' := mkPrefetch md' (pf_deps p) (pf_forwards p) (pf_vols p) in
            let '(r', p'', sf', sv') :=
              match b with
              | BVol id _ => refetch id false bumped sf sv p'
              | BYield credit _ => refetch_each (forward_ids_of credit (pf_deps p)) bumped sf sv p'
              | BSpot id _ | BDivs id _ | BBorrow id _ => refetch id bumped false sf sv p'
              | BSpotDate _ => (Ok bumped, p', sf, sv)
              end in
            (r', p'', sd', sf', sv')
        end
    end.

  (** cache.rs:224-291 [Bumpable::bump] with 331-343 [to_saved]. *)
  Definition prefetch_bump (b : bump T) p (save : option (saveable T)) : res bool * prefetch T * option (saveable T) :=
    match save with
    | None => let '(r, p', _, _, _) := prefetch_bump_saved b p None None None in (r, p', None)
    | Some (SavePrefetch d f v) =>
        let '(r, p', d', f', v') := prefetch_bump_saved b p (Some d) (Some f) (Some v) in
        (r, p', match d', f', v' with Some d', Some f', Some v' => Some (SavePrefetch d' f' v') | _, _, _ => None end)
    | Some other => (Err "Mismatching save space for bumped prefetch", p, Some other)
    end.

  (** cache.rs:305-321 [restore]. *)
  Definition prefetch_restore (s : saveable T) p : res unit * prefetch T :=
    match s with
    | SavePrefetch d f v =>
        (Ok tt, mkPrefetch (md_restore_saved d (pf_data p)) (pf_deps p)
                  (copy_from_saved (pf_forwards p) f) (copy_from_saved (pf_vols p) v))
    | _ => (Err "Mismatching save space for restore", p)
    end.

  (** cache.rs:169-205 [impl PricingContext for PricingContextPrefetch]. *)
  Definition prefetch_context p : pricing_context T :=
    mkContext (md_spot_date (pf_data p))
      (ctx_yield_curve (md_context (pf_data p)))
      (ctx_spot (md_context (pf_data p)))
      (fun u _ => find_data (instrument_id u) (pf_forwards p) "Forward")
      (fun u _ _ => find_data (instrument_id u) (pf_vols p) "Vol Surface").
End Risk.
