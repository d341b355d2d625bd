(** Model of src/data/volsmile.rs, src/data/volsurface.rs, src/data/voldecorators.rs, src/data/bumpvol.rs,
    src/data/bumpspot.rs and src/data/bumpspotdate.rs.

    The code fills a slice given by the caller; the model returns the list of volatilities.  The asserts that both slices
    have the same length hold by construction, and what is left in the slice after an error is not represented. *)
From Coq Require Import ZArith List String Bool.
From Verif Require Import Prelude Num M_Dates M_Search M_Calendar M_Interp M_Curves M_Forward.
Import ListNotations.
Open Scope string_scope.

(** volsmile.rs:36-39 [FlatSmile] and 66-69 [CubicSplineSmile]. *)
Inductive smile (T : Type) := FlatSmile (vol : T) | CubicSplineSmile (s : spline T T).
Arguments FlatSmile {T} vol.
Arguments CubicSplineSmile {T} s.

(** volsurface.rs:268-302 [enum DivAssumptions]. *)
Inductive div_assumptions := NoCashDivs | IndependentLogNormals | FixedDivs | JumpDivs.

(** volsurface.rs:487-492 and 504-511 [struct VolByProbability] with its input, for either kind of smile
    (750-832 [VolByProbabilityFlatSmile] and [VolByProbabilityCubicSplineSmile] only delegate). *)
Record vol_by_probability (T : Type) := mkVBP {
  vbp_smiles : list (ddf T * smile T);
  vbp_calendar : calendar T;
  vbp_base : ddf T;
  vbp_forward : linear T date;
  vbp_fixed_divs : linear T date;
  vbp_assumptions : div_assumptions;
  vbp_forwards : list T;
  vbp_sqrt_vars : list T;
  vbp_times : list T
}.
Arguments mkVBP {T}.
Arguments vbp_smiles {T} v.
Arguments vbp_calendar {T} v.
Arguments vbp_base {T} v.
Arguments vbp_forward {T} v.
Arguments vbp_fixed_divs {T} v.
Arguments vbp_assumptions {T} v.
Arguments vbp_forwards {T} v.
Arguments vbp_sqrt_vars {T} v.
Arguments vbp_times {T} v.

(** The implementations of [trait VolSurface]: volsurface.rs:407-412 and voldecorators.rs:21-26, 89-94, 160-163,
    225-229, 297-301. *)
Inductive vol_surface (T : Type) :=
| FlatVolSurface (vol : T) (cal : calendar T) (base : ddf T)
| VolByProbability (v : vol_by_probability T)
| ConstantExpiry (base_vol : vol_surface T) (vol_time_offset : T) (base : ddf T)
| RollingExpiry (base_vol : vol_surface T) (vol_time_offset : T) (base : ddf T)
| ParallelBumpVol (base_vol : vol_surface T) (bump : T)
| TimeScaledBumpVol (base_vol : vol_surface T) (bump vol_time_floor : T)
| StickyDeltaBumpVol (base_vol : vol_surface T) (bumped_forward : forward T).
Arguments FlatVolSurface {T} vol cal base.
Arguments VolByProbability {T} v.
Arguments ConstantExpiry {T} base_vol vol_time_offset base.
Arguments RollingExpiry {T} base_vol vol_time_offset base.
Arguments ParallelBumpVol {T} base_vol bump.
Arguments TimeScaledBumpVol {T} base_vol bump vol_time_floor.
Arguments StickyDeltaBumpVol {T} base_vol bumped_forward.

(** volsurface.rs:307-313 [enum VolTimeDynamics] and 348-354 [enum VolForwardDynamics]. *)
Inductive vol_time_dynamics := ConstantExpiryDynamics | RollingExpiryDynamics.
Inductive vol_forward_dynamics := StickyStrike | StickyDelta.

(** bumpvol.rs:12-16 [enum BumpVol], bumpspot.rs:5-8 [enum BumpSpot], bumpspotdate.rs:9-12 and 24-32. *)
Inductive bump_vol (T : Type) := FlatAdditive (size : T) | TimeScaled (size floor : T) | ReplaceVol (vol : T).
Arguments FlatAdditive {T} size.
Arguments TimeScaled {T} size floor.
Arguments ReplaceVol {T} vol.
Inductive bump_spot (T : Type) := RelativeSpot (bump : T) | ReplaceSpot (spot : T).
Arguments RelativeSpot {T} bump.
Arguments ReplaceSpot {T} spot.
Inductive spot_dynamics := StickySpot | StickyForward.
Record bump_spot_date := mkBumpSpotDate { bsd_date : date; bsd_dynamics : spot_dynamics }.

Section Vol.
  Context {T : Type} `{Num T} `{Trans T}.
  Variable nan : T.
  Local Open Scope num_scope.

  (** volsmile.rs:41-55 and 71-85 [volatilities], element by element. *)
  Definition smile_at (s : smile T) (strike : T) : res T :=
    match s with
    | FlatSmile vol => Ok vol
    | CubicSplineSmile sp => spline_at nan sp strike
    end.
  Definition smile_volatilities (s : smile T) (strikes : list T) : res (list T) := mapM (smile_at s) strikes.

  (** volsmile.rs:92-95 [CubicSplineSmile::new]. *)
  Definition cubic_smile_new (pillars : list (T * T)) : res (smile T) :=
    let* s := spline_new pillars Natural Natural in Ok (CubicSplineSmile s).

  (** dates/datetime.rs:83 (derived PartialOrd) and 136-147 [interp_cmp]: by date, then day fraction.  The panic on a NaN
      day fraction, which the constructor excludes, is not represented. *)
  Definition ddf_cmp (a b : ddf T) : comparison :=
    match (ddf_date a ?= ddf_date b)%Z with
    | Eq => if ddf_frac a <? ddf_frac b then Lt else if ddf_frac b <? ddf_frac a then Gt else Eq
    | c => c
    end.
  Definition ddf_leb (a b : ddf T) : bool := match ddf_cmp a b with Gt => false | _ => true end.

  (** volsurface.rs:879-887 [to_normalised] and 889-897 [to_strikes], element by element. *)
  Definition to_normalised (forward sqrt_variance strike : T) : T := nln (strike / forward) / sqrt_variance.
  Definition to_strike (forward sqrt_variance normalised : T) : T := nexp (normalised * sqrt_variance) * forward.

  (** volsurface.rs:625-649: one round of the constructor's loop. *)
  Definition vbp_pillar (cal : calendar T) (base : ddf T) (fwd : linear T date)
      (acc : T * (list T * list T * list T)) (p : ddf T * smile T) : res (T * (list T * list T * list T)) :=
    let '(prev, (fs, ss, ts)) := acc in
    let* f := linear_at nan fwd (ddf_date (fst p)) in
    let* vol := smile_at (snd p) f in
    let* time := year_fraction cal base (fst p) in
    let variance := time * vol * vol in
    if variance <? prev then Err "Negative forward variance on forward"
    else Ok (variance, ((fs ++ [f])%list, (ss ++ [nsqrt variance])%list, (ts ++ [time])%list)).

  (** volsurface.rs:602-657 [VolByProbability::new]. *)
  Definition vbp_new (smiles : list (ddf T * smile T)) (cal : calendar T) (base : ddf T)
      (fwd fixed_divs : linear T date) (da : div_assumptions) : res (vol_by_probability T) :=
    match smiles with
    | [] => Err "Cannot construct vol surface. No smiles supplied"
    | _ =>
        let* acc := foldM (vbp_pillar cal base fwd) (n0, ([], [], [])) smiles in
        let '(_, (fs, ss, ts)) := acc in
        Ok (mkVBP smiles cal base fwd fixed_divs da fs ss ts)
    end.

  (** volsurface.rs:659-691 [extrapolate]. *)
  Definition vbp_extrapolate (v : vol_by_probability T) (pillar : nat) (dt : ddf T) (strikes : list T)
      : res (list T * T) :=
    let* vol_time := year_fraction (vbp_calendar v) (vbp_base v) dt in
    match strikes with
    | [] => Ok ([], vol_time)
    | _ =>
        let* fwd := linear_at nan (vbp_forward v) (ddf_date dt) in
        let normalised := map (to_normalised fwd (nsqrt vol_time)) strikes in
        let* pillar_time := at_ (vbp_times v) pillar in
        let* pillar_forward := at_ (vbp_forwards v) pillar in
        let adj := map (to_strike pillar_forward (nsqrt pillar_time)) normalised in
        let* p := at_ (vbp_smiles v) pillar in
        let* vols := smile_volatilities (snd p) adj in
        Ok (vols, vol_time)
    end.

  (** volsurface.rs:746-758 [pillar_variances]. *)
  Definition pillar_variances (v : vol_by_probability T) (pillar : nat) (vol_time : T) (strikes : list T) : res (list T) :=
    let* p := at_ (vbp_smiles v) pillar in
    let* vols := smile_volatilities (snd p) strikes in
    Ok (map (fun x => x * x * vol_time) vols).

  (** volsurface.rs:730-740: the loop over the strikes. *)
  Fixpoint interpolate_vars (fraction vol_time : T) (left right : list T) : res (list T) :=
    match left, right with
    | l :: ls, r :: rs =>
        if r <? l then Err "Negative forward variance"
        else
          let variance := lerp l r fraction in
          let* rest := interpolate_vars fraction vol_time ls rs in
          Ok (nsqrt (variance / vol_time) :: rest)
    | _, _ => Ok []
    end.

  (** volsurface.rs:693-744 [interpolate]. *)
  Definition vbp_interpolate (v : vol_by_probability T) (left right : nat) (dt : ddf T) (strikes : list T)
      : res (list T * T) :=
    let* vol_time := year_fraction (vbp_calendar v) (vbp_base v) dt in
    match strikes with
    | [] => Ok ([], vol_time)
    | _ =>
        let* left_time := at_ (vbp_times v) left in
        let* right_time := at_ (vbp_times v) right in
        let fraction := (vol_time - left_time) / (right_time - left_time) in
        let* fwd := linear_at nan (vbp_forward v) (ddf_date dt) in
        let* left_sqrt_var := at_ (vbp_sqrt_vars v) left in
        let* right_sqrt_var := at_ (vbp_sqrt_vars v) right in
        let left_atm_var := left_sqrt_var * left_sqrt_var in
        let right_atm_var := right_sqrt_var * right_sqrt_var in
        let atm_variance := lerp left_atm_var right_atm_var fraction in
        let normalised := map (to_normalised fwd (nsqrt atm_variance)) strikes in
        let* left_fwd := at_ (vbp_forwards v) left in
        let left_strikes := map (to_strike left_fwd left_sqrt_var) normalised in
        let* left_vars := pillar_variances v left left_time left_strikes in
        let* right_fwd := at_ (vbp_forwards v) right in
        let right_strikes := map (to_strike right_fwd right_sqrt_var) normalised in
        let* right_vars := pillar_variances v right right_time right_strikes in
        let* out := interpolate_vars fraction vol_time left_vars right_vars in
        Ok (out, vol_time)
    end.

  (** volsurface.rs:541-568 [VolByProbability::volatilities]. *)
  Definition vbp_volatilities (v : vol_by_probability T) (dt : ddf T) (strikes : list T) : res (list T * T) :=
    let n := List.length (vbp_smiles v) in
    match binary_search_by (vbp_smiles v) (fun p => ddf_cmp (fst p) dt) with
    | Found i =>
        let* p := at_ (vbp_smiles v) i in
        let* vols := smile_volatilities (snd p) strikes in
        let* t := at_ (vbp_times v) i in
        Ok (vols, t)
    | Missing i =>
        if Nat.eqb i 0 then vbp_extrapolate v 0 dt strikes
        else if Nat.leb n i then vbp_extrapolate v (n - 1) dt strikes
        else vbp_interpolate v (i - 1) i dt strikes
    end.

  (** [VolSurface::calendar]: volsurface.rs:434, 571 and the decorators, which delegate. *)
  Fixpoint vs_calendar (s : vol_surface T) : calendar T :=
    match s with
    | FlatVolSurface _ cal _ => cal
    | VolByProbability v => vbp_calendar v
    | ConstantExpiry b _ _ | RollingExpiry b _ _ | ParallelBumpVol b _ | TimeScaledBumpVol b _ _ | StickyDeltaBumpVol b _ =>
        vs_calendar b
    end.

  (** [VolSurface::base_date]: volsurface.rs:442, 579 and voldecorators.rs:73, 150, 213, 281, 361. *)
  Fixpoint vs_base (s : vol_surface T) : ddf T :=
    match s with
    | FlatVolSurface _ _ base => base
    | VolByProbability v => vbp_base v
    | ConstantExpiry _ _ base | RollingExpiry _ _ base => base
    | ParallelBumpVol b _ | TimeScaledBumpVol b _ _ | StickyDeltaBumpVol b _ => vs_base b
    end.

  (** [VolSurface::forward]: volsurface.rs:438, 575 and voldecorators.rs:69, 146, 209, 277, 356.  A linear interpolator is
      wrapped as an interpolated forward, which answers the same. *)
  Fixpoint vs_forward (s : vol_surface T) : option (forward T) :=
    match s with
    | FlatVolSurface _ _ _ => None
    | VolByProbability v => Some (InterpolatedForward (vbp_forward v))
    | ConstantExpiry b _ _ | RollingExpiry b _ _ | ParallelBumpVol b _ | TimeScaledBumpVol b _ _ => vs_forward b
    | StickyDeltaBumpVol _ f => Some f
    end.

  (** [VolSurface::volatilities]: volsurface.rs:419-432, 541-568 and voldecorators.rs:51-66, 117-140, 187-202, 254-270,
      324-349.  Volatilities and vol time. *)
  Fixpoint volatilities (s : vol_surface T) (dt : ddf T) (strikes : list T) : res (list T * T) :=
    match s with
    | FlatVolSurface vol cal base =>
        let* t := year_fraction cal base dt in
        Ok (map (fun _ => vol) strikes, t)
    | VolByProbability v => vbp_volatilities v dt strikes
    | ConstantExpiry b offset _ =>
        let* (vols, t) := volatilities b dt strikes in
        Ok (vols, nmax (t - offset) n0)
    | RollingExpiry b offset _ =>
        let cal := vs_calendar b in
        let vto := - offset * standard_basis cal in
        let* adj := step_partial cal (ddf_date dt) vto (vto >=? n0) in
        let* rolled := ddf_new adj (ddf_frac dt) in
        let* (vols, t) := volatilities b rolled strikes in
        Ok (vols, nmax t n0)
    | ParallelBumpVol b bump =>
        let* (vols, t) := volatilities b dt strikes in
        Ok (map (fun x => nmax (x + bump) n0) vols, t)
    | TimeScaledBumpVol b bump floor =>
        let* (vols, t) := volatilities b dt strikes in
        let scaled := bump / nsqrt (nmax t floor) in
        Ok (map (fun x => nmax (x + scaled) n0) vols, t)
    | StickyDeltaBumpVol b bumped =>
        match strikes with
        | [] => volatilities b dt strikes
        | _ =>
            match vs_forward b with
            | None => volatilities b dt strikes
            | Some fwd =>
                let* new_forward := forward_at nan bumped (ddf_date dt) in
                let* old_forward := forward_at nan fwd (ddf_date dt) in
                let adjustment := old_forward / new_forward in
                volatilities b dt (map (fun k => k * adjustment) strikes)
            end
        end
    end.

  (** volsurface.rs:69-75 [vol_time]. *)
  Definition vol_time (s : vol_surface T) (dt : ddf T) : res T :=
    let* (_, t) := volatilities s dt [] in Ok t.

  (** volsurface.rs:79-96 [variances]. *)
  Definition variances (s : vol_surface T) (dt : ddf T) (strikes : list T) : res (list T) :=
    let* (vols, t) := volatilities s dt strikes in
    Ok (map (fun vol => t * vol * vol) vols).

  (** volsurface.rs:101-108 [variance]. *)
  Definition variance (s : vol_surface T) (dt : ddf T) (strike : T) : res T :=
    let* l := variances s dt [strike] in at_ l 0.

  (** volsurface.rs:203-217 [find_smile_date]. *)
  Definition find_smile_date (s : vol_surface T) (from to : ddf T) : res (ddf T) :=
    let cal := vs_calendar s in
    let base := vs_base s in
    let* days := count_business_days cal (ddf_date from) (ddf_frac from) (ddf_date to) (ddf_frac to) in
    let* d := step_partial cal (ddf_date base) days true in
    ddf_new d (ddf_frac to).

  (** volsurface.rs:155-161 and 176-182: the correction loops. *)
  Fixpoint checked_vars (l : list T) : res (list T) :=
    match l with
    | [] => Ok []
    | x :: l' =>
        if x <? n0 then Err "Negative forward variance"
        else let* rest := checked_vars l' in Ok (x :: rest)
    end.

  (** volsurface.rs:124-187 [forward_variances].  Lines 144-145 take both at-the-money variances at [from], with the
      forwards exchanged; kept. *)
  Definition forward_variances (s : vol_surface T) (from to : ddf T) (strikes : list T) : res (list T) :=
    if ddf_leb from (vs_base s) then variances s to strikes
    else
      match vs_forward s with
      | Some fwd =>
          let* from_forward := forward_at nan fwd (ddf_date from) in
          let* to_forward := forward_at nan fwd (ddf_date to) in
          let* from_var := variance s from to_forward in
          let* to_var := variance s from from_forward in
          let fwd_atm_var := to_var - from_var in
          if fwd_atm_var <? n0 then Err "Negative atm forward variance"
          else
            let* smile_date := find_smile_date s from to in
            let* smile_forward := forward_at nan fwd (ddf_date smile_date) in
            let* atm_smile_var := variance s smile_date smile_forward in
            let* vars := variances s smile_date strikes in
            checked_vars (map (fun x => x - atm_smile_var + fwd_atm_var) vars)
      | None =>
          let* from_vars := variances s from strikes in
          let* to_vars := variances s to strikes in
          checked_vars (map (fun p => fst p - snd p) (combine to_vars from_vars))
      end.

  (** volsurface.rs:192-199 [forward_variance]. *)
  Definition forward_variance (s : vol_surface T) (from to : ddf T) (strike : T) : res T :=
    let* l := forward_variances s from to [strike] in at_ l 0.

  (** [VolSurface::div_assumptions]: volsurface.rs:449, 583 and the decorators. *)
  Fixpoint vs_assumptions (s : vol_surface T) : div_assumptions :=
    match s with
    | FlatVolSurface _ _ _ => NoCashDivs
    | VolByProbability v => vbp_assumptions v
    | ConstantExpiry b _ _ | RollingExpiry b _ _ | ParallelBumpVol b _ | TimeScaledBumpVol b _ _ | StickyDeltaBumpVol b _ =>
        vs_assumptions b
    end.

  (** [VolSurface::displacement]: volsurface.rs:453, 587-596 and voldecorators.rs:81, 158, 221, 289, 369-380. *)
  Fixpoint displacement (s : vol_surface T) (d : date) : res T :=
    match s with
    | FlatVolSurface _ _ _ => Ok n0
    | VolByProbability v =>
        match vbp_assumptions v with
        | NoCashDivs | IndependentLogNormals => Ok n0
        | FixedDivs => linear_at nan (vbp_fixed_divs v) d
        | JumpDivs => Err "You should not invoke displacement for a JumpDivs vol surface."
        end
    | ConstantExpiry b _ _ | RollingExpiry b _ _ | ParallelBumpVol b _ | TimeScaledBumpVol b _ _ => displacement b d
    | StickyDeltaBumpVol b f =>
        match vs_assumptions b with
        | NoCashDivs | IndependentLogNormals => Ok n0
        | FixedDivs => fixed_divs_after f d
        | JumpDivs => Err "You should not invoke displacement for a JumpDivs vol surface."
        end
    end.

  (** volsurface.rs:315-345 [VolTimeDynamics::modify]. *)
  Definition time_modify (dyn : vol_time_dynamics) (s : vol_surface T) (spot_date : date) : res (vol_surface T) :=
    let base := vs_base s in
    if (spot_date =? ddf_date base)%Z then Ok s
    else
      let* target := ddf_new spot_date n0 in
      let* yf := year_fraction (vs_calendar s) base target in
      if approx_eq yf n0 (nlit 1 1000000000000) then Ok s
      else
        Ok (match dyn with
            | ConstantExpiryDynamics => ConstantExpiry s yf target
            | RollingExpiryDynamics => RollingExpiry s yf target
            end).

  (** volsurface.rs:359-395 [VolForwardDynamics::modify]; the forward is passed as a result that is only looked at when
      needed. *)
  Definition forward_modify (dyn : vol_forward_dynamics) (s : vol_surface T) (forward_fn : res (forward T))
      : res (vol_surface T) :=
    match dyn with
    | StickyStrike => Ok s
    | StickyDelta =>
        match vs_forward s with
        | None => Ok s
        | Some vol_forward =>
            let* fwd := forward_fn in
            let base := ddf_date (vs_base s) in
            let* spot := forward_at nan fwd base in
            let* vol_spot := forward_at nan vol_forward base in
            if approx_eq vol_spot spot (vol_spot * nlit 1 1000000000000) then Ok s
            else Ok (StickyDeltaBumpVol s fwd)
        end
    end.

  (** bumpvol.rs:31-37 [bumpsize]. *)
  Definition vol_bumpsize (b : bump_vol T) : T :=
    match b with FlatAdditive size | TimeScaled size _ => size | ReplaceVol _ => nan end.

  (** bumpvol.rs:42-54 [opposite]. *)
  Definition vol_opposite (b : bump_vol T) : bump_vol T :=
    let bumpsize := vol_bumpsize b in
    let down := (n1 - bumpsize) / (n1 + bumpsize) - n1 in
    match b with
    | FlatAdditive _ => FlatAdditive down
    | TimeScaled _ floor => TimeScaled down floor
    | ReplaceVol _ => ReplaceVol nan
    end.

  (** bumpvol.rs:57-72 [apply]. *)
  Definition apply_vol (b : bump_vol T) (s : vol_surface T) : vol_surface T :=
    match b with
    | FlatAdditive size => ParallelBumpVol s size
    | TimeScaled size floor => TimeScaledBumpVol s size floor
    | ReplaceVol vol => FlatVolSurface vol (vs_calendar s) (vs_base s)
    end.

  (** bumpspot.rs:20-28 [apply]. *)
  Definition apply_spot (b : bump_spot T) (old : T) : T :=
    match b with RelativeSpot bump => old * (n1 + bump) | ReplaceSpot spot => spot end.
End Vol.
