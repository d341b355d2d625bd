(** Specification vocabulary for bumping market data and pricers. *)
From Coq Require Import ZArith List String Bool.
From Verif Require Import Prelude Num M_Dates M_Calendar M_Curves M_Fixings M_Forward M_Vol M_Instruments M_Deps M_Risk
  S_Deps.
Import ListNotations.
Open Scope list_scope.

(** One number, curve, dividend stream or surface in the market data. *)
Inductive datum := SpotFor (id : string) | YieldFor (credit : string) | BorrowFor (id : string) | DivsFor (id : string) | VolFor (id : string).

Section Spec.
  Context {T : Type} `{Num T} `{Trans T}.
  Implicit Types md : market_data T.

  Inductive value := ASpot (x : T) | ACurve (c : curve T) | AStream (d : div_stream T) | ASurface (v : vol_surface T).

  Definition look md (d : datum) : option value :=
    match d with
    | SpotFor id => option_map ASpot (get id (md_spots md))
    | YieldFor cr => option_map ACurve (get cr (md_yields md))
    | BorrowFor id => option_map ACurve (get id (md_borrows md))
    | DivsFor id => option_map AStream (get id (md_divs md))
    | VolFor id => option_map ASurface (get id (md_vols md))
    end.

  (** What a bump is a bump of. *)
  Definition target (b : bump T) : option datum :=
    match b with
    | BSpot id _ => Some (SpotFor id)
    | BDivs id _ => Some (DivsFor id)
    | BBorrow id _ => Some (BorrowFor id)
    | BVol id _ => Some (VolFor id)
    | BYield cr _ => Some (YieldFor cr)
    | BSpotDate _ => None
    end.

  (** And what it does to that. *)
  Definition after (b : bump T) (v : value) : value :=
    match b, v with
    | BSpot _ (RelativeSpot x), ASpot s => ASpot (nmul s (nadd n1 x))
    | BSpot _ (ReplaceSpot x), ASpot _ => ASpot x
    | BDivs _ f, AStream d => AStream (apply_divs f d)
    | BBorrow _ (FlatAnnualised x), ACurve c | BYield _ (FlatAnnualised x), ACurve c => ACurve (AnnualisedFlatBump c x)
    | BBorrow _ (FlatContinuouslyCompounded x), ACurve c | BYield _ (FlatContinuouslyCompounded x), ACurve c =>
        ACurve (ContinuouslyCompoundedFlatBump c x)
    | BVol _ (FlatAdditive x), ASurface s => ASurface (ParallelBumpVol s x)
    | BVol _ (TimeScaled x floor), ASurface s => ASurface (TimeScaledBumpVol s x floor)
    | BVol _ (ReplaceVol x), ASurface s => ASurface (FlatVolSurface x (vs_calendar s) (vs_base s))
    | _, _ => v
    end.

  (** No save area, or one of the kind market data makes. *)
  Definition for_data (save : option (saveable T)) : Prop :=
    match save with None | Some (SaveData _) => True | _ => False end.
  (** No save area, or one of the kind a prefetching context makes. *)
  Definition for_prefetch (save : option (saveable T)) : Prop :=
    match save with None | Some (SavePrefetch _ _ _) => True | _ => False end.

  (** A history of bumps, each with or without saving. *)
  Definition history := list (bump T * bool).

  Definition if_saving {A} (saving : bool) (s : A) : option A := if saving then Some s else None.
  Definition keep {A} (new : option A) (old : A) : A := match new with Some s => s | None => old end.

  (** Market data and save area after a history. *)
  Fixpoint bumped_data (ops : history) md (s : saveable T) : market_data T * saveable T :=
    match ops with
    | [] => (md, s)
    | (b, saving) :: rest =>
        let '(_, md', s') := md_bump b md (if_saving saving s) in bumped_data rest md' (keep s' s)
    end.

  (** Every datum is saved when it is first bumped and not after. *)
  Inductive saved_first : list datum -> history -> Prop :=
  | sf_nil seen : saved_first seen []
  | sf_first seen b d ops : target b = Some d -> ~ In d seen -> saved_first (d :: seen) ops -> saved_first seen ((b, true) :: ops)
  | sf_again seen b d ops : target b = Some d -> In d seen -> saved_first seen ops -> saved_first seen ((b, false) :: ops).

  Definition saves (op : bump T * bool) (d : datum) : Prop := snd op = true /\ target (fst op) = Some d.

  (** No two instruments with the same id. *)
  Definition named (u : instrument T) (l : list (ask T)) : Prop :=
    In (SpotOf u) l \/ (exists d, In (ForwardOf u d) l) \/ exists d, In (VolOf u d) l.
  Definition one_per_id (l : list (ask T)) : Prop :=
    forall u u', named u l -> named u' l -> instrument_id u = instrument_id u' -> u = u'.

  Variable nan : T.

  (** Contexts reached from one by bumps that succeed. *)
  Inductive bumps_to : prefetch T -> prefetch T -> Prop :=
  | bt_refl p : bumps_to p p
  | bt_step p b save r p' save' p'' : prefetch_bump nan b p save = (Ok r, p', save') -> bumps_to p' p'' -> bumps_to p p''.

  (** A history of bumps through the context and the save area, all of which succeed but possibly the last. *)
  Inductive bumps_with : history -> prefetch T -> saveable T -> prefetch T -> saveable T -> Prop :=
  | bw_nil p s : bumps_with [] p s p s
  | bw_step b saving ops p s r p' s' p'' s'' : prefetch_bump nan b p (if_saving saving s) = (Ok r, p', s') ->
      bumps_with ops p' (keep s' s) p'' s'' -> bumps_with ((b, saving) :: ops) p s p'' s''
  | bw_last b saving p s r p' s' : prefetch_bump nan b p (if_saving saving s) = (r, p', s') ->
      bumps_with [(b, saving)] p s p' (keep s' s).
End Spec.
Arguments value T : clear implicits.
Arguments history T : clear implicits.

(** What a prefetching context derives from the market data. *)
Inductive derived := ForwardFor (id : string) | SurfaceFor (id : string).

Section Derived.
  Context {T : Type}.

  (** What is derived from a datum, given the dependencies. *)
  Definition feeds (deps : collector T) (d : datum) : list derived :=
    match d with
    | SpotFor id | DivsFor id | BorrowFor id => [ForwardFor id]
    | VolFor id => [SurfaceFor id]
    | YieldFor cr => map ForwardFor (forward_ids_of cr deps)
    end.

  (** Every datum is saved when it is first bumped and not after, it feeds nothing twice, and nothing that another bumped
      datum feeds. *)
  Inductive disciplined (deps : collector T) : list datum -> history T -> Prop :=
  | dis_nil seen : disciplined deps seen []
  | dis_first seen b d ops : target b = Some d -> ~ In d seen -> NoDup (feeds deps d) ->
      (forall d' x, In d' seen -> In x (feeds deps d) -> ~ In x (feeds deps d')) ->
      disciplined deps (d :: seen) ops -> disciplined deps seen ((b, true) :: ops)
  | dis_again seen b d ops : target b = Some d -> In d seen -> disciplined deps seen ops ->
      disciplined deps seen ((b, false) :: ops).
End Derived.
