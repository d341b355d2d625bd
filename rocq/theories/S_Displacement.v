(** What the shift of a vol surface's lognormal should be: the surface under the decorators, and what moved it. *)
From Coq Require Import ZArith List.
From Verif Require Import Prelude Num M_Dates M_Forward M_Vol.

Section Displacement.
  Context {T : Type}.
  (** The calibrated smiles under any number of decorators, if what is there is not a flat surface. *)
  Fixpoint calibrated (s : vol_surface T) : option (vol_by_probability T) :=
    match s with
    | FlatVolSurface _ _ _ => None
    | VolByProbability v => Some v
    | ConstantExpiry b _ _ | RollingExpiry b _ _ | ParallelBumpVol b _ | TimeScaledBumpVol b _ _ | StickyDeltaBumpVol b _ => calibrated b
    end.
  (** The forward it was last moved to by a sticky-delta decorator. *)
  Fixpoint last_moved_to (s : vol_surface T) : option (forward T) :=
    match s with
    | FlatVolSurface _ _ _ | VolByProbability _ => None
    | ConstantExpiry b _ _ | RollingExpiry b _ _ | ParallelBumpVol b _ | TimeScaledBumpVol b _ _ => last_moved_to b
    | StickyDeltaBumpVol _ f => Some f
    end.
End Displacement.
