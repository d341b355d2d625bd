(** Specification vocabulary for implied volatility. *)
From Coq Require Import ZArith List String Bool Reals.
From Verif Require Import Prelude Num M_Dates M_Vol M_Instruments M_Deps M_Risk M_Reports S_Reports.
Import ListNotations.
Open Scope list_scope.

Section Solver.
  Context {T : Type} {N : Num T} {P : Type}.
  Variable ops : pricer_ops T P.

  (** The price with the volatility of one id replaced by a flat one, less a target. *)
  Definition excess (id : string) (p : P) (target vol : T) : res T :=
    rmap (fun x => nsub x target) (price_after ops [BVol id (ReplaceVol vol)] p).

  (** The pricer is the other one with the volatility of one id replaced. *)
  Definition with_vol (id : string) (vol : T) (p p' : P) : Prop :=
    exists r s, op_bump ops (BVol id (ReplaceVol vol)) p None = (Ok r, p', s).

  (** Replacing a volatility that has been replaced is replacing the original, except that a failure may leave something
      else. *)
  Definition replaceable : Prop := forall id v w p p' r s,
    op_bump ops (BVol id (ReplaceVol v)) p None = (Ok r, p', s) ->
    let b := op_bump ops (BVol id (ReplaceVol w)) p' None in let b' := op_bump ops (BVol id (ReplaceVol w)) p None in
    fst (fst b) = fst (fst b') /\ (is_ok (fst (fst b')) = true -> b = b').

  (** The ids whose volatility the price depends on. *)
  Definition depends_on_vols (p : P) (ids : list string) : Prop :=
    exists deps, op_dependencies ops p = Ok deps /\ map (fun kv => instrument_id (fst (snd kv))) (col_vol_surfaces deps) = ids.
End Solver.
