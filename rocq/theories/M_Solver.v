(** Model of src/solvers/impliedvol.rs. *)
From Coq Require Import ZArith List String Bool.
From Verif Require Import Prelude Num M_Brent M_Dates M_Vol M_Instruments M_Deps M_Risk M_Reports.
Import ListNotations.
Open Scope string_scope.

(** impliedvol.rs:13-16 [struct ImpliedVol]. *)
Record implied_vol (T : Type) := mkImpliedVol { iv_tolerance : T; iv_max_iter : nat }.
Arguments mkImpliedVol {T}.
Arguments iv_tolerance {T} s : rename.
Arguments iv_max_iter {T} s : rename.

Section Solver.
  Context {T : Type} {N : Num T} {TR : Trans T}.
  Variable nan : T.
  Context {P : Type}.
  Variable ops : pricer_ops T P.
  Local Open Scope num_scope.

  (** impliedvol.rs:45-49 [price_given_vol]. *)
  Definition price_given_vol (vol : T) (id : string) (p : P) : res T * P :=
    match op_bump ops (BVol id (ReplaceVol vol)) p None with
    | (Ok _, p', _) => (op_price ops p', p')
    | (Err m, p', _) => (Err m, p')
    | (Panic m, p', _) => (Panic m, p')
    end.

  (** impliedvol.rs:51-62 [single_vol_id]. *)
  Definition single_vol_id (p : P) : res string :=
    let* deps := op_dependencies ops p in
    if Nat.ltb 1 (List.length (col_vol_surfaces deps)) then Err "Vol surface is not unambiguously defined"
    else match col_vol_surfaces deps with
         | (_, (u, _)) :: _ => Ok (instrument_id u)
         | [] => Err "No vol surface to solve for"
         end.

  (** impliedvol.rs:31-42 [solve]. *)
  Definition solve (s : implied_vol T) (target min max : T) (p : P) : res T * P :=
    match single_vol_id p with
    | Err m => (Err m, p)
    | Panic m => (Panic m, p)
    | Ok id =>
        zbrent _ (fun vol p => let '(r, p') := price_given_vol vol id p in (rmap (fun x => x - target) r, p'))
          nan min max (iv_tolerance s) (iv_max_iter s) p
    end.
End Solver.
