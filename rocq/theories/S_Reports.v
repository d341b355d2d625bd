(** Specification vocabulary for pricers and risk reports. *)
From Coq Require Import ZArith List String Bool Reals.
From Verif Require Import Prelude Num M_Dates M_Calendar M_Curves M_Fixings M_Forward M_Vol M_Instruments M_Deps M_Risk M_Reports.
Import ListNotations.
Open Scope list_scope.

Section Pricers.
  Context {T : Type} {N : Num T} {P : Type}.
  Variable ops : pricer_ops T P.

  (** The price after some bumps, none of them saved. *)
  Fixpoint price_after (bs : list (bump T)) (p : P) : res T :=
    match bs with
    | [] => op_price ops p
    | b :: rest =>
        match op_bump ops b p None with
        | (Ok _, p', _) => price_after rest p'
        | (Err m, _, _) => Err m
        | (Panic m, _, _) => Panic m
        end
    end.

  (** The price with the spot of one id replaced. *)
  Definition price_with_spot (id : string) (x : T) (p : P) : res T := price_after [BSpot id (ReplaceSpot x)] p.

  (** Two bumps of the same spot, or of the same volatility. *)
  Definition same_target (b b' : bump T) : Prop :=
    (exists id f f', b = BSpot id f /\ b' = BSpot id f') \/ (exists id f f', b = BVol id f /\ b' = BVol id f').

  (** A pricer whose restore undoes its bumps of spots and volatilities; [new] is its empty save area. *)
  Record well_behaved (new : saveable T) : Prop := {
    wb_new : forall p, op_new_saveable ops p = new;
    (** saving makes no difference to the outcome and the pricer *)
    wb_saving : forall b p, fst (op_bump ops b p (Some new)) = fst (op_bump ops b p None);
    (** a bump of something unknown changes nothing *)
    wb_unknown : forall b p save p' save', op_bump ops b p save = (Ok false, p', save') -> p' = p;
    wb_restore : forall b b' p r p1 s1 r' p2 s2, same_target b b' ->
      op_bump ops b p (Some new) = (Ok r, p1, s1) -> op_bump ops b' p1 None = (Ok r', p2, s2) ->
      r' = r /\ exists s, s1 = Some s /\ op_restore ops s p2 = (Ok tt, p) /\ clear s = new
  }.

  (** The ids a report has an entry for. *)
  Definition reported_ids (p : P) : res (list string) := rmap (fun deps => keys (col_instruments deps)) (op_dependencies ops p).
End Pricers.

Open Scope R_scope.

(** The values of two entries are within the two tolerances. *)
Definition close (x y tol : R) : Prop := Rabs (x - y) < tol.
Definition entries_close (tol1 tol2 : R) (x y : R * R) : Prop := close (fst x) (fst y) tol1 /\ close (snd x) (snd y) tol2.

(** Two tables have the same ids and entries within tolerance. *)
Definition tables_close (tol1 tol2 : R) (mine other : smap (R * R)) : Prop :=
  (forall id, In id (keys mine) <-> In id (keys other)) /\
  forall id x y, get id mine = Some x -> get id other = Some y -> entries_close tol1 tol2 x y.

(** Two reports agree: they are of the same kind, and their tables, prices and subreports are within tolerance.  The
    tolerance of a derivative is the tolerance of the price divided by the bump size of the first report. *)
Inductive agree (tol : tolerances R) : report R -> report R -> Prop :=
| agree_delta h h' m o : tables_close (tol_unit_risk tol / h) (tol_unit_risk tol / h / h) m o ->
    agree tol (DeltaGammaReport h m) (DeltaGammaReport h' o)
| agree_vega h h' m o : tables_close (tol_currency_risk tol / h) (tol_currency_risk tol / h / h) m o ->
    agree tol (VegaVolgaReport h m) (VegaVolgaReport h' o)
| agree_time x t subs x' t' subs' : close x x' (tol_price tol) -> close t t' (tol_price tol) -> Forall2 (agree tol) subs subs' ->
    agree tol (TimeBumpedReport x t subs) (TimeBumpedReport x' t' subs').

(** Reports as they are made: no id twice. *)
Inductive proper {T} : report T -> Prop :=
| proper_delta h m : NoDup (keys m) -> proper (DeltaGammaReport h m)
| proper_vega h m : NoDup (keys m) -> proper (VegaVolgaReport h m)
| proper_time x t subs : Forall proper subs -> proper (TimeBumpedReport x t subs).

(** The same bump sizes throughout. *)
Inductive same_sizes {T} : report T -> report T -> Prop :=
| same_delta h m o : same_sizes (DeltaGammaReport h m) (DeltaGammaReport h o)
| same_vega h m o : same_sizes (VegaVolgaReport h m) (VegaVolgaReport h o)
| same_time x t subs x' t' subs' : Forall2 same_sizes subs subs' -> same_sizes (TimeBumpedReport x t subs) (TimeBumpedReport x' t' subs').

(** What a fixing that has passed is worth when the date is bumped: the spot, or the forward to its date. *)
Definition fixes_at {T} {N : Num T} {TR : Trans T} (nan : T) (bt : bump_time) (c : pricing_context T) (id : string) (u : instrument T) (f : datetime)
    (v : T) : Prop :=
  match bsd_dynamics (bt_spot_date_bump bt) with
  | StickySpot => ctx_spot c id = Ok v
  | StickyForward => exists fwd, ctx_forward_curve c u (bsd_date (bt_spot_date_bump bt)) = Ok fwd /\ forward_at nan fwd (dt_date f) = Ok v
  end.

(** The date of a fixing is on or after the old spot date and before the new one. *)
Definition in_window {T} (bt : bump_time) (c : pricing_context T) (f : datetime) : Prop :=
  (ctx_spot_date c <= dt_date f < bsd_date (bt_spot_date_bump bt))%Z.
