(** Specification: calculations from end to end. *)
From Coq Require Import ZArith NArith List String Bool Reals.
From Verif Require Import Prelude Num M_Dates M_Calendar M_Curves M_Vol M_Instruments M_Deps M_Risk M_Reports M_Serde M_Handles S_Handles.
Import ListNotations.
Open Scope list_scope.
Open Scope R_scope.

Section Answering.
  Context {T : Type} {N : Num T}.
  Variable nan : T.
  (** A report is what its generator asks for: of its kind, with its bump size, with its subreports. *)
  Inductive report_for : generator T -> report T -> Prop :=
  | for_delta h m : report_for (DeltaGammaGenerator h) (DeltaGammaReport h m)
  | for_vega b m : report_for (VegaVolgaGenerator b) (VegaVolgaReport (vol_bumpsize nan b) m)
  | for_time bt gs x theta rs : Forall2 report_for gs rs -> report_for (TimeBumpedGenerator bt gs) (TimeBumpedReport x theta rs).
End Answering.

(** The bump sizes are positive throughout. *)
Inductive positive_sizes (nan : R) : generator R -> Prop :=
| positive_delta h : 0 < h -> positive_sizes nan (DeltaGammaGenerator h)
| positive_vega b : 0 < vol_bumpsize nan b -> positive_sizes nan (VegaVolgaGenerator b)
| positive_time bt gs : Forall (positive_sizes nan) gs -> positive_sizes nan (TimeBumpedGenerator bt gs).

(** Tolerances that can be met. *)
Definition positive_tolerances (tol : tolerances R) : Prop := 0 < tol_price tol /\ 0 < tol_currency_risk tol /\ 0 < tol_unit_risk tol.

(** Calls one after the other, each answered with a handle. *)
Inductive asks {instr ccy mkt fixt pf gen rep text tol thread : Type} (F : @facade instr ccy mkt fixt pf gen rep text tol thread)
    (fresh : list addr -> addr) : @world instr ccy mkt fixt pf gen rep thread -> list (@call text tol) -> list addr ->
    @world instr ccy mkt fixt pf gen rep thread -> Prop :=
| asks_nothing w : asks F fresh w [] [] w
| asks_more w c cs a l w1 w' : run fresh F c w = Defined (AHandle a, w1) -> asks F fresh w1 cs l w' -> asks F fresh w (c :: cs) (a :: l) w'.
