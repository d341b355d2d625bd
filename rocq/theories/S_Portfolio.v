(** Specification vocabulary for portfolios seen as parts of larger ones. *)
From Coq Require Import ZArith List String Bool.
From Verif Require Import Prelude Num M_Dates M_Calendar M_Curves M_Fixings M_Forward M_Vol M_Instruments M_Deps M_Risk M_Reports
  S_Data S_Deps S_Risk.
Import ListNotations.
Open Scope list_scope.

(** Dividends in order, and either none of them goes ex on [base] or one goes ex after it and within reach of [hwm]. *)
Definition base_clear {T} (base : date) (s : div_stream T) (hwm : date) : Prop :=
  ex_ordered (dividends s) /\ (none_on base s \/ one_within base (reach s hwm) s).

Section Portfolios.
  Context {T : Type} {N : Num T}.

  (** What the holdings of a portfolio ask the market data for. *)
  Definition asks_of (md : market_data T) (l : holdings T) (a : list (ask T)) : Prop :=
    all_come_to (md_spot_date md) (map (fun h => WantSpot (snd h)) l) a.

  (** Every instrument of the one is held in the other, in whatever amounts. *)
  Definition part_of (part whole : holdings T) : Prop := forall h, In h part -> exists w, In (w, snd h) whole.

  (** The dividends of everything the portfolio needs forwards of are clear of today. *)
  Definition dividends_clear (md : market_data T) (a : list (ask T)) : Prop :=
    forall u d s, In (ForwardOf u d) a -> get (instrument_id u) (md_divs md) = Some s -> base_clear (md_spot_date md) s d.

  (** The shares in an instrument, at any depth. *)
  Inductive share_in (id : string) : instrument T -> Prop :=
  | share_itself cr cur s : share_in id (IEquity id cr cur s)
  | share_member b cr cur s ms w u : In (w, u) ms -> share_in id u -> share_in id (IBasket b cr cur s ms)
  | share_spot v k : share_in id (van_underlying v) -> share_in id (ISpotEuropean v k)
  | share_forward v f d0 x0 : share_in id (van_underlying v) -> share_in id (IForwardEuropean v f d0 x0).
End Portfolios.

(** What a delta or vega report says of a share: nothing said is no risk. *)
Definition entry {T} {N : Num T} (id : string) (m : smap (T * T)) : T * T := match get id m with Some e => e | None => (n0, n0) end.
