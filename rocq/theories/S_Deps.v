(** Specification vocabulary for dependencies: what instruments declare, what a collector should then know. *)
From Coq Require Import ZArith List String Bool.
From Verif Require Import Prelude Num M_Dates M_Calendar M_Curves M_Forward M_Vol M_Instruments M_Deps.
Import ListNotations.
Open Scope list_scope.

Section Spec.
  Context {T : Type} `{Num T}.
  Implicit Types i u : instrument T.

  (** One piece of market data, with the last date it is needed for. *)
  Inductive ask :=
  | Discount (credit : string) (d : date)
  | SpotOf u
  | ForwardOf u (d : date)
  | VolOf u (d : date)
  | FixingOf (id : string) (dt : datetime).

  (** Only equities have a spot. *)
  Definition has_a_spot i : bool := match i with IEquity _ _ _ _ => true | _ => false end.
  Definition its_spot i : list ask := if has_a_spot i then [SpotOf i] else [].

  (** A forward needs the curve of its credit as well, and the spot of what it is the forward of. *)
  Definition its_forward i (d : date) (own : list ask) : list ask :=
    [Discount (credit_id i) d; ForwardOf i d] ++ own ++ its_spot i.

  (** What an option declares, given what its underlying does. *)
  Definition option_asks (v : vanilla T) (own : list ask) : list ask :=
    let u := van_underlying v in
    let d := dt_date (van_expiry v) in
    [FixingOf (instrument_id u) (van_expiry v); Discount (van_credit_id v) (van_pay_date v)]
    ++ its_forward u d own ++ [VolOf u d].

  Variable today : date.

  (** What each instrument declares, seen from today.  A basket asks an equity twice. *)
  Inductive declares : instrument T -> list ask -> Prop :=
  | dec_currency c pay : apply_rule (cur_settlement c) today = Ok pay -> declares (ICurrency c) [Discount (cur_id c) pay]
  | dec_credit id cur s pay : apply_rule s today = Ok pay -> declares (ICreditEntity id cur s) [Discount id pay]
  | dec_equity id cr cur s pay : apply_rule s today = Ok pay -> declares (IEquity id cr cur s) [Discount cr pay]
  | dec_zero id cr cur ex pay s : declares (IZeroCoupon id cr cur ex pay s) [Discount cr pay]
  | dec_basket id cr cur s ms l : declares_all ms l -> declares (IBasket id cr cur s ms) l
  | dec_spot v k l : declares (van_underlying v) l -> declares (ISpotEuropean v k) (option_asks v l)
  | dec_forward v f d0 x0 l : declares (van_underlying v) l ->
      declares (IForwardEuropean v f d0 x0) (FixingOf (instrument_id (van_underlying v)) d0 :: option_asks v l)
  with declares_all : holdings T -> list ask -> Prop :=
  | dec_nil : declares_all [] []
  | dec_cons w u ms l l' : declares u l -> declares_all ms l' ->
      declares_all ((w, u) :: ms) ((if has_a_spot u then l ++ l ++ [SpotOf u] else l) ++ l').

  (** The requests a collector receives. *)
  Inductive request :=
  | WantDiscount (credit : string) (d : date)
  | WantSpot u
  | WantForward u (d : date)
  | WantVol u (d : date)
  | WantFixing (id : string) (dt : datetime).

  Definition collect (r : request) (s : collector T) : res (collector T) :=
    match r with
    | WantDiscount credit d => Ok (col_yield credit d s)
    | WantSpot u => collect_spot u s
    | WantForward u d => collect_forward u d s
    | WantVol u d => Ok (col_vol u d s)
    | WantFixing id dt => Ok (col_fixing id dt s)
    end.

  Definition collect_all (rs : list request) : res (collector T) := foldM (fun s r => collect r s) (collector_new today) rs.

  (** What a request comes to. *)
  Inductive comes_to : request -> list ask -> Prop :=
  | ct_discount credit d : comes_to (WantDiscount credit d) [Discount credit d]
  | ct_spot u l : declares u l -> comes_to (WantSpot u) (l ++ its_spot u)
  | ct_forward u d l : declares u l -> comes_to (WantForward u d) (its_forward u d l)
  | ct_vol u d : comes_to (WantVol u d) [VolOf u d]
  | ct_fixing id dt : comes_to (WantFixing id dt) [FixingOf id dt].

  Inductive all_come_to : list request -> list ask -> Prop :=
  | act_nil : all_come_to [] []
  | act_cons r rs l l' : comes_to r l -> all_come_to rs l' -> all_come_to (r :: rs) (l ++ l').
End Spec.
Arguments ask T : clear implicits.
Arguments request T : clear implicits.

(** The latest of some dates. *)
Definition latest (ds : list date) (o : option date) : Prop :=
  match o with
  | None => ds = []
  | Some d => In d ds /\ Forall (fun e => (e <= d)%Z) ds
  end.

Section Extract.
  Context {T : Type}.

  Definition discounts_to (credit : string) (l : list (ask T)) : list date :=
    flat_map (fun a => match a with Discount c d => if String.eqb c credit then [d] else [] | _ => [] end) l.
  Definition forwards_to (id : string) (l : list (ask T)) : list date :=
    flat_map (fun a => match a with ForwardOf u d => if String.eqb (instrument_id u) id then [d] else [] | _ => [] end) l.
  Definition vols_to (id : string) (l : list (ask T)) : list date :=
    flat_map (fun a => match a with VolOf u d => if String.eqb (instrument_id u) id then [d] else [] | _ => [] end) l.
  Definition fixings_asked (id : string) (l : list (ask T)) : list datetime :=
    flat_map (fun a => match a with FixingOf i dt => if String.eqb i id then [dt] else [] | _ => [] end) l.
  Definition forwards_on (credit : string) (l : list (ask T)) : list string :=
    flat_map (fun a => match a with ForwardOf u _ => if String.eqb (credit_id u) credit then [instrument_id u] else [] | _ => [] end) l.
  Definition spot_asked (id : string) (l : list (ask T)) : Prop := exists u, In (SpotOf u) l /\ instrument_id u = id.

  (** Two contexts that give the same answers to everything declared. *)
  Record same_answers (l : list (ask T)) (c1 c2 : pricing_context T) : Prop := {
    sa_date : ctx_spot_date c1 = ctx_spot_date c2;
    sa_discount : forall cr d e, In (Discount cr d) l -> (e <= d)%Z -> ctx_yield_curve c1 cr e = ctx_yield_curve c2 cr e;
    sa_spot : forall u, In (SpotOf u) l -> ctx_spot c1 (instrument_id u) = ctx_spot c2 (instrument_id u);
    sa_forward : forall u d e, In (ForwardOf u d) l -> (e <= d)%Z -> ctx_forward_curve c1 u e = ctx_forward_curve c2 u e;
    sa_vol : forall u d e f, In (VolOf u d) l -> (e <= d)%Z -> ctx_vol_surface c1 u e f = ctx_vol_surface c2 u e f
  }.

  (** Cash, bonds and baskets of them, with or without equities. *)
  Inductive simple (equities : bool) : instrument T -> Prop :=
  | simple_currency c : simple equities (ICurrency c)
  | simple_credit id cur s : simple equities (ICreditEntity id cur s)
  | simple_equity id cr cur s : equities = true -> simple equities (IEquity id cr cur s)
  | simple_zero id cr cur ex pay s : simple equities (IZeroCoupon id cr cur ex pay s)
  | simple_basket id cr cur s ms : Forall (fun h => simple equities (snd h)) ms -> simple equities (IBasket id cr cur s ms).
End Extract.

(** The same option on another credit. *)
Definition with_credit {T} (cr : string) (v : vanilla T) : vanilla T :=
  mkVanilla (van_id v) cr (van_underlying v) (van_settlement v) (van_expiry v) (van_put_or_call v)
    (van_cash_or_physical v) (van_expiry_time v) (van_pay_date v).
