(** Specification vocabulary for volatility surfaces. *)
From Coq Require Import ZArith List String Bool Reals.
From Verif Require Import Prelude Num M_Dates M_Calendar M_Interp M_Forward M_Vol S_Calendar.
Import ListNotations.
Open Scope list_scope.
Open Scope R_scope.

(** Date and day fraction, in order. *)
Definition before (a b : ddf R) : Prop :=
  (ddf_date a < ddf_date b)%Z \/ ddf_date a = ddf_date b /\ ddf_frac a < ddf_frac b.
Definition upto (a b : ddf R) : Prop := before a b \/ a = b.

(** A day fraction as the constructor accepts it. *)
Definition of_day (a : ddf R) : Prop := 0 <= ddf_frac a < 1.

(** The weighted time in years between two points in time. *)
Definition weighted_years (c : calendar R) (from to : ddf R) : R :=
  weighted_time (weight c) (ddf_date from) (ddf_frac from) (ddf_date to) (ddf_frac to) / standard_basis c.

(** The volatility of one strike, and the time. *)
Definition volatility_is {T} `{Num T} `{Trans T} (nan : T) (s : vol_surface T) (d : ddf T) (k vol time : T) : Prop :=
  volatilities nan s d [k] = Ok ([vol], time).

(** The strike x standard deviations away from the forward. *)
Definition away (fwd var x : R) : R := fwd * exp (x * sqrt var).

(** Straight-line interpolation. *)
Definition between (a b x : R) : R := a + (b - a) * x.

(** What a surface is built from at a pillar: the forward, the volatility of the smile there and the time. *)
Record pillar (nan : R) (cal : calendar R) (base : ddf R) (fwd : linear R date) (p : ddf R * smile R) (f vol t : R) : Prop := {
  pil_forward : linear_at nan fwd (ddf_date (fst p)) = Ok f;
  pil_vol : smile_at nan (snd p) f = Ok vol;
  pil_time : year_fraction cal base (fst p) = Ok t
}.

(** Pillars in strict order of time. *)
Fixpoint ordered_pillars (l : list (ddf R * smile R)) : Prop :=
  match l with
  | [] => True
  | p :: l' => (forall q, In q l' -> before (fst p) (fst q)) /\ ordered_pillars l'
  end.

(** Surfaces whose time is floored at zero: somewhere below the bumps is a time decorator. *)
Fixpoint time_evolved {T} (s : vol_surface T) : Prop :=
  match s with
  | ConstantExpiry _ _ _ | RollingExpiry _ _ _ => True
  | ParallelBumpVol b _ | TimeScaledBumpVol b _ _ | StickyDeltaBumpVol b _ => time_evolved b
  | _ => False
  end.

(** No smile: one volatility for all strikes. *)
Definition no_smile (nan : R) (s : vol_surface R) : Prop :=
  forall d k k' v t v' t', volatility_is nan s d k v t -> volatility_is nan s d k' v' t' -> v = v'.

(** [x] is the variance gained between two dates at one strike. *)
Definition accumulated (nan : R) (s : vol_surface R) (from to : ddf R) (k x : R) : Prop :=
  exists a b, variance nan s from k = Ok a /\ variance nan s to k = Ok b /\ x = b - a.

(** The variances at the forward, pillar by pillar. *)
Definition atm_variances (nan : R) (cal : calendar R) (base : ddf R) (fwd : linear R date)
    (smiles : list (ddf R * smile R)) (vars : list R) : Prop :=
  Forall2 (fun p x => exists f vol t, pillar nan cal base fwd p f vol t /\ x = t * vol ^ 2) smiles vars.

(** Never falling, starting from [lo]. *)
Fixpoint rising (lo : R) (l : list R) : Prop :=
  match l with
  | [] => True
  | x :: l' => lo <= x /\ rising x l'
  end.

(** p and q are neighbouring pillars. *)
Definition adjacent (l : list (ddf R * smile R)) (p q : ddf R * smile R) : Prop :=
  exists i, nth_error l i = Some p /\ nth_error l (S i) = Some q.

(** The variance of a surface at its forward. *)
Definition atm_variance (nan : R) (v : vol_by_probability R) (d : ddf R) (x : R) : Prop :=
  exists f, linear_at nan (vbp_forward v) (ddf_date d) = Ok f /\ variance nan (VolByProbability v) d f = Ok x.

(** Pillars after the base date, each with positive variance and strictly later in vol time than the one before. *)
Record spread (nan : R) (cal : calendar R) (base : ddf R) (fwd : linear R date) (smiles : list (ddf R * smile R)) : Prop := {
  sp_order : ordered_pillars smiles;
  sp_day : forall p, In p smiles -> of_day (fst p) /\ before base (fst p);
  sp_positive : forall p f vol t, In p smiles -> pillar nan cal base fwd p f vol t -> 0 < t /\ 0 < vol;
  sp_times : forall p q t u, adjacent smiles p q -> year_fraction cal base (fst p) = Ok t -> year_fraction cal base (fst q) = Ok u -> t < u;
  sp_forwards : forall d f, linear_at nan fwd d = Ok f -> 0 < f
}.
