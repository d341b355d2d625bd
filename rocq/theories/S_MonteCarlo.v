(** Specification vocabulary for Monte-Carlo pricing. *)
From Coq Require Import ZArith List String Bool Reals.
From Verif Require Import Prelude Num M_Dates M_Calendar M_Curves M_Fixings M_Forward M_Vol M_Instruments M_Deps M_Risk M_Reports M_MonteCarlo
  S_Risk.
Import ListNotations.
Open Scope list_scope.

Section Histories.
  Context {T P : Type}.
  Variable ops : pricer_ops T P.

  (** A history of bumps of a pricer with a save area, all of which succeed but possibly the last. *)
  Inductive pricer_bumps : history T -> P -> saveable T -> P -> saveable T -> Prop :=
  | pb_nil p s : pricer_bumps [] p s p s
  | pb_step b saving h p s r p' s' p'' s'' : op_bump ops b p (if_saving saving s) = (Ok r, p', s') ->
      pricer_bumps h p' (keep s' s) p'' s'' -> pricer_bumps ((b, saving) :: h) p s p'' s''
  | pb_last b saving p s r p' s' : op_bump ops b p (if_saving saving s) = (r, p', s') ->
      pricer_bumps [(b, saving)] p s p' (keep s' s).

  (** Pricers reached from one by bumps that succeed. *)
  Inductive pricer_reaches : P -> P -> Prop :=
  | pr_refl p : pricer_reaches p p
  | pr_step p b save r p' save' p'' : op_bump ops b p save = (Ok r, p', save') -> pricer_reaches p' p'' -> pricer_reaches p p''.
End Histories.

Section Discipline.
  Context {T : Type}.

  (** The equities whose paths are made from a datum. *)
  Definition moves (deps : collector T) (d : datum) : list string :=
    match d with
    | SpotFor id | DivsFor id | BorrowFor id | VolFor id => [id]
    | YieldFor cr => forward_ids_of cr deps
    end.

  (** Every datum is saved when it is first bumped and not after, it moves no path twice, and none that another bumped
      datum moves. *)
  Inductive careful (deps : collector T) : list datum -> history T -> Prop :=
  | ca_nil seen : careful deps seen []
  | ca_first seen b d h : target b = Some d -> ~ In d seen -> NoDup (moves deps d) ->
      (forall d' id, In d' seen -> In id (moves deps d) -> ~ In id (moves deps d')) ->
      careful deps (d :: seen) h -> careful deps seen ((b, true) :: h)
  | ca_again seen b d h : target b = Some d -> In d seen -> careful deps seen h -> careful deps seen ((b, false) :: h).
End Discipline.

Open Scope R_scope.

(** The mean of some numbers. *)
Definition mean (l : list R) : R := fold_right Rplus 0 l / INR (List.length l).

(** What an option pays on a path: the values at its observations. *)
Definition pays (i : instrument R) (path : list R) : R :=
  let intrinsic (pc : put_or_call) (s k : R) := match pc with Call => Rmax (s - k) 0 | Put => Rmax (k - s) 0 end in
  match i, path with
  | ISpotEuropean v strike, [s] => intrinsic (van_put_or_call v) s strike
  | IForwardEuropean v fraction _ _, [start; s] => intrinsic (van_put_or_call v) s (fraction * start)
  | _, _ => 0
  end.

(** The option proper and what it is on; the times at which it looks at that. *)
Definition option_of (i : instrument R) : option (vanilla R) :=
  match i with ISpotEuropean v _ | IForwardEuropean v _ _ _ => Some v | _ => None end.
Definition looks_at (i : instrument R) : list (ddf R) :=
  match i with
  | ISpotEuropean v _ => [van_expiry_time v]
  | IForwardEuropean v _ _ strike_time => [strike_time; van_expiry_time v]
  | _ => []
  end.

(** Every way of changing the signs of some numbers. *)
Fixpoint sign_changes (l : list R) : list (list R) :=
  match l with
  | [] => [[]]
  | x :: l' => map (cons x) (sign_changes l') ++ map (cons (- x)) (sign_changes l')
  end.

(** The values at one observation. *)
Definition column (k : nat) (m : matrix R) : list R := map (fun row => nth k row 0) m.

(** What the market says at each observation: the forward, the variance at the forward, and the displacement. *)
Record mark := mkMark { mk_forward : R; mk_variance : R; mk_displacement : R }.
Definition marked (nan : R) (curve : forward R) (surface : vol_surface R) (observations : list (ddf R)) (marks : list mark) : Prop :=
  Forall2 (fun o m => forward_at nan curve (ddf_date o) = Ok (mk_forward m) /\
             variance nan surface o (mk_forward m) = Ok (mk_variance m) /\
             displacement nan surface (ddf_date o) = Ok (mk_displacement m)) observations marks.

(** The variance gained up to each observation since the one before. *)
Fixpoint gained (before : R) (marks : list mark) : list R :=
  match marks with [] => [] | m :: marks' => mk_variance m - before :: gained (mk_variance m) marks' end.

Definition product (l : list R) : R := fold_right Rmult 1 l.

(** The standard deviation of each step, there being [steps] of them to each observation. *)
Definition deviations (marks : list mark) (steps : list nat) : list R :=
  List.concat (map (fun gn => repeat (sqrt (fst gn / INR (snd gn))) (snd gn)) (combine (gained 0 marks) steps)).

(** A path: by each observation the excess of the forward over the displacement has grown by one plus draw times deviation
    at every step so far. *)
Definition grown (draws devs : list R) (n : nat) : R := product (map (fun gs => 1 + fst gs * snd gs) (firstn n (combine draws devs))).
Definition path_of (marks : list mark) (steps : list nat) (draws : list R) : list R :=
  map (fun j => let m := nth j marks (mkMark 0 0 0) in
                (mk_forward m - mk_displacement m) * grown draws (deviations marks steps) (list_sum (firstn (S j) steps)) + mk_displacement m)
    (seq 0 (List.length marks)).

(** Enough steps to each observation for each to gain at most a variance, and no more than needed. *)
Definition enough_steps (most : R) (marks : list mark) (steps : list nat) : Prop :=
  Forall2 (fun v n => (1 <= n)%nat /\ v / INR n <= most /\ ((1 < n)%nat -> most < v / (INR n - 1))) (gained 0 marks) steps.
