(** Properties C12-C16: interpolation, extrapolation and cubic splines. *)
From Coq Require Import ZArith List String Bool Lia Reals Lra.
From Verif Require Import Prelude Num L_Num M_Search M_Interp S_Interp L_Interp L_Spline L_InterpCases.
Import ListNotations.
Open Scope list_scope.
Open Scope R_scope.

(** The two kinds of abscissa in use, numbers and dates, are lawful. *)
Example abscissae_lawful : lawful (fun x : R => x) /\ lawful IZR.
Proof. exact (conj lawful_R lawful_Z). Qed.
Example points_exist : exists f, linear_new [(0, 5); (1, 7)] Flat Zero = Ok f.
Proof. eexists. apply two_new. Qed.

(** C12: exact at the given points. *)
Theorem C12_linear_at_points : forall X (I : Interpolable X R) pos, lawful pos -> forall nan (pts : list (X * R)) l r f x y,
  linear_new pts l r = Ok f -> In (x, y) pts -> linear_at nan f x = Ok y.
Proof. intros X I. exact linear_pillar. Qed.
Print Assumptions C12_linear_at_points.

(** C12: between two neighbours, on the line through them and between their values. *)
Theorem C12_linear_between : forall X (I : Interpolable X R) pos, lawful pos -> forall nan (pts : list (X * R)) l r f x p q,
  linear_new pts l r = Ok f -> neighbours pts p q -> pos (fst p) < pos x < pos (fst q) ->
  exists y, linear_at nan f x = Ok y /\ on_line pos p q x y /\ Rmin (snd p) (snd q) <= y <= Rmax (snd p) (snd q).
Proof. intros X I. exact linear_between. Qed.
Print Assumptions C12_linear_between.

(** C12: affine data are reproduced in the range, and everywhere with natural extrapolation. *)
Theorem C12_linear_affine : forall X (I : Interpolable X R) pos, lawful pos -> forall nan (pts : list (X * R)) l r f x a b,
  linear_new pts l r = Ok f -> (forall p, In p pts -> snd p = a * pos (fst p) + b) -> within pos pts x ->
  linear_at nan f x = Ok (a * pos x + b).
Proof. intros X I. exact linear_affine. Qed.
Print Assumptions C12_linear_affine.

Theorem C12_linear_affine_natural : forall X (I : Interpolable X R) pos, lawful pos ->
  forall nan (pts : list (X * R)) r f x a b,
  linear_new pts Natural r = Ok f -> (1 < List.length pts)%nat ->
  (forall p, In p pts -> snd p = a * pos (fst p) + b) -> linear_at nan f x = Ok (a * pos x + b).
Proof. intros X I. exact linear_affine_natural. Qed.
Print Assumptions C12_linear_affine_natural.

(** C12: if every slope is between m and M then so is every chord; with m = 0 the interpolant is monotone, and with
    m = -M it is Lipschitz. *)
Theorem C12_linear_slopes : forall X (I : Interpolable X R) pos, lawful pos ->
  forall nan (pts : list (X * R)) l r f m M x x' y y',
  linear_new pts l r = Ok f -> slopes_between pos m M pts -> within pos pts x -> within pos pts x' -> pos x <= pos x' ->
  linear_at nan f x = Ok y -> linear_at nan f x' = Ok y' ->
  m * (pos x' - pos x) <= y' - y <= M * (pos x' - pos x).
Proof. intros X I. exact linear_slopes. Qed.
Print Assumptions C12_linear_slopes.

(** C13: to the left the left policy holds. *)
Theorem C13_left_policy : forall X (I : Interpolable X R) pos, lawful pos -> forall nan (pts : list (X * R)) l r f x p,
  linear_new pts l r = Ok f -> first_point pts p -> pos x < pos (fst p) ->
  l <> Natural -> obeys nan l (snd p) (linear_at nan f x).
Proof. intros X I. exact linear_left_obeys. Qed.
Print Assumptions C13_left_policy.

Theorem C13_left_natural : forall X (I : Interpolable X R) pos, lawful pos -> forall nan (pts : list (X * R)) r f x p q,
  linear_new pts Natural r = Ok f -> first_two pts p q -> pos x < pos (fst p) ->
  exists y, linear_at nan f x = Ok y /\ on_line pos p q x y.
Proof. intros X I. exact linear_left_natural. Qed.
Print Assumptions C13_left_natural.

(** C13: to the right the right policy holds only when the left one is not Natural, and then Natural is an error... *)
Theorem C13_right_policy : forall X (I : Interpolable X R) pos, lawful pos -> forall nan (pts : list (X * R)) l r f x p,
  linear_new pts l r = Ok f -> last_point pts p -> pos (fst p) < pos x ->
  l <> Natural -> obeys nan r (snd p) (linear_at nan f x).
Proof. intros X I. exact linear_right_obeys. Qed.
Print Assumptions C13_right_policy.

(** ... when the left policy is Natural, the last line is continued whatever the right policy. *)
Theorem C13_right_natural : forall X (I : Interpolable X R) pos, lawful pos -> forall nan (pts : list (X * R)) r f x p q,
  linear_new pts Natural r = Ok f -> last_two pts p q -> pos (fst q) < pos x ->
  exists y, linear_at nan f x = Ok y /\ on_line pos p q x y.
Proof. intros X I. exact linear_right_natural. Qed.
Print Assumptions C13_right_natural.

Theorem C13_single_point : forall X (I : Interpolable X R) pos, lawful pos -> forall nan (p : X * R) l r f x,
  linear_new [p] l r = Ok f ->
  (pos x < pos (fst p) -> obeys nan l (snd p) (linear_at nan f x)) /\
  (pos (fst p) < pos x -> obeys nan r (snd p) (linear_at nan f x)).
Proof. intros X I. exact linear_single_obeys. Qed.
Print Assumptions C13_single_point.

(** C13: so "the right policy governs the right" is false in both directions. *)
Theorem C13_right_policy_refuted :
  (exists f, linear_new two_points Natural Throw = Ok f /\ forall nan, linear_at nan f 2 = Ok 2) /\
  (exists f m, linear_new two_points Flat Natural = Ok f /\ forall nan, linear_at nan f 2 = Err m).
Proof. exact right_policy_cases. Qed.
Print Assumptions C13_right_policy_refuted.

(** C13: the same for splines that are not natural on the left. *)
Theorem C13_spline_policy : forall X (I : Interpolable X R) pos, lawful pos -> forall nan (pts : list (X * R)) l r s x p e,
  l <> Natural -> spline_new pts l r = Ok s -> first_point pts p -> last_point pts e ->
  (pos x < pos (fst p) -> obeys nan l (snd p) (spline_at nan s x)) /\
  (pos (fst e) < pos x -> obeys nan r (snd e) (spline_at nan s x)).
Proof. intros X I. exact spline_outside. Qed.
Print Assumptions C13_spline_policy.

(** C14: the constructor accepts exactly the non-empty lists with separated, increasing abscissae. *)
Theorem C14_validation : forall X (I : Interpolable X R) pos, lawful pos -> forall (pts : list (X * R)),
  validate_abscissae pts = Ok tt <-> pts <> [] /\ separated pos pts.
Proof. intros X I. exact validate_iff. Qed.
Print Assumptions C14_validation.

Theorem C14_linear_new : forall X (I : Interpolable X R) pos, lawful pos -> forall (pts : list (X * R)) l r f,
  linear_new pts l r = Ok f <-> pts <> [] /\ separated pos pts /\ f = mkLinear l r pts.
Proof. intros X I. exact linear_new_iff. Qed.
Print Assumptions C14_linear_new.

(** C14, on doubles: a NaN abscissa among several is refused... *)
Theorem C14_nan_refused : forall (pts : list (F64 * F64)), (1 < List.length pts)%nat ->
  (exists q, In q pts /\ fst q = F_nan) -> exists m, validate_abscissae pts = Err m.
Proof. exact validate_nan. Qed.
Print Assumptions C14_nan_refused.

(** ... but not a NaN on its own, although the documentation says "none is NaN". *)
Theorem C14_nan_refused_refuted : exists y : F64, validate_abscissae [(F_nan, y)] = Ok tt.
Proof. exact (ex_intro _ F_nan eq_refl). Qed.
Print Assumptions C14_nan_refused_refuted.

(** C14: the abscissae of a single point are valid, but the spline constructor then panics. *)
Theorem C14_spline_single_point_refuted : forall T (N : Num T) X (I : Interpolable X T) (p : X * T) l r,
  validate_abscissae [p] = Ok tt /\ exists m, spline_new [p] l r = Panic m.
Proof. exact (fun T N => (fun X I p l r => conj eq_refl (ex_intro _ _ eq_refl))). Qed.
Print Assumptions C14_spline_single_point_refuted.

(** C14: a spline read from its serialized form is not validated. *)
Theorem C14_deserialized_refuted : exists s, spline_load [(1, 0); (0, 1)] Flat Flat = Ok s.
Proof. exact load_unvalidated. Qed.
Print Assumptions C14_deserialized_refuted.

Example C15_spline_exists : exists s, spline_new [(0, 0); (1, 1)] Natural Natural = Ok s.
Proof. exact (spline_new_two Natural Natural). Qed.

(** C15: natural at both ends, the spline is a piecewise cubic with continuous slope and curvature that passes through the
    points and has no curvature at its ends; beyond them the outer cubics continue. *)
Theorem C15_natural_spline : forall X (I : Interpolable X R) pos, lawful pos -> forall nan (pts : list (X * R)) s,
  spline_new pts Natural Natural = Ok s ->
  exists pieces, natural_spline pos pts pieces /\
    (forall i c x, nth_error pieces i = Some c -> on_piece pos pts i x -> spline_at nan s x = Ok (value c (pos x))) /\
    (forall p c x, first_point pts p -> nth_error pieces 0 = Some c -> pos x < pos (fst p) ->
       spline_at nan s x = Ok (value c (pos x))) /\
    (forall p c x, last_point pts p -> nth_error pieces (List.length pieces - 1) = Some c -> pos (fst p) < pos x ->
       spline_at nan s x = Ok (value c (pos x))).
Proof. intros X I. exact spline_natural. Qed.
Print Assumptions C15_natural_spline.

(** C15: there is only one such piecewise cubic. *)
Theorem C15_natural_spline_unique : forall X (I : Interpolable X R) pos, lawful pos -> forall (pts : list (X * R)) cs cs',
  (1 < List.length pts)%nat -> separated pos pts ->
  natural_spline pos pts cs -> natural_spline pos pts cs' -> cs = cs'.
Proof. intros X I. exact spline_natural_unique. Qed.
Print Assumptions C15_natural_spline_unique.

Theorem C15_affine : forall X (I : Interpolable X R) pos, lawful pos -> forall nan (pts : list (X * R)) s a b x,
  spline_new pts Natural Natural = Ok s ->
  (forall p, In p pts -> snd p = a * pos (fst p) + b) -> spline_at nan s x = Ok (a * pos x + b).
Proof. intros X I. exact spline_affine. Qed.
Print Assumptions C15_affine.

(** The slope and curvature in these statements are the derivatives. *)
Theorem C15_slope_is_derivative : forall c x, derivable_pt_lim (value c) x (slope c x).
Proof. exact slope_is_derivative. Qed.
Print Assumptions C15_slope_is_derivative.
Theorem C15_curvature_is_derivative : forall c x, derivable_pt_lim (slope c) x (curvature c x).
Proof. exact curvature_is_derivative. Qed.
Print Assumptions C15_curvature_is_derivative.

(** C16: with a clamped right end (and a natural left one) the slope at the last point is 0. *)
Theorem C16_clamped_right : forall X (I : Interpolable X R) pos, lawful pos -> forall nan (pts : list (X * R)) r s,
  r <> Natural -> spline_new pts Natural r = Ok s ->
  exists pieces, through pos pts pieces /\ slopes_join pos 1 pts pieces /\ curvatures_join pos pts pieces /\
    at_first pos pts pieces (fun c x => curvature c x = 0) /\
    at_last pos pts pieces (fun c x => slope c x = 0) /\
    (forall i c x, nth_error pieces i = Some c -> on_piece pos pts i x -> spline_at nan s x = Ok (value c (pos x))).
Proof. intros X I. exact spline_clamped_right. Qed.
Print Assumptions C16_clamped_right.

(** C16: with a clamped left end the curvature there is -1/2 whatever the data, and the slopes need not agree at the second
    point. *)
Theorem C16_clamped_left_curvature : forall X (I : Interpolable X R) pos, lawful pos ->
  forall nan (pts : list (X * R)) l r s,
  l <> Natural -> spline_new pts l r = Ok s ->
  exists pieces, through pos pts pieces /\ slopes_join pos 2 pts pieces /\ curvatures_join pos pts pieces /\
    at_first pos pts pieces (fun c x => curvature c x = - / 2) /\
    (forall i c x, nth_error pieces i = Some c -> on_piece pos pts i x -> spline_at nan s x = Ok (value c (pos x))).
Proof. intros X I. exact spline_clamped_left. Qed.
Print Assumptions C16_clamped_left_curvature.

(** C16: so a spline clamped at both ends through the points (0, 0) and (1, 0) is not zero. *)
Theorem C16_clamped_left_refuted : exists s, spline_new [(0, 0); (1, 0)] Flat Flat = Ok s /\
  forall nan, spline_at nan s (1 / 2) = Ok (1 / 32).
Proof. exact clamped_flat_data. Qed.
Print Assumptions C16_clamped_left_refuted.
