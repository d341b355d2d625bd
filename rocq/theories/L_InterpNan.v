(** Interpolating on doubles: a panic exactly when asked about NaN, and reading a surface that asks that. *)
From Coq Require Import ZArith List String Bool Lia Reals Lra.
From Coq.Floats Require Import SpecFloat.
From Verif Require Import Prelude Num M_Search L_Search M_Dates M_Calendar M_Interp M_Curves M_Forward M_Vol M_Schema M_Serde M_Objects M_Facade
  S_Interp S_Serde S_Read S_Double L_Double L_Interp L_InterpDouble L_ReadMarket.
Import ListNotations.
Open Scope string_scope.
Open Scope list_scope.

Lemma nan_unordered (x : F64) : interp_ord x F_nan = false.
Proof. destruct x as [|[]| |]; reflexivity. Qed.

Section Nan.
  Variable pts : list (F64 * F64).
  Hypothesis D : forall p, In p pts -> double (fst p) /\ fst p <> F_nan.
  Variables (nan : F64) (l r : extrap).

  Lemma ordered_at x p : double x -> x <> F_nan -> In p pts -> interp_ord (fst p) x = true.
  Proof. intros X NX Ip. apply ord_doubles; [exact (D p Ip)|split; assumption]. Qed.

  Lemma linear_panics f x : linear_new pts l r = Ok f -> double x -> (exists m, linear_at nan f x = Panic m) <-> x = F_nan.
  Proof.
    unfold linear_new. destruct (validate_abscissae pts) as [u| |] eqn:V; [|discriminate..]. cbn [bind]. intros E. injection E as <-.
    assert (NE : pts <> []) by (intros ->; discriminate V). intros X. split.
    - intros (m & P). assert (Q : x = F_nan \/ x <> F_nan) by (destruct x; (now left) || (right; discriminate)). destruct Q as [Q|Q]; [exact Q|exfalso].
      apply (calm_linear nan (mkLinear l r pts) x) in P; [exact P|]. intros p Ip. now apply ordered_at.
    - intros ->. destruct (find_unordered pts F_nan NE (fun p _ => nan_unordered (fst p))) as (m & Fd). exists m.
      unfold linear_at, linear_interpolate_extrapolate. cbn [lin_points lin_left lin_right]. rewrite Fd.
      destruct pts; [now destruct NE|reflexivity].
  Qed.

  Lemma spline_panics s x : spline_new pts l r = Ok s -> double x -> (exists m, spline_at nan s x = Panic m) <-> x = F_nan.
  Proof.
    unfold spline_new. destruct (validate_abscissae pts) as [u| |] eqn:V; [|discriminate..]. cbn [bind]. intros E.
    assert (L2 : (2 <= List.length pts)%nat) by (unfold nr_spline in E; destruct pts as [|? [|? ?]]; try discriminate E; cbn [List.length]; lia).
    destruct (nr_spline _ _ _) as [ms| |] eqn:S; [|discriminate..]. apply nr_spline_length in S. cbn [bind] in E. injection E as <-.
    assert (NE : pts <> []) by (intros ->; discriminate V). intros X. split.
    - intros (m & P). assert (Q : x = F_nan \/ x <> F_nan) by (destruct x; (now left) || (right; discriminate)). destruct Q as [Q|Q]; [exact Q|exfalso].
      apply (calm_spline nan (mkSpline l r pts ms) x L2 S) in P. destruct P as (p & Ip & O). rewrite (ordered_at x p X Q Ip) in O. discriminate.
    - intros ->. destruct (find_unordered pts F_nan NE (fun p _ => nan_unordered (fst p))) as (m & Fd). exists m.
      unfold spline_at. cbn [sp_points sp_left sp_right]. rewrite Fd. destruct pts; [now destruct NE|reflexivity].
  Qed.
End Nan.

(** ** A surface whose forward curve ends before its smile *)

Definition doubles_json (right : string) (ps : list (json F64 * json F64)) : json F64 :=
  JObj [("left", JStr "Flat"); ("right", JStr right); ("points", JArr (map (fun p => JArr [fst p; snd p]) ps))].
Definition double_time_json (d : string) : json F64 := JObj [("date", JStr d); ("day_fraction", JInt 0)].
Definition nan_forward : json F64 :=
  JObj [("spot_date", JStr "2018-12-25"); ("spots", JObj []); ("yield_curves", JObj []); ("borrow_curves", JObj []);
    ("dividends", JObj []); ("vol_surfaces", JObj [("BP.L", JObj [("VolByProbabilityCubicSplineSmile", JObj [
      ("smiles", JArr [JArr [double_time_json "2019-12-25"; JObj [("smile", doubles_json "Flat" [(JInt 1, JInt 1); (JInt 2, JInt 1)])]]]);
      ("calendar", JObj [("EveryDayCalendar", JArr [])]);
      ("base_date", double_time_json "2018-12-25"); ("forward", doubles_json "NotANumber" [(JStr "2018-12-25", JInt 1)]);
      ("fixed_divs_after", doubles_json "Flat" [(JStr "2018-12-25", JInt 0)]);
      ("div_assumptions", JStr "NoCashDivs")])])])].

Lemma nan_forward_panics (TR : Trans F64) : ~ panicking_text nan_forward /\
  fst (market_data_from_json F_nan nan_forward tls_initial) = Panic "NaN values encountered in interpolator".
Proof.
  split.
  - intros (t & m & I & E). cbn [texts nan_forward doubles_json double_time_json flat_map map app In fst snd] in I.
    repeat (destruct I as [<-|I]; [vm_compute in E; discriminate E|]). exact I.
  - vm_compute. reflexivity.
Qed.
