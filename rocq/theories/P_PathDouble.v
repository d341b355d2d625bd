(** C82: Monte-Carlo paths and prices on doubles, from the market and the draws. *)
From Coq Require Import ZArith List String Reals Permutation.
From Flocq Require Import Core.
From Verif Require Import Prelude Num M_Dates M_Calendar M_Forward M_Vol M_Instruments M_Risk M_Reports M_MonteCarlo
  S_Double S_Instruments S_MonteCarlo S_SumDouble S_PathDouble L_Displacement L_BlackDouble L_MeanDoubleCases L_PathDouble L_PathPrice L_PathDoubleCases.
Import ListNotations.
Open Scope list_scope.
Open Scope R_scope.

(** Every path walked on doubles is at every observation within a stated error of the path with the same draws in exact arithmetic: nine
    parts in 2^52 of what the draws could have made of the forward had they all been of one sign, for every step and two more, and the
    rounding of the displacement. *)
Theorem C82_paths : forall (TR : Trans F64) nan u c observations draws steps paths curve surface,
  fetch_path nan u c observations draws steps = Ok paths -> List.length steps = List.length observations ->
  ctx_forward_curve c u (last_date observations) = Ok curve -> ctx_vol_surface c u (last_date observations) (Ok curve) = Ok surface ->
  exists quotes, quoted nan curve surface observations quotes /\
    (ordinary_quotes quotes -> Forall (fun n => (1 <= n)%nat) steps -> (Z.of_nat (list_sum steps) <= 2 ^ 40)%Z ->
     Forall2 (rows_close quotes steps) draws paths).
Proof. exact @fetch_double. Qed.
Print Assumptions C82_paths.

(** The price of an option by Monte Carlo is, up to rounding, the holding times the value of one unit paid times the mean over the draws
    of what the option pays where the exact path ends.  The error is the mean error of the paths, three parts in 2^52 and one more for
    each path. *)
Theorem C82_price : forall (TR : Trans F64) nan cdf (visit : smap (instrument F64 * list (ddf F64)) -> smap (instrument F64 * list (ddf F64))),
  (forall l, Permutation (visit l) l) -> forall draws (w : F64) v k f md mp x value,
  mc_pricer_new nan visit draws [(w, ISpotEuropean v k)] f md = Ok mp -> mc_pricer_price nan cdf mp = Ok x ->
  let c := prefetch_context nan (bd_context (mp_model mp)) in let u := van_underlying v in let expiry := ddf_date (van_expiry_time v) in
  price nan cdf c (expiry_flow v) (mkDT (ctx_spot_date c) Open_) = Ok value ->
  exists n curve surface quote, bd_substepping (mp_model mp) = [n] /\ (1 <= n)%nat /\ ctx_forward_curve c u expiry = Ok curve /\
    ctx_vol_surface c u expiry (Ok curve) = Ok surface /\ quoted nan curve surface [van_expiry_time v] [quote] /\
    let row := fun j => map (draws j) (seq 0 n) in
    (ordinary_quotes [quote] -> of_size 800 k -> of_size 50 w -> of_size 50 value -> (Z.of_nat n <= 2 ^ 40)%Z -> (Z.of_nat (df_n_paths f) <= 2 ^ 50)%Z ->
     (forall j, (j < df_n_paths f)%nat -> Forall finite (row j) /\ sway (map real (row j)) (deviations [exact_mark quote] [n]) n <= bpow radix2 390) ->
     let paths := seq 0 (df_n_paths f) in
     let ends := fun j => nth 0 (path_of [exact_mark quote] [n] (map real (row j))) 0 in
     let m := mean (map (fun j => intrinsic_of (van_put_or_call v) (ends j) (real k)) paths) in
     let e := mean (map (fun j => path_error [quote] [n] (row j) 0) paths) in
     finite x /\
     Rabs (real x - real w * (m * real value)) <=
       Rabs (real w) * Rabs (real value) * (e + (INR (df_n_paths f) + 3) * bpow radix2 (-52) * (m + e)) +
       bpow radix2 (-1073) * (Rabs (real w) * Rabs (real value) + Rabs (real w) + 1)).
Proof. exact @path_price. Qed.
Print Assumptions C82_price.

(** The pricer of [C81_example]: one step, a forward of 100, a variance of a sixteenth, and draws of 0 and 1. *)
Example C82_example : let TF : Trans F64 := first_order in let c := prefetch_context F_nan (bd_context (mp_model still_pricer)) in
  bd_substepping (mp_model still_pricer) = [1%nat] /\
  (exists curve surface, ctx_forward_curve c share (ddf_date (van_expiry_time (share_option Call))) = Ok curve /\
     ctx_vol_surface c share (ddf_date (van_expiry_time (share_option Call))) (Ok curve) = Ok surface /\
     quoted F_nan curve surface [van_expiry_time (share_option Call)] [year_quote]) /\
  ordinary_quotes [year_quote] /\
  forall j, (j < 2)%nat -> Forall finite (map (two_draws j) (seq 0 1)) /\
    sway (map real (map (two_draws j) (seq 0 1))) (deviations [exact_mark year_quote] [1%nat]) 1 <= bpow radix2 390.
Proof. exact path_case. Qed.
