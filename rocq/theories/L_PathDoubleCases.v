(** A worked set of paths on doubles. *)
From Coq Require Import ZArith List String Reals Lra Lia Psatz.
From Coq.Floats Require Import SpecFloat.
From Flocq Require Import Core BinarySingleNaN.
From Verif Require Import Prelude Num L_Num M_Dates M_Calendar M_Curves M_Fixings M_Forward M_Vol M_Instruments M_Deps M_Risk M_Reports M_MonteCarlo
  S_Double S_Instruments S_MonteCarlo S_SumDouble S_PathDouble L_Double L_DoubleError L_BlackDouble L_Displacement L_MeanDoubleCases.
Import ListNotations.
Open Scope list_scope.
Open Scope R_scope.

Definition year_quote : F64 * F64 * F64 := (nofZ 100, nlit 1 16, n0).

Lemma year_mark : exact_mark year_quote = mkMark 100 (/ 16) 0.
Proof. unfold exact_mark, year_quote. cbn [fst snd]. f_equal; vm_compute; lra. Qed.

Lemma path_case : let TF : Trans F64 := first_order in let c := prefetch_context F_nan (bd_context (mp_model still_pricer)) in
  bd_substepping (mp_model still_pricer) = [1%nat] /\
  (exists curve surface, ctx_forward_curve c share (ddf_date (van_expiry_time (share_option Call))) = Ok curve /\
     ctx_vol_surface c share (ddf_date (van_expiry_time (share_option Call))) (Ok curve) = Ok surface /\
     quoted F_nan curve surface [van_expiry_time (share_option Call)] [year_quote]) /\
  ordinary_quotes [year_quote] /\
  forall j, (j < 2)%nat -> Forall finite (map (two_draws j) (seq 0 1)) /\
    sway (map real (map (two_draws j) (seq 0 1))) (deviations [exact_mark year_quote] [1%nat]) 1 <= bpow radix2 390.
Proof.
  cbv zeta. split; [vm_compute; reflexivity|]. split.
  - eexists _, _. split; [vm_compute; reflexivity|]. split; [vm_compute; reflexivity|]. constructor; [|constructor]. split; [vm_compute; reflexivity|]. split; vm_compute; reflexivity.
  - split.
    + assert (B : bpow radix2 10 <= bpow radix2 400) by (apply bpow_le; lia). change (bpow radix2 10) with 1024 in B.
      assert (B9 : bpow radix2 (-900) <= bpow radix2 (-4)) by (apply bpow_le; lia). change (bpow radix2 (-4)) with (/ 16) in B9.
      split.
      * constructor; [|constructor]. cbn [year_quote fst snd].
        assert (A : real (nofZ 100) = 100) by (vm_compute; lra). assert (C : real (nlit 1 16) = / 16) by (vm_compute; lra). assert (D : real n0 = 0) by (vm_compute; lra).
        split; [|split]; (split; [split; reflexivity|]); [rewrite A, Rabs_right by lra|rewrite C, Rabs_right by lra|rewrite D, Rabs_R0]; lra.
      * cbn [map gained]. rewrite year_mark. cbn [mk_variance]. constructor; [|constructor]. right. lra.
    + assert (B : bpow radix2 10 <= bpow radix2 390) by (apply bpow_le; lia). change (bpow radix2 10) with 1024 in B.
      intros j J. rewrite year_mark. unfold sway, grown, deviations, product. cbn [map seq gained combine fst snd mk_variance repeat List.concat app firstn fold_right].
      replace ((/ 16 - 0) / INR 1) with (/ 4 * / 4) by (cbn; field). rewrite sqrt_square by lra.
      split.
      * destruct j as [|j]; repeat constructor.
      * assert (R01 : real (two_draws j 0) = 0 \/ real (two_draws j 0) = 1) by (destruct j; [left|right]; vm_compute; lra).
        destruct R01 as [-> | ->]; [rewrite Rabs_R0|rewrite Rabs_R1]; lra.
Qed.
