(** A worked delta and gamma on doubles. *)
From Coq Require Import ZArith List String Reals Lra Lia.
From Coq.Floats Require Import SpecFloat.
From Flocq Require Import Core BinarySingleNaN.
From Verif Require Import Prelude Num L_Num M_Dates M_Calendar M_Curves M_Fixings M_Forward M_Vol M_Instruments M_Deps M_Risk M_Reports
  S_Double S_Instruments S_Risk S_Reports S_GreekDouble L_BlackDouble L_Displacement L_MeanDoubleCases.
Import ListNotations.
Open Scope list_scope.
Open Scope R_scope.

Definition even_chance : F64 -> F64 := fun _ => nlit 1 2.
Definition tenth : F64 := nlit 1 10.
Definition held_call : res (self_pricer F64) :=
  let TF : Trans F64 := first_order in self_pricer_new F_nan [(n1, ISpotEuropean (share_option Call) (nofZ 90))] still_market.
Definition call_pricer : self_pricer F64 :=
  Eval vm_compute in match held_call with Ok sp => sp | _ => mkSelfPricer [] (mkPrefetch still_market (collector_new 0%Z) [] []) end.

Lemma small_price (x : F64) : finite x -> Rabs (real x) <= 1024 -> ordinary_price x.
Proof. intros F B. split; [exact F|]. eapply Rle_trans; [exact B|]. change 1024 with (bpow radix2 10). apply bpow_le. lia. Qed.

Lemma greek_case : let TF : Trans F64 := first_order in
  self_price F_nan even_chance call_pricer = Ok (nofZ 5) /\ ordinary_bump tenth (nofZ 100) /\ ordinary_price (nofZ 5) /\
  exists sp' sv' delta gamma x y, generate F_nan (self_ops F_nan even_chance) (DeltaGammaGenerator tenth) call_pricer saved_prefetch_new (nofZ 5) =
      (Ok (DeltaGammaReport tenth [(instrument_id share, (delta, gamma))]), sp', sv') /\
    look (pf_data (sp_context call_pricer)) (SpotFor (instrument_id share)) = Some (ASpot (nofZ 100)) /\
    (let up := nmul (nofZ 100) (nadd n1 tenth) in price_with_spot (self_ops F_nan even_chance) (instrument_id share) up call_pricer = Ok x /\
     price_with_spot (self_ops F_nan even_chance) (instrument_id share) (nmul up (nadd n1 (nsub (ndiv (nsub n1 tenth) (nadd n1 tenth)) n1))) call_pricer = Ok y) /\
    ordinary_price x /\ ordinary_price y /\ real delta = / 2 + 3 * bpow radix2 (-53) /\ 0 < real gamma.
Proof.
  cbv zeta. split; [vm_compute; reflexivity|].
  assert (B : bpow radix2 (-100) <= / 1024 /\ 1024 <= bpow radix2 100) by (split; [replace (/ 1024) with (bpow radix2 (-10)) by reflexivity|change 1024 with (bpow radix2 10)]; apply bpow_le; lia).
  assert (T : real tenth = 7205759403792794 / 72057594037927936) by (vm_compute; lra). assert (H : real (nofZ 100) = 100) by (vm_compute; lra). assert (F5 : real (nofZ 5) = 5) by (vm_compute; lra).
  split; [|split].
  - split; [split; reflexivity|]. split; [rewrite T, Rabs_right; lra|]. split; [split; reflexivity|]. rewrite H, Rabs_right; lra.
  - apply small_price; [split; reflexivity|]. rewrite F5, Rabs_right; lra.
  - do 6 eexists. split; [vm_compute; reflexivity|]. split; [vm_compute; reflexivity|]. split; [split; vm_compute; reflexivity|]. split; [|split; [|split]].
    + apply small_price; [split; reflexivity|]. vm_compute. apply Rabs_le. lra.
    + apply small_price; [split; reflexivity|]. vm_compute. apply Rabs_le. lra.
    + vm_compute. lra.
    + vm_compute. lra.
Qed.

(** The volatility bumped, with probabilities that are straight lines. *)
Definition straight (x : F64) : F64 := nadd (nlit 1 2) (nmul x (nlit 1 4)).
Definition point : F64 := nlit 1 100.

Lemma vega_case : let TF : Trans F64 := first_order in exists u,
  self_price F_nan straight call_pricer = Ok u /\ ordinary_price u /\
  finite (vol_bumpsize F_nan (FlatAdditive point)) /\ bpow radix2 (-200) <= Rabs (real (vol_bumpsize F_nan (FlatAdditive point))) <= bpow radix2 100 /\
  exists sp' sv' vega volga x y, generate F_nan (self_ops F_nan straight) (VegaVolgaGenerator (FlatAdditive point)) call_pricer saved_prefetch_new u =
      (Ok (VegaVolgaReport point [(instrument_id share, (vega, volga))]), sp', sv') /\
    price_after (self_ops F_nan straight) [BVol (instrument_id share) (FlatAdditive point)] call_pricer = Ok x /\
    price_after (self_ops F_nan straight) [BVol (instrument_id share) (FlatAdditive point); BVol (instrument_id share) (vol_opposite F_nan (FlatAdditive point))] call_pricer = Ok y /\
    ordinary_price x /\ ordinary_price y /\ 10 < real vega.
Proof.
  cbv zeta. eexists. split; [vm_compute; reflexivity|].
  assert (B : bpow radix2 (-200) <= / 1024 /\ 1024 <= bpow radix2 100) by (split; [replace (/ 1024) with (bpow radix2 (-10)) by reflexivity|change 1024 with (bpow radix2 10)]; apply bpow_le; lia).
  split; [apply small_price; [split; reflexivity|]; vm_compute; apply Rabs_le; lra|]. split; [split; reflexivity|].
  assert (T : real (vol_bumpsize F_nan (FlatAdditive point)) = 5764607523034235 / 576460752303423488) by (vm_compute; lra).
  split; [rewrite T, Rabs_right; lra|].
  do 6 eexists. split; [vm_compute; reflexivity|]. split; [vm_compute; reflexivity|]. split; [vm_compute; reflexivity|]. split; [|split].
  - apply small_price; [split; reflexivity|]. vm_compute. apply Rabs_le. lra.
  - apply small_price; [split; reflexivity|]. vm_compute. apply Rabs_le. lra.
  - vm_compute. lra.
Qed.

(** A day later. *)
Definition tomorrow : bump_time := mkBumpTime (mkBumpSpotDate 1%Z StickySpot) 1%Z.

Lemma theta_case : let TF : Trans F64 := first_order in exists u x theta sp' sv', self_price F_nan straight call_pricer = Ok u /\ ordinary_price u /\
  generate F_nan (self_ops F_nan straight) (TimeBumpedGenerator tomorrow []) call_pricer saved_prefetch_new u = (Ok (TimeBumpedReport x theta []), sp', sv') /\
  ordinary_price x /\ real theta < - / 200.
Proof.
  cbv zeta. do 5 eexists. split; [vm_compute; reflexivity|]. split; [apply small_price; [split; reflexivity|]; vm_compute; apply Rabs_le; lra|].
  split; [vm_compute; reflexivity|]. split; [apply small_price; [split; reflexivity|]; vm_compute; apply Rabs_le; lra|]. vm_compute. lra.
Qed.
