(** Worked sums and averages on doubles. *)
From Coq Require Import ZArith List String Reals Lra Lia Psatz Permutation.
From Coq.Floats Require Import SpecFloat.
From Flocq Require Import Core BinarySingleNaN.
From Verif Require Import Prelude Num L_Num M_Dates M_Calendar M_Curves M_Fixings M_Forward M_Vol M_Instruments M_Deps M_Risk M_Reports M_MonteCarlo
  S_Double S_Instruments S_MonteCarlo S_SumDouble L_Double L_DoubleError L_SumDouble L_MeanDouble L_BlackDouble L_Displacement.
Import ListNotations.
Open Scope list_scope.
Open Scope R_scope.

(** Two and a half shares and the cash owed for them. *)
Lemma addable_case : addable [(nlit 5 2, nofZ 100); (nopp n1, nofZ 250)].
Proof.
  split; [|split].
  - repeat constructor.
  - cbn. lia.
  - apply Rle_trans with (bpow radix2 10); [|apply bpow_le; lia]. unfold gross_sum. cbn [map fold_right fst snd].
    assert (A : real (nlit 5 2) = 5 / 2) by (vm_compute; lra). assert (B : real (nofZ 100) = 100) by (vm_compute; lra).
    assert (C : real (nopp n1) = -1) by (vm_compute; lra). assert (D : real (nofZ 250) = 250) by (vm_compute; lra).
    rewrite A, B, C, D, (Rabs_right (5 / 2 * 100)), (Rabs_left (-1 * 250)) by lra. change (bpow radix2 10) with 1024. lra.
Qed.

(** A market in which nothing grows, on doubles. *)
Definition still_market : market_data F64 :=
  mkMarket 0%Z [(instrument_id share, nofZ 100)] [("BP-CR"%string, ZeroRateCurve 0%Z); ("OPT-CR"%string, ZeroRateCurve 0%Z)] [(instrument_id share, ZeroRateCurve 0%Z)]
    [(instrument_id share, stream_new [] (ZeroRateCurve 0%Z))] [(instrument_id share, FlatVolSurface (nlit 1 4) EveryDay (mkDDF 0%Z n0))].
Definition two_draws (k j : nat) : F64 := match k with O => n0 | _ => n1 end.

Definition made : res (mc_pricer F64) :=
  let TF : Trans F64 := first_order in mc_pricer_new F_nan (fun l => l) two_draws [(n1, ISpotEuropean (share_option Call) (nofZ 90))] (mkFactory n1 2) still_market.
Definition still_pricer : mc_pricer F64 :=
  Eval vm_compute in match made with Ok mp => mp | _ => mkMcPricer (mkFactory n0 0) [] (mkDiffusion [] [] (mkPrefetch still_market (collector_new 0%Z) [] []) [] [] 0 [] []) end.

Lemma average_case (cdf : F64 -> F64) : let TF : Trans F64 := first_order in
  mc_pricer_new F_nan (fun l => l) two_draws [(n1, ISpotEuropean (share_option Call) (nofZ 90))] (mkFactory n1 2) still_market = Ok still_pricer /\
  mc_pricer_price F_nan cdf still_pricer = Ok (nlit 45 2) /\
  let c := prefetch_context F_nan (bd_context (mp_model still_pricer)) in
  mc_paths (mp_model still_pricer) share = Ok (map (fun s => [s]) [nofZ 100; nofZ 125]) /\
  price F_nan cdf c (expiry_flow (share_option Call)) (mkDT (ctx_spot_date c) Open_) = Ok n1 /\
  Forall (fun s => finite s /\ Rabs (real s) <= bpow radix2 800) [nofZ 100; nofZ 125].
Proof.
  cbv zeta. split; [vm_compute; reflexivity|]. split; [vm_compute; reflexivity|]. split; [vm_compute; reflexivity|]. split; [vm_compute; reflexivity|].
  assert (B : bpow radix2 10 <= bpow radix2 800) by (apply bpow_le; lia). change (bpow radix2 10) with 1024 in B.
  assert (A : real (nofZ 100) = 100) by (vm_compute; lra). assert (C : real (nofZ 125) = 125) by (vm_compute; lra).
  constructor; [|constructor; [|constructor]]; (split; [split; reflexivity|]); [rewrite A|rewrite C]; rewrite Rabs_right; lra.
Qed.

(** Coins: two of one and a great many. *)
Definition coin : instrument F64 := ICurrency (mkCurrency "USD" NullRule).
Definition great : F64 := nofZ 9007199254740992.
Definition no_market : prefetch F64 := mkPrefetch (mkMarket 0%Z [] [] [] [] []) (collector_new 0%Z) [] [].

Lemma coins_case (TR : Trans F64) nan cdf : let great_first := [(great, coin); (n1, coin); (n1, coin)] in let great_last := [(n1, coin); (n1, coin); (great, coin)] in
  Permutation great_first great_last /\
  exists x y, self_price nan cdf (mkSelfPricer great_first no_market) = Ok x /\ self_price nan cdf (mkSelfPricer great_last no_market) = Ok y /\ real x = 9007199254740992 /\ real y = 9007199254740994.
Proof.
  cbv zeta. split.
  - apply (Permutation_cons_app [(n1, coin); (n1, coin)] [] (great, coin)). apply Permutation_refl.
  - do 2 eexists. split; [vm_compute; reflexivity|]. split; [vm_compute; reflexivity|]. split; vm_compute; lra.
Qed.
