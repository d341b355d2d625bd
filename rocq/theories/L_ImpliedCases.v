(** A worked implied volatility of one call. *)
From Coq Require Import ZArith List String Bool Lia Reals Lra.
From Verif Require Import Prelude Num L_Num M_Dates M_Calendar M_Curves M_Forward M_Vol M_Black76 M_Instruments M_Deps M_Risk M_Reports
  S_Math S_Vol S_Instruments S_Deps S_Risk S_Reports S_Greeks S_Implied L_Fixings L_Vol L_VolTime L_VolCases L_Normal L_InstrumentCases
  L_DepsPricing L_RiskCases L_ReportCases L_SolverCases L_GreeksCases L_VegaCases L_Implied.
Import ListNotations.
Open Scope list_scope.
Open Scope R_scope.

Lemma one_call_held nan s : 0 < s ->
  option_held nan 1 (option_on stock 15%Z Call CashSettled) 100 "BP" (flat_market s) (one_call nan s) (15 / 365) (s * exp growth) (exp (- growth)).
Proof.
  intros P. constructor.
  - exists "BP-CR"%string, usd, NullRule. reflexivity.
  - apply one_call_new.
  - cbn. lia.
  - exists s. split; [reflexivity|]. exists rate, zero, (stream_new [] zero), (carried s rate 15%Z). repeat (split; [reflexivity|]). split.
    + apply carried_new, start_zero.
    + apply (carried_at nan s rate 15%Z 15%Z growth (Z.le_refl _) (rate_rt nan 15%Z)).
  - exists flat_vol. split; [reflexivity|]. split; [reflexivity|]. split; [cbn; lra|].
    cbn [flat_vol vs_calendar vs_base option_on van_expiry_time]. rewrite every_years by (cbn; lia). f_equal.
    cbn [ddf_date ddf_frac]. replace (IZR (15 - 0)) with 15 by reflexivity. field.
  - exists rate, growth, 0%Z, 0. split; [reflexivity|]. split; [exact (rate_rt nan 15%Z)|]. split; [reflexivity|]. split; [apply start_zero|].
    rewrite exp_0. ring.
  - lra.
  - apply Rmult_lt_0_compat; [exact P|apply exp_pos].
  - lra.
Qed.

(** Its own price gives back the volatility it was priced with. *)
Lemma one_call_own nan N s : normal_cdf N -> 0 < s -> exists value, self_price nan N (one_call nan s) = Ok value /\
  price_after (self_ops nan N) [BVol "BP" (ReplaceVol (/ 5))] (one_call nan s) = Ok value.
Proof.
  intros HN P. eexists. split; [exact (one_call_price nan N s (Rlt_le _ _ P))|].
  apply (held_own nan N 1 _ 100 "BP" (flat_market s) _ _ _ _ (one_call_held nan s P) flat_vol (/ 5)).
  - reflexivity.
  - exact (flat_vol_is nan 100).
  - lra.
  - reflexivity.
  - exact (one_call_price nan N s (Rlt_le _ _ P)).
Qed.
