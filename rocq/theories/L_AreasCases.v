(** A pricer made from a forward-starting option whose strike is known. *)
From Coq Require Import ZArith List String Bool Reals Lra.
From Verif Require Import Prelude Num M_Dates M_Calendar M_Fixings M_Instruments M_Deps M_Risk M_Reports
  S_Instruments S_Risk S_Reports L_Num L_InstrumentCases L_RiskCases L_ReportCases.
Import ListNotations.
Open Scope list_scope.
Open Scope R_scope.

Definition started : instrument R := IForwardEuropean (option_on stock 15%Z Call CashSettled) (5 / 6) (mkDT 5%Z Open_) (mkDDF 5%Z 0).

Lemma started_new nan s : self_pricer_factory nan started one_fixing (flat_market s) = Ok (one_call nan s).
Proof.
  unfold self_pricer_factory, fixed_portfolio.
  assert (F : fix_instrument one_fixing started = Ok (Some [(1, call_100)])).
  { unfold started, call_100. cbn [fix_instrument]. unfold fix_forward_european.
    change (get_fixing one_fixing (instrument_id (van_underlying (option_on stock 15%Z Call CashSettled))) (mkDT 5%Z Open_)) with (@Ok (option R) (Some 120)).
    cbn [bind]. unfold fix_spot_european.
    change (get_fixing one_fixing (instrument_id (van_underlying (option_on stock 15%Z Call CashSettled))) _) with (@Ok (option R) None).
    cbn [bind]. rnum. replace (120 * (5 / 6)) with 100 by lra || replace (5 / 6 * 120) with 100 by lra. reflexivity. }
  rewrite F. cbn [bind]. exact (one_call_new nan s).
Qed.

Lemma started_plain : plain_underlyings one_fixing started.
Proof. constructor. reflexivity. Qed.

Lemma started_worth : exists x, worth (fun _ _ => 120) (fun _ => 120) started x.
Proof. eexists. apply worth_forward; [reflexivity|reflexivity|discriminate]. Qed.
