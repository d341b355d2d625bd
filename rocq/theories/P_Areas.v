(** Save areas that are cleared and used again (C40, C42), and pricers made from an instrument and a table of fixings (C34). *)
From Coq Require Import ZArith List String Bool Reals.
From Verif Require Import Prelude Num M_Dates M_Calendar M_Curves M_Forward M_Vol M_Fixings M_Instruments M_Deps M_Risk M_Reports M_MonteCarlo
  S_Instruments S_Deps S_Risk S_Reports S_MonteCarlo L_InstrumentCases L_RiskCases L_ReportCases L_Areas L_AreasCases.
Import ListNotations.
Open Scope list_scope.
Open Scope R_scope.

(** ** C40, C42: clearing *)

(** Whatever a save area was used for, once cleared it restores nothing, and can be used again. *)
Theorem C40_cleared : forall T (N : Num T) earlier (md0 md : market_data T) s, bumped_data earlier md0 (SaveData saved_data_new) = (md, s) ->
  md_restore (clear s) md = (Ok tt, md) /\
  forall ops md' s', saved_first [] ops -> bumped_data ops md (clear s) = (md', s') -> md_restore s' md' = (Ok tt, md).
Proof. exact (fun T N => data_reused). Qed.
Print Assumptions C40_cleared.

Theorem C42_cleared : forall T (N : Num T) (TR : Trans T) nan earlier (p0 p : prefetch T) s, bumps_with nan earlier p0 saved_prefetch_new p s ->
  prefetch_restore (clear s) p = (Ok tt, p) /\
  forall ops p' s', disciplined (pf_deps p) [] ops -> bumps_with nan ops p (clear s) p' s' -> prefetch_restore s' p' = (Ok tt, p).
Proof. exact (fun T N TR => prefetch_reused). Qed.
Print Assumptions C42_cleared.

Theorem C42_monte_carlo_cleared : forall T (N : Num T) (TR : Trans T) (nan : T) cdf visit redraws earlier mp0 mp s, let ops := mc_ops nan cdf visit redraws in
  pricer_bumps ops earlier mp0 (op_new_saveable ops mp0) mp s ->
  op_restore ops (clear s) mp = (Ok tt, mp) /\
  forall h mp' s', careful (pf_deps (bd_context (mp_model mp))) [] h -> pricer_bumps ops h mp (clear s) mp' s' -> op_restore ops s' mp' = (Ok tt, mp).
Proof. exact (fun T N TR => mc_reused). Qed.
Print Assumptions C42_monte_carlo_cleared.

(** A spot bump that is saved, and not restored, is there for good once the area is cleared. *)
Example C40_cleared_case : forall s x, exists md sv,
  bumped_data [(BSpot "BP" (RelativeSpot x), true)] (flat_market s) (SaveData saved_data_new) = (md, sv) /\
  look md (SpotFor "BP") = Some (ASpot (s * (1 + x))) /\ sv <> SaveData saved_data_new /\ saved_first [] [(BSpot "BP" (ReplaceSpot x), true)].
Proof.
  intros s x. do 2 eexists. split; [reflexivity|]. split; [reflexivity|]. split; [discriminate|].
  apply (sf_first [] (BSpot "BP" (ReplaceSpot x)) (SpotFor "BP")); [reflexivity|exact (fun H => H)|constructor].
Qed.

(** ** C34: pricers *)

(** A pricer is made from what the instrument becomes when the fixings are applied: this is worth the same, and no fixing
    remains to be applied. *)
Theorem C34_pricer : forall nan i t md sp, self_pricer_factory nan i t md = Ok sp -> self_pricer_new nan (sp_instruments sp) md = Ok sp /\
  (forall fx now x, truthful fx t -> worth fx now i x -> adds_up (worth fx now) (sp_instruments sp) x) /\
  (plain_underlyings t i -> fix_all (sp_instruments sp) t = Ok None).
Proof. exact factory_worth. Qed.
Print Assumptions C34_pricer.

Theorem C34_monte_carlo : forall nan visit draws f i t md mp, mc_pricer_factory nan visit draws f i t md = Ok mp ->
  mc_pricer_new nan visit draws (mp_instruments mp) f md = Ok mp /\
  (forall fx now x, truthful fx t -> worth fx now i x -> adds_up (worth fx now) (mp_instruments mp) x) /\
  (plain_underlyings t i -> fix_all (mp_instruments mp) t = Ok None).
Proof. exact mc_factory_worth. Qed.
Print Assumptions C34_monte_carlo.

(** A forward-starting option becomes a call struck at 100. *)
Example C34_pricer_case : forall nan s, self_pricer_factory nan started one_fixing (flat_market s) = Ok (one_call nan s) /\
  truthful (fun _ _ => 120) one_fixing /\ (exists x, worth (fun _ _ => 120) (fun _ => 120) started x) /\ plain_underlyings one_fixing started.
Proof. intros nan s. exact (conj (started_new nan s) (conj one_fixing_truthful (conj started_worth started_plain))). Qed.
