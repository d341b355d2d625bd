(** Proofs: pricer factories written and read back. *)
From Coq Require Import ZArith Lia List String Bool.
From Verif Require Import Prelude Num M_Dates M_MonteCarlo M_Schema M_Serde M_Objects M_Facade S_Serde S_Objects S_Facade
  L_Serde L_Objects L_Market L_RoundTrip.
Import ListNotations.
Open Scope string_scope.
Open Scope list_scope.

Section Factories.
  Context {T : Type} {N : Num T}.
  Variable finite : T -> bool.

  Ltac fields := repeat (apply fits_more; [|]); [..|apply fits_none].

  Lemma back_factory (f : pricer_factory T) : factory_of_val (val_of_factory f) = Ok f.
  Proof. destruct f as [|c [p n]]; [reflexivity|]. cbn. rewrite Nat2Z.id. reflexivity. Qed.

  Lemma fits_factory f : storable_factory finite f -> fits finite (val_of_factory f) (TTagged TrPricerFactory).
  Proof.
    intros H. destruct f as [|c [p n]]; cbn [val_of_factory]; (eapply fits_tagged; [reflexivity | reflexivity |]); (apply fits_struct; [distinct|]); fields.
    destruct H as (H1 & H2 & H3). cbn [df_path_substep df_n_paths] in *.
    eapply fits_tagged; [reflexivity | reflexivity |]. apply fits_struct; [distinct|]. fields.
    - split; [cbn [conforms]; lia|]. split; reflexivity.
    - apply fits_num, H2.
    - split; [cbn [conforms]; lia|]. split; reflexivity.
  Qed.
  Lemma factory_round_trip f s : storable_factory finite f ->
    exists j s', write finite (val_of_factory f) s = (Ok j, s) /\ pricer_factory_from_json j s = (Ok f, s') /\ same_state s s'.
  Proof.
    intros H. destruct (fits_factory f H) as (C & S & L).
    apply (plain_read finite _ _ factory_of_val f s C S).
    - destruct f; cbn; repeat split; discriminate.
    - rewrite L. apply back_factory.
  Qed.
End Factories.
