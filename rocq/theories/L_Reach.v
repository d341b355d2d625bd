(** How far a bootstrap of dividends reaches, in any arithmetic. *)
From Coq Require Import ZArith List String Bool Lia.
From Verif Require Import Prelude Num M_Dates M_Calendar M_Curves M_Forward S_Data.
Import ListNotations.
Open Scope list_scope.

Section Any.
  Context {T : Type} {N : Num T}.
  Notation counts d := ((cash d =? n0)%num = false).

  Lemma last_cash_any (divs : list (dividend T)) : forall last,
    let x := fold_left (fun last d => if negb (cash d =? n0)%num then ex_date d else last) divs last in
    (x = last /\ (forall d, In d divs -> ~ counts d)) \/ exists d, In d divs /\ counts d /\ x = ex_date d /\
      exists p r, divs = p ++ d :: r /\ forall e, In e r -> ~ counts e.
  Proof.
    induction divs as [|d divs IH]; intros last; cbn [fold_left]; [left; easy|].
    destruct (IH (if negb (cash d =? n0)%num then ex_date d else last)) as [(E & Z)|(e & I & C & E & p & r & S & Z)].
    - destruct ((cash d =? n0)%num) eqn:C; cbn [negb] in *.
      + left. split; [exact E|]. intros e [<-|J]; [congruence|auto].
      + right. exists d. split; [now left|]. split; [exact C|]. split; [exact E|]. exists [], divs. auto.
    - right. exists e. split; [now right|]. split; [exact C|]. split; [exact E|]. exists (d :: p), r. rewrite S. auto.
  Qed.

  Lemma ordered_after (p : list (dividend T)) : forall d r, ex_ordered (p ++ d :: r) -> forall e, In e p -> (ex_date e <= ex_date d)%Z.
  Proof.
    induction p as [|c p IH]; intros d r O e [].
    - subst c. apply (proj1 O). apply in_or_app. right. now left.
    - apply (IH d r); [apply O|assumption].
  Qed.

  Lemma cash_within_any (divs : list (dividend T)) y hwm d : ex_ordered divs -> In d divs -> counts d -> (ex_date d <= reach (stream_new divs y) hwm)%Z.
  Proof.
    intros O I C. assert (L : (ex_date d <= last_cash_ex_date (stream_new divs y))%Z).
    { cbn [stream_new last_cash_ex_date]. destruct (last_cash_any divs from_nil) as [(_ & Z)|(e & _ & _ & -> & p & r & S & Z)].
      - now elim (Z d I).
      - rewrite S in I, O. apply in_app_or in I as [I|[<-|I]]; [exact (ordered_after p e r O d I)|lia|]. now elim (Z d I). }
    unfold reach. cbn [stream_new dividends] in *. destruct divs; [destruct I|]. lia.
  Qed.

  Lemma reach_any (divs : list (dividend T)) y hwm : divs <> [] ->
    reach (stream_new divs y) hwm = hwm \/ reach (stream_new divs y) hwm = from_nil \/
    exists d, In d divs /\ counts d /\ reach (stream_new divs y) hwm = ex_date d.
  Proof.
    intros NE. unfold reach. cbn [stream_new dividends last_cash_ex_date]. destruct divs as [|c divs]; [congruence|].
    destruct (last_cash_any (c :: divs) from_nil) as [(-> & _)|(e & I & C & -> & _)].
    - destruct (Z.max_spec hwm from_nil) as [(_ & ->)|(_ & ->)]; auto.
    - destruct (Z.max_spec hwm (ex_date e)) as [(_ & ->)|(_ & ->)]; eauto 6.
  Qed.
End Any.
