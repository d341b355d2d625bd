(** Model of src/math/optionpricing.rs. *)
From Coq Require Import ZArith.
From Verif Require Import Num.

Section Black76.
  Context {T : Type} `{Num T} `{Trans T}.
  Local Open Scope num_scope.
  (** optionpricing.rs:45-47 [cdf]: statrs' Normal::cdf, not modelled. *)
  Variable cdf : T -> T.

  (** optionpricing.rs:50-54 [d_plus_minus]. *)
  Definition d_plus_minus (log_moneyness sqrt_variance : T) : T * T :=
    let d_plus := log_moneyness / sqrt_variance + nlit 1 2 * sqrt_variance in
    let d_minus := d_plus - sqrt_variance in
    (d_plus, d_minus).

  (** optionpricing.rs:23-31 [call_price]. *)
  Definition call_price (df forward strike sqrt_variance : T) : T :=
    let log_moneyness := nln (forward / strike) in
    let '(d_plus, d_minus) := d_plus_minus log_moneyness sqrt_variance in
    df * (cdf d_plus * forward - cdf d_minus * strike).

  (** optionpricing.rs:34-42 [put_price]. *)
  Definition put_price (df forward strike sqrt_variance : T) : T :=
    let log_moneyness := nln (forward / strike) in
    let '(d_plus, d_minus) := d_plus_minus log_moneyness sqrt_variance in
    df * (cdf (- d_minus) * strike - cdf (- d_plus) * forward).
End Black76.
