(** By how much a signature misses the signer's equation (for C96). *)
Require Import ZArith List.
From Verif Require Import Base SpecParams SpecField SpecCurve SpecRfc8032 SpecSignature ScalarModel SignatureBatch.
Import ListNotations.
Open Scope Z_scope.

(** With the logarithms a of the key and r of R: S - r - h a modulo l. *)
Definition misses_by (x : signed) (d : Z) : Prop :=
  let '(A, R, S0, h) := x in
  exists QA QR a r, rfc8032_decode A = Some QA /\ rfc8032_decode R = Some QR /\ log_is QA a /\ log_is QR r /\
    le_val S0 < ell /\ d = (le_val S0 - r - le_val h * a) mod ell.

Definition signed_ok (x : signed) : Prop := let '(A, R, S0, h) := x in bytes 57 A /\ bytes 57 R /\ bytes 57 S0 /\ bytes 114 h.

Fixpoint weighted (l : list (scalar * Z)) : Z :=
  match l with
  | [] => 0
  | (z, d) :: l' => sval z * d + weighted l'
  end.
