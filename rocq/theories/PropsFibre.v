(** Property C91: what a Montgomery multiplication loses.

    Reading guide.  [mp_mul B u s]: the crate's [&MontgomeryPoint * &Scalar] over backend B; [zeros]: the encoding of 0; [clamp448]: the scalar decoding of
    RFC 7748; [exactly n D]: n strings satisfy D (SpecCount.v); [u_double u]: the coordinate of 2P if u is that of P, [u_pair u w]: u = w or u w = 1
    (SpecFibre.v); [ell], [ell_twist]: a quarter of the numbers of points of Curve448 and of its twist.  The ladder multiplies by m, the next even number. *)
Require Import ZArith List Bool.
From Verif Require Import Base SpecParams SpecField SpecMontgomery SpecTwist SpecCount SpecFibre FieldBackend Backends ScalarModel MontgomeryModel FibreMain.
Import ListNotations.
Open Scope Z_scope.

(** Which coordinates have the same multiple. *)
Theorem C91_equal : forall B, shipped B -> forall s u u', is_scalar s -> bytes 56 u -> bytes 56 u' -> mp_mul B u s <> Ok zeros ->
  (mp_mul B u' s = mp_mul B u s <->
   if (sval s + sval s mod 2) mod 4 =? 0 then u_pair (u_double (of_Z (le_val u))) (u_double (of_Z (le_val u'))) else u_pair (of_Z (le_val u)) (of_Z (le_val u'))).
Proof. exact mul_equal. Qed.
Print Assumptions C91_equal.

(** Every nonzero result comes from exactly two or four coordinates. *)
Theorem C91_fibre : forall B, shipped B -> forall s u, is_scalar s -> bytes 56 u -> mp_mul B u s <> Ok zeros ->
  exactly (if (sval s + sval s mod 2) mod 4 =? 0 then 4 else 2) (fun u' => bytes 56 u' /\ le_val u' < p /\ mp_mul B u' s = mp_mul B u s).
Proof. exact mul_fibre. Qed.
Print Assumptions C91_fibre.

(** Zero comes from all others. *)
Theorem C91_zero : forall B, shipped B -> forall s, is_scalar s -> let m := sval s + sval s mod 2 in
  exactly (p - ((if m mod ell =? 0 then 0 else 2 * ell - 2) + (if m mod ell_twist =? 0 then 0 else 2 * ell_twist - 2)))
    (fun u => bytes 56 u /\ le_val u < p /\ mp_mul B u s = Ok zeros).
Proof. exact mul_zero_count. Qed.
Print Assumptions C91_zero.

(** The number of results. *)
Theorem C91_image : forall B, shipped B -> forall s, is_scalar s -> let m := sval s + sval s mod 2 in
  exactly (((if m mod ell =? 0 then 0 else 2 * ell - 2) + (if m mod ell_twist =? 0 then 0 else 2 * ell_twist - 2)) / (if m mod 4 =? 0 then 4 else 2) + 1)
    (fun r => exists u, bytes 56 u /\ mp_mul B u s = Ok r).
Proof. exact mul_image. Qed.
Print Assumptions C91_image.

(** A reduced scalar other than 0. *)
Theorem C91_reduced : forall B, shipped B -> forall s, is_scalar s -> 0 < sval s < ell ->
  exactly (if (sval s + sval s mod 2) mod 4 =? 0 then (p + 1) / 4 else (p - 1) / 2) (fun r => exists u, bytes 56 u /\ mp_mul B u s = Ok r).
Proof. exact reduced_image. Qed.
Print Assumptions C91_reduced.

(** X448: every secret has the same number of shared secrets, but for the one that clamps to 4 times the order. *)
Theorem C91_x448 : forall B, shipped B -> forall k, bytes 56 k ->
  exactly (if le_val (clamp448 k) =? 4 * ell then (ell_twist + 1) / 2 else (p + 1) / 4)
    (fun r => exists u, bytes 56 u /\ mp_mul B u (scalar_from_bytes (clamp448 k)) = Ok r).
Proof. exact x448_image. Qed.
Print Assumptions C91_x448.

(** 5 and its inverse modulo p have the same double, which is not zero. *)
Example C91_case : 5 * one_fifth mod p = 1 /\ is_scalar (digits 32 14 2) /\ sval (digits 32 14 2) = 2 /\ forall B, shipped B ->
  mp_mul B (le_bytes 56 5) (digits 32 14 2) <> Ok zeros /\ mp_mul B (le_bytes 56 one_fifth) (digits 32 14 2) = mp_mul B (le_bytes 56 5) (digits 32 14 2).
Proof. exact fifth_case. Qed.
