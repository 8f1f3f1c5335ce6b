(** Properties C64 to C66: agreement with RFC 7748 (X448) and with RFC 8032 (Ed448): the point encoding, and signatures.

    Reading guide. [rfc_x448 k u]: the function X448 of RFC 7748, transcribed with integers modulo p (SpecRfc7748.v).
    [clamp448 k]: the scalar decoding of that RFC on bytes. [mp_mul B u s]: the crate's [&MontgomeryPoint * &Scalar].
    [rfc8032_encode], [rfc8032_decode]: sections 5.2.2 and 5.2.3 of RFC 8032 (SpecRfc8032.v). [shipped B]: B is one of the field
    backends. [ed_valid B P], [ed_affine B P]: P is a valid point, and its affine coordinates (PointSpec.v).
    [sig_public], [sig_sign], [sig_verify]: key generation, signing and verification written over the crate's API, which has no
    signatures itself (Signature.v). [rfc8032_public], [rfc8032_sign], [rfc8032_verify]: sections 5.2.5 to 5.2.7; hashes are
    arguments, so the theorems hold for any hash function. *)
Require Import ZArith List.
From Verif Require Import Base SpecParams SpecField SpecCurve SpecMontgomery SpecRfc7748 SpecRfc8032 FieldBackend Backends ScalarModel
  TwistedModel EdwardsModel MontgomeryModel PointSpec Rfc7748Main Rfc8032Main RfcCases Signature SignatureMain SignatureCases.
Import ListNotations.
Open Scope Z_scope.

(** ** C64 *)
Theorem C64_x448 : forall B, shipped B -> forall k u, bytes 56 k -> bytes 56 u ->
  mp_mul B u (scalar_from_bytes (clamp448 k)) = Ok (rfc_x448 k u).
Proof. exact crate_x448. Qed.
Print Assumptions C64_x448.

(** Without clamping, the ladder of the RFC and that of the crate agree on every even scalar. *)
Theorem C64_even_scalars : forall B, shipped B -> forall u s, bytes 56 u -> is_scalar s -> Z.even (sval s) = true ->
  mp_mul B u s = Ok (le_bytes 56 (x448_ladder (sval s) (le_val u mod p))).
Proof. exact even_ladder. Qed.
Print Assumptions C64_even_scalars.

Theorem C64_key_exchange : forall a b u, bytes 56 a -> bytes 56 b -> bytes 56 u ->
  rfc_x448 a (rfc_x448 b u) = rfc_x448 b (rfc_x448 a u).
Proof. exact x448_exchange. Qed.
Print Assumptions C64_key_exchange.

(** The keys of the first test vector of the RFC. *)
Example C64_case : bytes 56 vector_k /\ bytes 56 vector_u /\ hd 0 (clamp448 vector_k) = 0x3c /\ last (clamp448 vector_k) 0 = 0xd3 /\
  forall B, shipped B -> mp_mul B vector_u (scalar_from_bytes (clamp448 vector_k)) = Ok (rfc_x448 vector_k vector_u).
Proof. exact x448_case. Qed.

(** ** C65 *)
Theorem C65_encode : forall B, shipped B -> forall P, ed_valid B P -> ed_compress B P = Ok (rfc8032_encode (ed_affine B P)).
Proof. exact crate_encode. Qed.
Print Assumptions C65_encode.

Theorem C65_decode : forall B, shipped B -> forall b Q, bytes 57 b ->
  (rfc8032_decode b = Some Q <-> exists P, ed_decompress B b = Ok (Some P) /\ ed_affine B P = Q /\ ed_compress B P = Ok b).
Proof. exact crate_decode. Qed.
Print Assumptions C65_decode.

Theorem C65_roundtrip : forall Q, on_curve ed_a ed_d Q -> rfc8032_decode (rfc8032_encode Q) = Some Q.
Proof. exact rfc_roundtrip. Qed.
Print Assumptions C65_roundtrip.

(** Without the check that the point re-encodes to the string, the crate accepts strings the RFC rejects: y = p + 1, a stray
    bit in the last byte, a sign bit with x = 0. *)
Theorem C65_decode_alone_refuted : forall B, shipped B ->
  forall b, In b [le_bytes 57 (p + 1); 1 :: repeat 0 55 ++ [1]; 1 :: repeat 0 55 ++ [0x80]] ->
  bytes 57 b /\ rfc8032_decode b = None /\ exists P, ed_decompress B b = Ok (Some P) /\ ed_valid B P.
Proof. exact decode_alone. Qed.
Print Assumptions C65_decode_alone_refuted.

Example C65_case :
  rfc8032_decode (le_bytes 57 0x693f46716eb6bc248876203756c9c7624bea73736ca3984087789c1e05a0c2d73ad3ff1ce67c39c4fdbd132c4ed7c8ad9808795bf230fa14) = Some G.
Proof. exact decode_generator. Qed.

(** ** C66 *)
Theorem C66_public : forall B, shipped B -> forall s, is_scalar s -> sig_public B s = Ok (rfc8032_public (sval s)).
Proof. exact public_ok. Qed.
Print Assumptions C66_public.

Theorem C66_sign : forall B, shipped B -> forall s hr hk, is_scalar s -> bytes 114 hr -> bytes 114 hk ->
  sig_sign B s hr hk = Ok (rfc8032_sign (sval s) (le_val hr) (le_val hk)).
Proof. exact sign_ok. Qed.
Print Assumptions C66_sign.

Theorem C66_verify : forall B, shipped B -> forall A R S h, bytes 57 A -> bytes 57 R -> bytes 57 S -> bytes 114 h ->
  sig_verify B A R S h = Ok (rfc8032_verify A R S h).
Proof. exact verify_ok. Qed.
Print Assumptions C66_verify.

Theorem C66_complete : forall B, shipped B -> forall s hr hk A R S, is_scalar s -> bytes 114 hr -> bytes 114 hk ->
  sig_public B s = Ok A -> sig_sign B s hr hk = Ok (R, S) -> sig_verify B A R S hk = Ok true.
Proof. exact api_complete. Qed.
Print Assumptions C66_complete.

Theorem C66_unique : forall B, shipped B -> forall A R S S' h, bytes 57 A -> bytes 57 R -> bytes 57 S -> bytes 57 S' -> bytes 114 h ->
  sig_verify B A R S h = Ok true -> sig_verify B A R S' h = Ok true -> S = S'.
Proof. exact api_unique. Qed.
Print Assumptions C66_unique.

(** The first test vector of the RFC; with l added to S the signature is rejected. *)
Example C66_case : forall B, shipped B -> exists A R,
  sig_public B vec_s = Ok A /\ sig_sign B vec_s vec_hr vec_hk = Ok (R, le_bytes 57 vec_S) /\
  sig_verify B A R (le_bytes 57 vec_S) vec_hk = Ok true /\ sig_verify B A R (le_bytes 57 (vec_S + ell)) vec_hk = Ok false.
Proof. exact vector_case. Qed.
