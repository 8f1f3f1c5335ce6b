(** Properties C42-C51: the Decaf group, its encoding, and the unimplemented functions.

    Reading guide. [tw_valid B P]: P is a pair of extended coordinates of a point of the twisted curve with 1 + x^2 a square
    (PointSpec.v); every value of type [DecafPoint] that the API can produce is such a P (C49). [same_class]: equal up to
    adding (0, -1); [decaf_encode], [decaf_point]: the encoding of a class and its inverse; [decaf_ok b]: the conditions of
    C45; [rfc_generator]: the generator's encoding in RFC 9496 (SpecDecaf.v). [dcexp]: a program over the public Decaf API
    (DecafExpr.v). [canonical s]: a scalar below l. *)
Require Import ZArith Znumtheory List Bool.
From Verif Require Import Base SpecParams SpecField SpecCurve SpecEncoding SpecDecaf FieldBackend Backends ScalarModel ScalarMain
  TwistedModel ScalarMulModel MontgomeryModel DecafModel PointSpec DecafExpr DecafMain DecafFacts.
Import ListNotations.
Open Scope F_scope.
Open Scope res_scope.

(** ** C42 *)
Theorem C42_roundtrip : forall B, shipped B -> forall P, tw_valid B P ->
  exists b Q, dc_compress B P = Ok b /\ bytes 56 b /\ dc_decompress B b = Ok (Some Q) /\ tw_valid B Q /\ dc_equals B Q P = Ok true.
Proof. exact roundtrip. Qed.
Print Assumptions C42_roundtrip.

(** Valid points for the hypotheses here and below: the generator, the identity, and the other point of its class. *)
Example C42_case : forall B, shipped B -> exists T, tw_torque B (dc_identity B) = Ok T /\
  tw_valid B (dc_generator B) /\ tw_valid B (dc_identity B) /\ tw_valid B T /\
  tw_affine B (dc_generator B) = D /\ tw_affine B (dc_identity B) = pzero /\ tw_affine B T = (0, - (1)) /\
  dc_equals B T (dc_identity B) = Ok true /\ tw_ct_eq B T (dc_identity B) = Ok false /\
  dc_equals B (dc_generator B) (dc_identity B) = Ok false.
Proof. exact three_decaf. Qed.

(** ** C43 *)
Theorem C43_encoding_of_class : forall B, shipped B -> forall P Q, tw_valid B P -> tw_valid B Q ->
  exists b c e, dc_compress B P = Ok b /\ dc_compress B Q = Ok c /\ dc_equals B P Q = Ok e /\ (e = true <-> b = c).
Proof. exact compress_function. Qed.
Print Assumptions C43_encoding_of_class.

Theorem C43_equals_is_class : forall B, shipped B -> forall P Q, tw_valid B P -> tw_valid B Q ->
  exists e, dc_equals B P Q = Ok e /\ (e = true <-> same_class (tw_affine B P) (tw_affine B Q)).
Proof. exact equals_class. Qed.
Print Assumptions C43_equals_is_class.

Theorem C43_compress_exact : forall B, shipped B -> forall P, tw_valid B P -> dc_compress B P = Ok (decaf_encode (tw_affine B P)).
Proof. exact compress_exact. Qed.
Print Assumptions C43_compress_exact.

(** The generator has the encoding of RFC 9496; both points of the identity's class give 56 zeros. *)
Example C43_case : forall B, shipped B -> dc_compress B (dc_generator B) = Ok rfc_generator.
Proof. exact gen_compress. Qed.
Example C43_torque_case : forall B, shipped B -> (T <- tw_torque B (dc_identity B) ;; dc_compress B T) = Ok (repeat 0%Z 56).
Proof. exact torque_compress. Qed.

(** ** C44 *)
Theorem C44_canonical : forall B, shipped B -> forall b P, bytes 56 b -> dc_decompress B b = Ok (Some P) ->
  tw_valid B P /\ dc_compress B P = Ok b.
Proof. exact decompress_canonical. Qed.
Print Assumptions C44_canonical.

Theorem C44_one_encoding : forall B, shipped B -> forall b c P Q, bytes 56 b -> bytes 56 c ->
  dc_decompress B b = Ok (Some P) -> dc_decompress B c = Ok (Some Q) -> (dc_equals B P Q = Ok true <-> b = c).
Proof. exact decompress_injective. Qed.
Print Assumptions C44_one_encoding.

Example C44_case : forall B, shipped B -> exists P, dc_decompress B rfc_generator = Ok (Some P) /\ dc_compress B P = Ok rfc_generator.
Proof. exact decode_valid. Qed.

(** ** C45 *)
Theorem C45_acceptance : forall B, shipped B -> forall b, bytes 56 b -> let s := of_Z (le_val b) in
  let acceptable := (le_val b < p)%Z /\ Z.odd (le_val b) = false /\ s * s <> 1 /\
    is_square ((1 - s * s) * (1 - s * s) + of_Z 156328 * (s * s)) /\ (1 - s * s) * (1 - s * s) + of_Z 156328 * (s * s) <> 0 in
  ((exists P, dc_decompress B b = Ok (Some P)) <-> acceptable) /\
  (dc_decompress B b = Ok None <-> ~ acceptable) /\
  ((exists P, tw_valid B P /\ dc_compress B P = Ok b) <-> acceptable).
Proof. exact acceptance. Qed.
Print Assumptions C45_acceptance.

Theorem C45_decoded_point : forall B, shipped B -> forall b P, bytes 56 b -> dc_decompress B b = Ok (Some P) ->
  tw_valid B P /\ same_class (tw_affine B P) (decaf_point (of_Z (le_val b))).
Proof. exact decoded_point. Qed.
Print Assumptions C45_decoded_point.

(** Rejected: a second encoding of 0; s = -1; an odd s; an s with a non-square (1 - s^2)^2 + 156328 s^2. *)
Example C45_case : forall B, shipped B ->
  (exists P, dc_decompress B rfc_generator = Ok (Some P) /\ dc_equals B P (dc_generator B) = Ok true) /\
  dc_decompress B (le_bytes 56 p) = Ok None /\ dc_decompress B (le_bytes 56 (p - 1)) = Ok None /\
  dc_decompress B (le_bytes 56 1) = Ok None /\ dc_decompress B (le_bytes 56 4) = Ok None.
Proof. exact decode_cases. Qed.

(** ** C46 (cases: C42_case) *)
Theorem C46_abelian_group : forall B, shipped B -> forall P Q R, tw_valid B P -> tw_valid B Q -> tw_valid B R ->
  (t <- dc_add B P Q ;; l <- dc_add B t R ;; u <- dc_add B Q R ;; r <- dc_add B P u ;; dc_equals B l r) = Ok true /\
  (l <- dc_add B P Q ;; r <- dc_add B Q P ;; dc_equals B l r) = Ok true /\
  (l <- dc_add B P (dc_identity B) ;; dc_equals B l P) = Ok true /\
  (n <- dc_neg B P ;; l <- dc_add B P n ;; dc_equals B l (dc_identity B)) = Ok true /\
  (l <- dc_sub B P Q ;; n <- dc_neg B Q ;; r <- dc_add B P n ;; dc_equals B l r) = Ok true.
Proof. exact dc_abelian. Qed.
Print Assumptions C46_abelian_group.

Theorem C46_equivalence : forall B, shipped B ->
  (forall P, tw_valid B P -> dc_equals B P P = Ok true) /\
  (forall P Q, tw_valid B P -> tw_valid B Q -> dc_equals B P Q = Ok true -> dc_equals B Q P = Ok true) /\
  (forall P Q R, tw_valid B P -> tw_valid B Q -> tw_valid B R ->
     dc_equals B P Q = Ok true -> dc_equals B Q R = Ok true -> dc_equals B P R = Ok true).
Proof. exact dc_equiv. Qed.
Print Assumptions C46_equivalence.

Theorem C46_congruence : forall B, shipped B -> forall P P' Q Q' s,
  tw_valid B P -> tw_valid B P' -> tw_valid B Q -> tw_valid B Q' -> is_scalar s ->
  dc_equals B P P' = Ok true -> dc_equals B Q Q' = Ok true ->
  (l <- dc_add B P Q ;; r <- dc_add B P' Q' ;; dc_equals B l r) = Ok true /\
  (l <- dc_sub B P Q ;; r <- dc_sub B P' Q' ;; dc_equals B l r) = Ok true /\
  (l <- dc_neg B P ;; r <- dc_neg B P' ;; dc_equals B l r) = Ok true /\
  (l <- dc_mul B P s ;; r <- dc_mul B P' s ;; dc_equals B l r) = Ok true /\
  dc_equals B P Q = dc_equals B P' Q' /\
  dc_compress B P = dc_compress B P'.
Proof. exact dc_congruence. Qed.
Print Assumptions C46_congruence.

(** What the operators compute on the curve. *)
Theorem C46_operators : forall B, shipped B -> forall P Q s, tw_valid B P -> tw_valid B Q -> is_scalar s ->
  (exists R, dc_add B P Q = Ok R /\ tw_valid B R /\ tw_affine B R = padd tw_a tw_d (tw_affine B P) (tw_affine B Q)) /\
  (exists R, dc_sub B P Q = Ok R /\ tw_valid B R /\ tw_affine B R = padd tw_a tw_d (tw_affine B P) (pneg (tw_affine B Q))) /\
  (exists R, dc_neg B P = Ok R /\ tw_valid B R /\ tw_affine B R = pneg (tw_affine B P)) /\
  (exists R, dc_mul B P s = Ok R /\ tw_valid B R /\ tw_affine B R = pmul tw_a tw_d (sval s) (tw_affine B P)).
Proof. exact dc_ops_valid. Qed.
Print Assumptions C46_operators.

(** ** C47 *)
Theorem C47_repeated_addition : forall B, shipped B -> forall P, tw_valid B P ->
  (forall s, is_scalar s -> sval s = 0%Z -> (r <- dc_mul B P s ;; dc_equals B r (dc_identity B)) = Ok true) /\
  (forall s s', is_scalar s -> is_scalar s' -> sval s' = (sval s + 1)%Z ->
     (l <- dc_mul B P s' ;; t <- dc_mul B P s ;; r <- dc_add B t P ;; dc_equals B l r) = Ok true) /\
  (forall s, is_scalar s -> exists R, dc_mul B P s = Ok R /\ tw_valid B R /\ tw_affine B R = pmul tw_a tw_d (sval s) (tw_affine B P)).
Proof. exact dc_mul_repeat. Qed.
Print Assumptions C47_repeated_addition.

Theorem C47_depends_on_residue : forall B, shipped B -> forall P s s', tw_valid B P -> is_scalar s -> is_scalar s' ->
  (sval s mod ell = sval s' mod ell)%Z -> (l <- dc_mul B P s ;; r <- dc_mul B P s' ;; dc_equals B l r) = Ok true.
Proof. exact dc_mul_mod. Qed.
Print Assumptions C47_depends_on_residue.

Theorem C47_homomorphism : forall B, shipped B -> forall P a b, tw_valid B P -> canonical a -> canonical b ->
  (c <- scalar_add a b ;; l <- dc_mul B P c ;;
   x <- dc_mul B P a ;; y <- dc_mul B P b ;; r <- dc_add B x y ;; dc_equals B l r) = Ok true /\
  (c <- scalar_sub a b ;; l <- dc_mul B P c ;;
   x <- dc_mul B P a ;; y <- dc_mul B P b ;; r <- dc_sub B x y ;; dc_equals B l r) = Ok true /\
  (c <- scalar_mul a b ;; l <- dc_mul B P c ;;
   x <- dc_mul B P b ;; r <- dc_mul B x a ;; dc_equals B l r) = Ok true /\
  (sval a <> 0%Z ->
   (i <- scalar_invert a ;; x <- dc_mul B P a ;; r <- dc_mul B x i ;; dc_equals B r P) = Ok true).
Proof. exact dc_scalar_hom. Qed.
Print Assumptions C47_homomorphism.

Example C47_case :
  canonical (digits 32 14 (ell - 1)) /\ canonical (digits 32 14 2) /\ is_scalar (digits 32 14 ell) /\ sval (digits 32 14 ell) = ell /\
  is_scalar (digits 32 14 (ell + 5)) /\ (sval (digits 32 14 (ell + 5)) mod ell = sval (digits 32 14 5) mod ell)%Z.
Proof. exact scalar_cases. Qed.

(** ** C48 (cases: C42_case, C47_case) *)
Theorem C48_killed_by_l : forall B, shipped B -> forall P s, tw_valid B P -> is_scalar s -> sval s = ell ->
  (r <- dc_mul B P s ;; dc_equals B r (dc_identity B)) = Ok true.
Proof. exact dc_ell. Qed.
Print Assumptions C48_killed_by_l.

Theorem C48_generated : forall B, shipped B -> forall P, tw_valid B P ->
  exists s, canonical s /\ (r <- dc_mul B (dc_generator B) s ;; dc_equals B r P) = Ok true /\
    forall s', canonical s' -> (r <- dc_mul B (dc_generator B) s' ;; dc_equals B r P) = Ok true -> s' = s.
Proof. exact dc_generated. Qed.
Print Assumptions C48_generated.

(** The l canonical scalars are in bijection with the accepted strings. *)
Theorem C48_prime_order : forall B, shipped B -> prime ell /\
  (forall s, canonical s -> exists b, (r <- dc_mul B (dc_generator B) s ;; dc_compress B r) = Ok b /\ bytes 56 b /\ decaf_ok b) /\
  (forall b, bytes 56 b -> decaf_ok b -> exists s, canonical s /\ (r <- dc_mul B (dc_generator B) s ;; dc_compress B r) = Ok b /\
     forall s', canonical s' -> (r <- dc_mul B (dc_generator B) s' ;; dc_compress B r) = Ok b -> s' = s).
Proof. exact dc_order. Qed.
Print Assumptions C48_prime_order.

(** ** C49 *)
Theorem C49_reachable_points_valid : forall B, shipped B -> forall e, dcexp_ok e ->
  exists o, dcexp_run B e = Ok o /\
    match o with
    | Some P => tw_valid B P /\ exists q, dcexp_val e = Some q /\ same_class (tw_affine B P) q
    | None => dcexp_val e = None
    end.
Proof. exact dcexp_valid. Qed.
Print Assumptions C49_reachable_points_valid.

Theorem C49_denominators : forall B, shipped B -> forall P Q, tw_valid B P -> tw_valid B Q ->
  let (x1, y1) := tw_affine B P in let (x2, y2) := tw_affine B Q in
  1 + tw_d * x1 * x2 * y1 * y2 <> 0 /\ 1 - tw_d * x1 * x2 * y1 * y2 <> 0.
Proof. intros B _. exact (dc_denominators B). Qed.
Print Assumptions C49_denominators.

Example C49_case :
  let e := DAdd (DMul (DDecompress rfc_generator) (digits 32 14 (ell - 1))) (DSub DGenerator (DNeg DIdentity)) in
  dcexp_ok e /\ dcexp_val e = Some (padd tw_a tw_d (pmul tw_a tw_d (ell - 1) (decaf_point gen_s)) (padd tw_a tw_d D (pneg (pneg pzero)))).
Proof. exact program_case. Qed.

(** ** C50 (cases: C42_case, C43_torque_case) *)
Theorem C50_identity_string : forall B, shipped B ->
  dc_compress B (dc_identity B) = Ok (repeat 0%Z 56) /\
  (exists P, dc_decompress B cd_identity = Ok (Some P) /\ dc_equals B P (dc_identity B) = Ok true) /\
  (forall P, tw_valid B P -> (dc_compress B P = Ok (repeat 0%Z 56) <-> dc_equals B P (dc_identity B) = Ok true)).
Proof. exact identity_string. Qed.
Print Assumptions C50_identity_string.

(** ** C51 *)
Theorem C51_unimplemented : forall B,
  (forall A (self : list Z) sign, mp_to_edwards (A := A) self sign = Panic) /\
  (forall self, rs_encode B self = Panic) /\
  (forall self, rs_decode B self = Panic).
Proof. exact unimplemented. Qed.
Print Assumptions C51_unimplemented.

Theorem C51_ristretto_equals : forall B, shipped B -> forall P Q,
  rs_equals B P Q = dc_equals B P Q /\
  (tw_valid B P -> tw_valid B Q -> exists e, rs_equals B P Q = Ok e /\ (e = true <-> same_class (tw_affine B P) (tw_affine B Q))).
Proof. exact ristretto_equals. Qed.
Print Assumptions C51_ristretto_equals.

Theorem C51_ristretto_identity : forall B, shipped B ->
  tw_valid B (rs_identity B) /\ tw_affine B (rs_identity B) = pzero /\
  bytes 56 cr_identity /\ le_val cr_identity = 0%Z /\ cr_identity = cd_identity /\
  dc_compress B (rs_identity B) = Ok cr_identity.
Proof. exact ristretto_identity. Qed.
Print Assumptions C51_ristretto_identity.
