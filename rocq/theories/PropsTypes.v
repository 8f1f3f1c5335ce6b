(** Properties C61-C63: words of a scalar, affine points of the twisted curve, and [==] on encodings.

    Reading guide. [is_scalar s], [sval s]: 14 words of 32 bits and the integer they stand for. [shipped B]: B is one of the
    field backends. [twa_valid B A], [twa_affine B A]: the affine point A holds reduced coordinates of a point of the twisted
    curve that comes from Ed448, and those coordinates. [tw_valid], [xt_valid]: the same for extended and extensible
    coordinates (PointSpec.v). [padd a d], [pneg], [pzero]: the Edwards group law (SpecCurve.v). [bytes 56 b], [le_val b]: a
    56-byte string and its little-endian value. [Ok r]: returns r without panicking. *)
Require Import ZArith List Bool Lia.
From Verif Require Import Base SpecParams SpecField SpecCurve SpecDecaf FieldBackend Backends ScalarModel ScalarIndex ScalarIndexFacts
  TwistedModel ScalarMulModel MontgomeryModel DecafModel PointSpec AffineFacts EncodingFacts.
Import ListNotations.
Open Scope Z_scope.
Open Scope res_scope.

(** ** C61 *)
Theorem C61_read : forall s i, is_scalar s -> 0 <= i ->
  scalar_index s i = if i <? 14 then Ok (sval s / 2 ^ (32 * i) mod 2 ^ 32) else Panic.
Proof. exact index_reads. Qed.
Print Assumptions C61_read.

Theorem C61_write : forall s i w, is_scalar s -> 0 <= i -> 0 <= w < 2 ^ 32 ->
  (i < 14 -> exists r, scalar_index_mut s i w = Ok r /\ is_scalar r /\
     forall j, 0 <= j -> scalar_index r j = if j =? i then Ok w else scalar_index s j) /\
  (14 <= i -> scalar_index_mut s i w = Panic).
Proof. exact index_writes. Qed.
Print Assumptions C61_write.

Theorem C61_write_value : forall s i w, is_scalar s -> 0 <= i < 14 -> 0 <= w < 2 ^ 32 ->
  exists old r, scalar_index s i = Ok old /\ scalar_index_mut s i w = Ok r /\ sval r = sval s + (w - old) * 2 ^ (32 * i).
Proof. exact index_value. Qed.
Print Assumptions C61_write_value.

Theorem C61_from_u32 : forall w, 0 <= w < 2 ^ 32 -> is_scalar (scalar_from_u32 w) /\ sval (scalar_from_u32 w) = w.
Proof. exact from_u32_value. Qed.
Print Assumptions C61_from_u32.

Example C61_case : let s := digits 32 14 (ell - 1) in
  is_scalar s /\ scalar_index s 13 = Ok 0x3fffffff /\ scalar_index s 14 = Panic /\
  scalar_index_mut s 13 0 = Ok (digits 32 14 (ell - 1 - 0x3fffffff * 2 ^ 416)).
Proof. split; [split; [reflexivity|repeat constructor; vm_compute; congruence]|repeat split; vm_compute; reflexivity]. Qed.

Open Scope F_scope.
(** ** C62 *)
Theorem C62_group_law : forall B, shipped B -> forall A A', twa_valid B A -> twa_valid B A' ->
  (exists R, twa_add B A A' = Ok R /\ twa_valid B R /\ twa_affine B R = padd tw_a tw_d (twa_affine B A) (twa_affine B A')) /\
  (exists R, twa_negate B A = Ok R /\ twa_valid B R /\ twa_affine B R = pneg (twa_affine B A)) /\
  (exists b, twa_eq B A A' = Ok b /\ (b = true <-> twa_affine B A = twa_affine B A')) /\
  twa_valid B (twa_identity B) /\ twa_affine B (twa_identity B) = pzero.
Proof. exact affine_group. Qed.
Print Assumptions C62_group_law.

Theorem C62_conversions : forall B, shipped B ->
  (forall A, twa_valid B A ->
    xt_valid B (twa_to_extensible B A) /\ xt_affine B (twa_to_extensible B A) = twa_affine B A /\
    exists R, twa_to_extended B A = Ok R /\ tw_valid B R /\ tw_affine B R = twa_affine B A) /\
  (forall P, tw_valid B P -> exists A, tw_to_affine B P = Ok A /\ twa_valid B A /\ twa_affine B A = tw_affine B P).
Proof. exact affine_conversions. Qed.
Print Assumptions C62_conversions.

(** The tests need no valid point, only reduced coordinates. *)
Theorem C62_curve_tests : forall B, shipped B ->
  (forall A, fe_tight B (twAx A) -> fe_tight B (twAy A) ->
    exists b, twa_is_on_curve B A = Ok b /\ (b = true <-> on_curve tw_a tw_d (twa_affine B A))) /\
  (forall P, fe_tight B (twX P) /\ fe_tight B (twY P) /\ fe_tight B (twZ P) /\ fe_tight B (twT P) -> fv B (twZ P) <> 0 ->
    exists b, tw_is_on_curve B P = Ok b /\
      (b = true <-> fv B (twT P) * fv B (twZ P) = fv B (twX P) * fv B (twY P) /\ on_curve tw_a tw_d (tw_affine B P))).
Proof. exact curve_tests. Qed.
Print Assumptions C62_curve_tests.

Theorem C62_cached : forall B, shipped B ->
  (forall A A', twa_valid B A -> twa_valid B A' ->
    exists b, (n <- twa_to_affine_niels B A ;; n' <- twa_to_affine_niels B A' ;; an_equals B n n') = Ok b /\
      (b = true <-> twa_affine B A = twa_affine B A')) /\
  (forall A A' c, twa_valid B A -> twa_valid B A' ->
    exists n n', twa_to_affine_niels B A = Ok n /\ twa_to_affine_niels B A' = Ok n' /\
      an_select B n n' c = Ok (if c then n' else n)) /\
  (n <- twa_to_affine_niels B (twa_identity B) ;; an_equals B n (an_identity B)) = Ok true.
Proof. exact cached_affine. Qed.
Print Assumptions C62_cached.

(** The generator of the twisted curve, and a point that is not on the curve. *)
Example C62_case : forall B, shipped B ->
  (exists A, tw_to_affine B (tw_generator B) = Ok A /\ twa_valid B A /\ twa_affine B A = D /\ twa_is_on_curve B A = Ok true) /\
  twa_is_on_curve B {| twAx := fe_one B; twAy := fe_one B |} = Ok false.
Proof. exact affine_case. Qed.

(** ** C63 *)
Open Scope Z_scope.
Theorem C63_decaf_elements : forall B, shipped B -> forall a b P Q, bytes 56 a -> bytes 56 b ->
  dc_decompress B a = Ok (Some P) -> dc_decompress B b = Ok (Some Q) -> dc_equals B P Q = Ok (cd_eq a b).
Proof. exact decaf_eq_elements. Qed.
Print Assumptions C63_decaf_elements.

Theorem C63_decaf_compressed : forall B, shipped B -> forall P Q, tw_valid B P -> tw_valid B Q ->
  exists a b, dc_compress B P = Ok a /\ dc_compress B Q = Ok b /\ dc_equals B P Q = Ok (cd_eq a b).
Proof. exact decaf_eq_compressed. Qed.
Print Assumptions C63_decaf_compressed.

Theorem C63_bytes : forall a b, (cd_eq a b = true <-> a = b) /\ (cr_eq a b = true <-> a = b) /\ (mp_eq a b = true <-> a = b).
Proof. exact eq_bytes. Qed.
Print Assumptions C63_bytes.

(** Two Montgomery points with the same u compare equal, or their encodings are p apart. *)
Theorem C63_montgomery_exact : forall a b, bytes 56 a -> bytes 56 b ->
  (le_val a mod p = le_val b mod p <-> mp_eq a b = true \/ le_val a = le_val b + p \/ le_val b = le_val a + p).
Proof. exact montgomery_same_u. Qed.
Print Assumptions C63_montgomery_exact.

Theorem C63_montgomery_canonical : forall a b, bytes 56 a -> bytes 56 b -> le_val a < p -> le_val b < p ->
  (mp_eq a b = true <-> le_val a mod p = le_val b mod p).
Proof. exact montgomery_eq_canonical. Qed.
Print Assumptions C63_montgomery_canonical.

(** The two points differ under [==], yet have one u and the same multiples. *)
Theorem C63_montgomery_refuted : exists a b, bytes 56 a /\ bytes 56 b /\ mp_eq a b = false /\ le_val a mod p = le_val b mod p /\
  forall B, shipped B -> forall s, is_scalar s -> mp_mul B a s = mp_mul B b s.
Proof. exact montgomery_eq_wrong. Qed.
Print Assumptions C63_montgomery_refuted.

Example C63_case : forall B, shipped B ->
  exists P, dc_decompress B rfc_generator = Ok (Some P) /\ dc_equals B P (dc_identity B) = Ok (cd_eq rfc_generator cd_identity) /\
    cd_eq rfc_generator cd_identity = false.
Proof. exact encoding_case. Qed.
