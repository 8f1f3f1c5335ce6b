(** Property C95: signature checks that leave a step out.

    Reading guide.  [sig_verify] (Signature.v): Ed448 checking written over the crate's public API, the same as RFC 8032 (C66).  [sig_direct],
    [sig_loose], [sig_raw] (SignatureVariants.v): the same without the factor 4, without encoding the decoded points again, and with S read
    by [Scalar::from_bytes].  [exactly n D]: n strings satisfy D (SpecCount.v).  [readings], [coset_readings] (SpecVariants.v): how many strings
    decode to a point, and to one of the four points the same up to torsion.  [rfc8032_decode] and [rfc8032_encode]: as in RFC 8032.  The point
    (1, 0) has order 4. *)
Require Import ZArith List Bool.
From Verif Require Import Base SpecParams SpecField SpecCurve SpecRfc8032 SpecCount SpecVariants FieldBackend Backends ScalarModel EdwardsModel PointSpec Signature SignatureVariants VariantMain.
Import ListNotations.
Open Scope Z_scope.
Local Notation "n • P" := (pmul ed_a ed_d n P) (at level 40).
Local Notation "P ⊕ Q" := (padd ed_a ed_d P Q) (at level 50).
Local Notation T := (of_Z 1, of_Z 0).

(** Every point is a multiple of the base point plus a multiple of T, in one way. *)
Theorem C95_components : forall Q, on_curve ed_a ed_d Q -> exists a i, (0 <= a < ell /\ 0 <= i < 4 /\ Q = a • G ⊕ i • T) /\
  forall a' i', 0 <= a' < ell -> 0 <= i' < 4 -> Q = a' • G ⊕ i' • T -> a' = a /\ i' = i.
Proof. exact components. Qed.
Print Assumptions C95_components.

(** Without the factor 4: the equation modulo l must hold, and one modulo 4, in which the hash stands reduced modulo l. *)
Theorem C95_direct : forall B, shipped B -> forall A R S h a i r j, bytes 57 A -> bytes 57 R -> bytes 57 S -> bytes 114 h ->
  0 <= a -> 0 <= i -> 0 <= r -> 0 <= j -> rfc8032_decode A = Some (a • G ⊕ i • T) -> rfc8032_decode R = Some (r • G ⊕ j • T) ->
  (sig_direct B A R S h = Ok true <-> le_val S = (r + le_val h * a) mod ell /\ (j + (le_val h mod ell) * i) mod 4 = 0).
Proof. exact direct_iff. Qed.
Print Assumptions C95_direct.

(** It accepts what the signer makes, and nothing that [sig_verify] does not accept. *)
Theorem C95_direct_complete : forall B, shipped B -> forall s hr hk A R S, is_scalar s -> bytes 114 hr -> bytes 114 hk ->
  sig_public B s = Ok A -> sig_sign B s hr hk = Ok (R, S) -> sig_direct B A R S hk = Ok true.
Proof. exact direct_complete. Qed.
Print Assumptions C95_direct_complete.
Theorem C95_direct_stricter : forall B, shipped B -> forall A R S h, bytes 57 A -> bytes 57 R -> bytes 57 S -> bytes 114 h ->
  sig_direct B A R S h = Ok true -> sig_verify B A R S h = Ok true.
Proof. exact direct_stricter. Qed.
Print Assumptions C95_direct_stricter.

(** For every key, hash and S one R is accepted, where [sig_verify] accepts four (C86). *)
Theorem C95_direct_one : forall B, shipped B -> forall A S h QA, bytes 57 A -> bytes 57 S -> bytes 114 h -> rfc8032_decode A = Some QA -> le_val S < ell ->
  exactly 1 (fun R => bytes 57 R /\ sig_direct B A R S h = Ok true).
Proof. exact direct_one. Qed.
Print Assumptions C95_direct_one.

(** That both checks agree is false. *)
Theorem C95_direct_same_refuted : forall B, shipped B -> exists A R S h, bytes 57 A /\ bytes 57 R /\ bytes 57 S /\ bytes 114 h /\
  sig_verify B A R S h = Ok true /\ sig_direct B A R S h = Ok false.
Proof. exact direct_differs. Qed.
Print Assumptions C95_direct_same_refuted.

(** And so is that the second decides S G = R + h A with the integer h: the crate's scalars only hold h modulo l. *)
Theorem C95_direct_integer_refuted : forall B, shipped B -> exists A R S h QA QR, bytes 57 A /\ bytes 57 R /\ bytes 57 S /\ bytes 114 h /\
  rfc8032_decode A = Some QA /\ rfc8032_decode R = Some QR /\
  le_val S < ell /\ le_val S • G = QR ⊕ le_val h • QA /\ sig_direct B A R S h = Ok false.
Proof. exact direct_reduces. Qed.
Print Assumptions C95_direct_integer_refuted.

(** Without encoding again: accepted exactly if [sig_verify] accepts the canonical strings of the points that the crate decodes. *)
Theorem C95_loose : forall B, shipped B -> forall A R S h, bytes 57 A -> bytes 57 R -> bytes 57 S -> bytes 114 h ->
  (sig_loose B A R S h = Ok true <-> exists QA QR,
     (exists P, ed_decompress B A = Ok (Some P) /\ ed_affine B P = QA) /\ (exists P, ed_decompress B R = Ok (Some P) /\ ed_affine B P = QR) /\
     sig_verify B (rfc8032_encode QA) (rfc8032_encode QR) S h = Ok true).
Proof. exact loose_iff. Qed.
Print Assumptions C95_loose.

(** How many R are accepted, if R = Q is: 1280 if Q has order dividing 4, and 512, 640 or 768 otherwise. *)
Theorem C95_loose_count : forall B, shipped B -> forall A S h QA Q, bytes 57 A -> bytes 57 S -> bytes 114 h ->
  (exists P, ed_decompress B A = Ok (Some P) /\ ed_affine B P = QA) -> on_curve ed_a ed_d Q ->
  sig_verify B (rfc8032_encode QA) (rfc8032_encode Q) S h = Ok true ->
  exactly (coset_readings Q) (fun R => bytes 57 R /\ sig_loose B A R S h = Ok true).
Proof. exact loose_count. Qed.
Print Assumptions C95_loose_count.
Theorem C95_loose_number : forall B, shipped B -> forall A S h QA Q, bytes 57 A -> bytes 57 S -> bytes 114 h ->
  (exists P, ed_decompress B A = Ok (Some P) /\ ed_affine B P = QA) -> on_curve ed_a ed_d Q ->
  sig_verify B (rfc8032_encode QA) (rfc8032_encode Q) S h = Ok true ->
  exists n, exactly n (fun R => bytes 57 R /\ sig_loose B A R S h = Ok true) /\
    (4 • Q = pzero -> n = 1280) /\ (4 • Q <> pzero -> n = 512 \/ n = 640 \/ n = 768).
Proof. exact loose_number. Qed.
Print Assumptions C95_loose_number.

(** S read by [from_bytes]: four or five S are accepted, where [sig_verify] accepts one. *)
Theorem C95_raw : forall B, shipped B -> forall A R h QA QR, bytes 57 A -> bytes 57 R -> bytes 114 h -> rfc8032_decode A = Some QA -> rfc8032_decode R = Some QR ->
  exists s, 0 <= s < ell /\ (forall S, bytes 57 S -> (sig_verify B A R S h = Ok true <-> le_val S = s)) /\
    exactly (if s <? 2 ^ 448 - 4 * ell then 5 else 4) (fun S => bytes 56 S /\ sig_raw B A R S h = Ok true).
Proof. exact raw_count. Qed.
Print Assumptions C95_raw.

(** Keys a G + i T and R = r G + j T for any parts; C95_direct_same_refuted is the case 5, 1, 5, 0 with the hash 3. *)
Example C95_case : forall B, shipped B -> forall a i r j h, 0 <= a < ell -> 0 <= i < 4 -> 0 <= r < ell -> 0 <= j < 4 -> 0 <= h < 2 ^ 912 ->
  let S := le_bytes 57 ((r + h * a) mod ell) in
  sig_verify B (pt_enc a i) (pt_enc r j) S (le_bytes 114 h) = Ok true /\
  sig_direct B (pt_enc a i) (pt_enc r j) S (le_bytes 114 h) = Ok ((j + h mod ell * i) mod 4 =? 0).
Proof. exact pt_direct. Qed.
(** The key and S of zero, with any hash: 1280 strings R are accepted. *)
Example C95_case_zero : forall B, shipped B -> forall h, bytes 114 h ->
  exactly 1280 (fun R => bytes 57 R /\ sig_loose B (rfc8032_encode pzero) R (le_bytes 57 0) h = Ok true).
Proof. exact loose_zero. Qed.
