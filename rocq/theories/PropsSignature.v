(** Property C86: what an accepted signature shows.

    Reading guide.  [sig_public], [sig_sign], [sig_verify] (Signature.v): Ed448 written over the crate's public API, with the values of
    the hash function as arguments.  [log_is Q a] (SpecSignature.v): Q is a times the base point, up to a point of order 1, 2 or 4.
    [rfc8032_decode] (SpecRfc8032.v): the decoding of RFC 8032. *)
Require Import ZArith List Bool.
From Verif Require Import Base SpecParams SpecField SpecCurve SpecRfc8032 SpecSignature FieldBackend Backends ScalarModel Signature SignatureMain SignatureCases SignatureLog.
Import ListNotations.
Open Scope Z_scope.

(** Every point of the curve has exactly one logarithm. *)
Theorem C86_logarithm : forall Q, on_curve ed_a ed_d Q -> exists a, log_is Q a /\ forall b, log_is Q b -> b = a.
Proof. exact log_one. Qed.
Print Assumptions C86_logarithm.

(** A signature is accepted exactly if S is the one number that solves the signer's equation modulo l. *)
Theorem C86_accepts : forall B, shipped B -> forall A R S h QA QR a r, bytes 57 A -> bytes 57 R -> bytes 57 S -> bytes 114 h ->
  rfc8032_decode A = Some QA -> rfc8032_decode R = Some QR -> log_is QA a -> log_is QR r ->
  (sig_verify B A R S h = Ok true <-> le_val S = (r + le_val h * a) mod ell).
Proof. exact api_accepts. Qed.
Print Assumptions C86_accepts.

(** Two accepted signatures with the same R and different hashes give the logarithm of the key away: it is the solution of a
    linear equation.  So whoever can answer two hashes knows the secret. *)
Theorem C86_extract : forall B, shipped B -> forall A R S S' h h' QA, bytes 57 A -> bytes 57 R -> bytes 57 S -> bytes 57 S' -> bytes 114 h -> bytes 114 h' ->
  rfc8032_decode A = Some QA -> sig_verify B A R S h = Ok true -> sig_verify B A R S' h' = Ok true -> le_val h mod ell <> le_val h' mod ell ->
  forall a, log_is QA a <-> 0 <= a < ell /\ (a * (le_val h - le_val h')) mod ell = (le_val S - le_val S') mod ell.
Proof. exact api_extract. Qed.
Print Assumptions C86_extract.

(** In particular a signer who uses a nonce for two messages gives the secret away. *)
Theorem C86_nonce_reuse : forall B, shipped B -> forall s hr hk hk' R S R' S', is_scalar s -> bytes 114 hr -> bytes 114 hk -> bytes 114 hk' ->
  sig_sign B s hr hk = Ok (R, S) -> sig_sign B s hr hk' = Ok (R', S') -> le_val hk mod ell <> le_val hk' mod ell ->
  R = R' /\ forall a, a = sval s mod ell <-> 0 <= a < ell /\ (a * (le_val hk - le_val hk')) mod ell = (le_val S - le_val S') mod ell.
Proof. exact api_reuse. Qed.
Print Assumptions C86_nonce_reuse.

(** An accepted signature is accepted for another hash exactly if that is the same modulo l or the key has order 1, 2 or 4. *)
Theorem C86_binds : forall B, shipped B -> forall A R S h h' QA, bytes 57 A -> bytes 57 R -> bytes 57 S -> bytes 114 h -> bytes 114 h' ->
  rfc8032_decode A = Some QA -> sig_verify B A R S h = Ok true ->
  (sig_verify B A R S h' = Ok true <-> pmul ed_a ed_d 4 QA = pzero \/ le_val h mod ell = le_val h' mod ell).
Proof. exact api_bound. Qed.
Print Assumptions C86_binds.

(** So "a signature is bound to a message" is false for arbitrary keys. *)
Theorem C86_binds_refuted : forall B, shipped B -> exists A R S, bytes 57 A /\ bytes 57 R /\ bytes 57 S /\ forall h, bytes 114 h -> sig_verify B A R S h = Ok true.
Proof. exact any_message. Qed.
Print Assumptions C86_binds_refuted.

(** If the hash can be chosen before R, anybody can produce signatures: for every key, hash and canonical S there are exactly four R. *)
Theorem C86_simulates : forall B, shipped B -> forall A S h QA, bytes 57 A -> bytes 57 S -> bytes 114 h -> rfc8032_decode A = Some QA -> le_val S < ell ->
  exists l, length l = 4%nat /\ NoDup l /\ Forall (bytes 57) l /\ forall R, bytes 57 R -> (sig_verify B A R S h = Ok true <-> In R l).
Proof. exact api_simulate. Qed.
Print Assumptions C86_simulates.

(** The first test vector of RFC 8032, signed with the same nonce for a second hash. *)
Example C86_case : forall B, shipped B -> exists A R S S',
  sig_public B vec_s = Ok A /\ sig_sign B vec_s vec_hr vec_hk = Ok (R, S) /\ sig_sign B vec_s vec_hr (le_bytes 114 1) = Ok (R, S') /\
  sig_verify B A R S vec_hk = Ok true /\ sig_verify B A R S' (le_bytes 114 1) = Ok true /\ sig_verify B A R S (le_bytes 114 1) = Ok false /\
  le_val vec_hk mod ell <> le_val (le_bytes 114 1) mod ell /\ rfc8032_decode A = Some (pmul ed_a ed_d (sval vec_s) G) /\
  log_is (pmul ed_a ed_d (sval vec_s) G) (sval vec_s mod ell).
Proof. exact reuse_case. Qed.
