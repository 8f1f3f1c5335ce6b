(** Property C97: commitments, blinded evaluation, encryption and proofs of equal logarithms over Decaf.

    Reading guide.  SpecProtocols.v: the protocols as programs over the crate's public API.  [commit H m r]: m B + r H.  [blind_eval x s k]: the
    client multiplies x by s, the server by k, the client by [Scalar::invert] of s.  [shared_secret x k]: x decoded, times k, encoded.
    [seal_unseal A m r a]: m encrypted to the key A with r, decrypted with a.  [check_both B' A A' R R' c s]: s B = R + c A and s B' = R' + c A'.
    [string_of n]: the encoding of n times the generator; every accepted string is one (C68).  [exactly n D]: n strings satisfy D.
    Random choice is not modelled: the theorems count the scalars behind a string. *)
Require Import ZArith List Bool.
From Verif Require Import Base SpecParams SpecDecaf SpecCount FieldBackend Backends ScalarModel ScalarMain ApiExpr SpecExponent SpecProtocols ProtocolMain.
Import ListNotations.
Open Scope Z_scope.

(** ** Commitments *)
Theorem C97_commit : forall B, shipped B -> forall h m r, is_scalar m -> is_scalar r ->
  api_run B (commit (string_of h) m r) = Ok (Some (string_of (sval m + h * sval r))).
Proof. exact commit_value. Qed.
Print Assumptions C97_commit.

(** A commitment says nothing about m: every accepted string is a commitment to every m, with exactly one r read by
    [Scalar::from_canonical_bytes]. *)
Theorem C97_hiding : forall B, shipped B -> forall h m b, h mod ell <> 0 -> is_scalar m -> bytes 56 b -> decaf_ok b ->
  exactly 1 (fun rb => bytes 57 rb /\ exists r, scalar_from_canonical_bytes rb = Ok (Some r) /\ api_run B (commit (string_of h) m r) = Ok (Some b)).
Proof. exact commit_hides. Qed.
Print Assumptions C97_hiding.

(** That this holds for every accepted H is false: for the identity, r plays no part. *)
Theorem C97_hiding_refuted : forall B, shipped B -> exists H, bytes 56 H /\ decaf_ok H /\ forall m r, is_scalar m -> is_scalar r ->
  api_run B (commit H m r) = Ok (Some (string_of (sval m))).
Proof. exact commit_zero. Qed.
Print Assumptions C97_hiding_refuted.

(** Whoever opens one in two ways knows the logarithm of H: it is the only solution of a linear equation. *)
Theorem C97_binding : forall B, shipped B -> forall h m r m' r', is_scalar m -> is_scalar r -> is_scalar m' -> is_scalar r' -> sval m mod ell <> sval m' mod ell ->
  api_run B (commit (string_of h) m r) = api_run B (commit (string_of h) m' r') ->
  forall x, string_of x = string_of h <-> (x * (sval r - sval r')) mod ell = (sval m' - sval m) mod ell.
Proof. exact commit_binds. Qed.
Print Assumptions C97_binding.

(** The sum of two commitments is the commitment to the sums. *)
Theorem C97_sum : forall B, shipped B -> forall h m m' r r', canonical m -> canonical m' -> canonical r -> canonical r' ->
  api_run B (commit_sum (string_of h) m m' r r') = api_run B (add_strings (string_of (sval m + h * sval r)) (string_of (sval m' + h * sval r'))).
Proof. exact commit_adds. Qed.
Print Assumptions C97_sum.

(** ** Blinded evaluation *)
(** The blinding cancels, unless it is a multiple of l: then the result is the identity, whatever x and k are. *)
Theorem C97_blind : forall B, shipped B -> forall x s k, is_scalar s -> is_scalar k -> sval s mod ell <> 0 ->
  api_run B (blind_eval (string_of x) s k) = api_run B (shared_secret (string_of x) k).
Proof. exact blind_value. Qed.
Print Assumptions C97_blind.
Theorem C97_blind_zero : forall B, shipped B -> forall x s k, is_scalar s -> is_scalar k -> sval s mod ell = 0 ->
  api_run B (blind_eval (string_of x) s k) = Ok (Some (repeat 0 56)).
Proof. exact blind_zero. Qed.
Print Assumptions C97_blind_zero.

(** What the client sends says nothing about x: every accepted string is x, other than the identity, blinded with exactly one s. *)
Theorem C97_blind_hiding : forall B, shipped B -> forall x b, x mod ell <> 0 -> bytes 56 b -> decaf_ok b ->
  exactly 1 (fun sb => bytes 57 sb /\ exists s, scalar_from_canonical_bytes sb = Ok (Some s) /\ api_run B (shared_secret (string_of x) s) = Ok (Some b)).
Proof. exact blind_hides. Qed.
Print Assumptions C97_blind_hiding.

(** ** Encryption *)
(** What decryption gives, and that it is m exactly for the key, or if r is a multiple of l. *)
Theorem C97_decrypt : forall B, shipped B -> forall n m r a, is_scalar r -> is_scalar a ->
  api_run B (seal_unseal (string_of n) (string_of m) r a) = Ok (Some (string_of (m + sval r * (n - sval a)))).
Proof. exact seal_value. Qed.
Print Assumptions C97_decrypt.
Theorem C97_opens : forall B, shipped B -> forall n m r a, is_scalar r -> is_scalar a ->
  (api_run B (seal_unseal (string_of n) (string_of m) r a) = Ok (Some (string_of m)) <-> sval r mod ell = 0 \/ n mod ell = sval a mod ell).
Proof. exact seal_opens. Qed.
Print Assumptions C97_opens.

(** ** Equal logarithms *)
Theorem C97_both : forall B, shipped B -> forall g a b r t c s, is_scalar c -> is_scalar s ->
  api_run B (check_both (string_of g) (string_of a) (string_of b) (string_of r) (string_of t) c s) =
  Ok (Some ((sval s mod ell =? (r + a * sval c) mod ell) && ((g * sval s) mod ell =? (t + b * sval c) mod ell))).
Proof. exact both_value. Qed.
Print Assumptions C97_both.
Theorem C97_both_complete : forall B, shipped B -> forall g a r c s, is_scalar c -> is_scalar s -> sval s mod ell = (r + a * sval c) mod ell ->
  api_run B (check_both (string_of g) (string_of a) (string_of (g * a)) (string_of r) (string_of (g * r)) c s) = Ok (Some true).
Proof. exact both_complete. Qed.
Print Assumptions C97_both_complete.

(** If the logarithms differ, then whatever R and R' are, only one challenge modulo l has an accepted answer. *)
Theorem C97_both_sound : forall B, shipped B -> forall g a b r t, b mod ell <> (g * a) mod ell -> exists c0, 0 <= c0 < ell /\ forall c, is_scalar c ->
  ((exists s, is_scalar s /\ api_run B (check_both (string_of g) (string_of a) (string_of b) (string_of r) (string_of t) c s) = Ok (Some true)) <-> sval c mod ell = c0).
Proof. exact both_sound. Qed.
Print Assumptions C97_both_sound.

(** ** Cases *)
Local Notation num := (digits 32 14).
Example C97_case : forall B, shipped B ->
  (7 mod ell <> 0 /\ api_run B (commit (string_of 7) (num 5) (num 1)) = Ok (Some (string_of 12)) /\ api_run B (commit (string_of 7) (num 12) (num 0)) = Ok (Some (string_of 12)) /\ sval (num 5) mod ell <> sval (num 12) mod ell) /\
  (sval (num 5) mod ell <> 0 /\ api_run B (blind_eval (string_of 9) (num 5) (num 4)) = Ok (Some (string_of 36))) /\
  (api_run B (seal_unseal (string_of 3) (string_of 11) (num 2) (num 3)) = Ok (Some (string_of 11)) /\ api_run B (seal_unseal (string_of 3) (string_of 11) (num 2) (num 4)) = Ok (Some (string_of 9))) /\
  (7 mod ell <> (2 * 3) mod ell /\ api_run B (check_both (string_of 2) (string_of 3) (string_of 6) (string_of 5) (string_of 10) (num 4) (num 17)) = Ok (Some true) /\
   api_run B (check_both (string_of 2) (string_of 3) (string_of 7) (string_of 5) (string_of 10) (num 4) (num 17)) = Ok (Some false)).
Proof. exact protocol_cases. Qed.
