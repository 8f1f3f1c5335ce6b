(** Property C68: programs over Decaf compute with integers modulo l.

    Reading guide (SpecExponent.v, SpecDecaf.v).  [string_of n]: the encoding of n times the generator, from affine points.  [element]: a Decaf
    value made from the generator, the identity and received strings by addition, subtraction, negation and multiplication by scalars;
    [calls e]: the calls of the API that make it; [exponent e]: the same on integers; [scalars_ok e]: its scalars have 14 words.
    [decaf_ok b]: the conditions for accepting b (C45).  [api_run B e]: e run over backend B; None if a decoding fails. *)
Require Import ZArith List Bool.
From Verif Require Import Base SpecParams SpecDecaf FieldBackend Backends ScalarModel ScalarMain ApiExpr SpecExponent ExponentMain.
Import ListNotations.
Open Scope Z_scope.

(** Strings stand for integers modulo l, one each, and no others are accepted. *)
Theorem C68_strings : forall m n, string_of m = string_of n <-> m mod ell = n mod ell.
Proof. exact string_inj. Qed.
Print Assumptions C68_strings.

Theorem C68_all_strings : forall b, bytes 56 b -> (decaf_ok b <-> exists n, 0 <= n < ell /\ b = string_of n).
Proof. exact string_all. Qed.
Print Assumptions C68_all_strings.

(** Any program: its encoding, and comparisons. *)
Theorem C68_encoded : forall B, shipped B -> forall e, scalars_ok e -> api_run B (ADcCompress (calls e)) = Ok (Some (string_of (exponent e))).
Proof. exact encoded. Qed.
Print Assumptions C68_encoded.

Theorem C68_compared : forall B, shipped B -> forall e f, scalars_ok e -> scalars_ok f ->
  api_run B (ADcEq (calls e) (calls f)) = Ok (Some (exponent e mod ell =? exponent f mod ell)).
Proof. exact compared. Qed.
Print Assumptions C68_compared.

(** ** Diffie-Hellman *)
Theorem C68_exchange : forall B, shipped B -> forall a b, is_scalar a -> is_scalar b -> api_run B (exchange a b) = Ok (Some (string_of (sval a * sval b))).
Proof. exact exchanged. Qed.
Print Assumptions C68_exchange.

Theorem C68_agreement : forall B, shipped B -> forall a b, is_scalar a -> is_scalar b -> api_run B (exchange a b) = api_run B (exchange b a).
Proof. exact exchange_agrees. Qed.
Print Assumptions C68_agreement.

(** Only a secret that is a multiple of l gives zeros: unlike with X448, no check for small order is needed. *)
Theorem C68_contributory : forall B, shipped B -> forall a b, is_scalar a -> is_scalar b ->
  (api_run B (exchange a b) = Ok (Some (repeat 0 56)) <-> sval a mod ell = 0 \/ sval b mod ell = 0).
Proof. exact exchange_zero. Qed.
Print Assumptions C68_contributory.

Theorem C68_rejected : forall B, shipped B -> forall b a, bytes 56 b -> is_scalar a -> ~ decaf_ok b -> api_run B (shared_secret b a) = Ok None.
Proof. exact shared_rejected. Qed.
Print Assumptions C68_rejected.

(** ** Schnorr identification *)
(** The check holds exactly if s = r + a c modulo l. *)
Theorem C68_check : forall B, shipped B -> forall a r c s, is_scalar c -> is_scalar s ->
  api_run B (check (string_of a) (string_of r) c s) = Ok (Some (sval s mod ell =? (r + a * sval c) mod ell)).
Proof. exact check_exact. Qed.
Print Assumptions C68_check.

Theorem C68_complete : forall B, shipped B -> forall r c a, canonical r -> is_scalar c -> is_scalar a ->
  exists s, api_run B (respond r c a) = Ok (Some s) /\ api_run B (check (string_of (sval a)) (string_of (sval r)) c s) = Ok (Some true).
Proof. exact schnorr_complete. Qed.
Print Assumptions C68_complete.

(** Two accepted answers to different challenges give the secret away. *)
Theorem C68_extraction : forall B, shipped B -> forall a r c s c' s', is_scalar c -> is_scalar s -> is_scalar c' -> is_scalar s' ->
  api_run B (check (string_of a) (string_of r) c s) = Ok (Some true) -> api_run B (check (string_of a) (string_of r) c' s') = Ok (Some true) ->
  (a * (sval c - sval c')) mod ell = (sval s - sval s') mod ell.
Proof. exact schnorr_extract. Qed.
Print Assumptions C68_extraction.

(** ** Cases *)
(** Scalars for the hypotheses above. *)
Example C68_case : canonical (digits 32 14 5) /\ canonical (digits 32 14 (ell - 1)) /\ sval (digits 32 14 5) mod ell <> 0.
Proof. exact two_scalars. Qed.
