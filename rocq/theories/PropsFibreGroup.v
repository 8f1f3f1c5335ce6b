(** Property C92: what multiplications of Edwards and Decaf points lose.

    Reading guide.  [exactly n D]: n strings satisfy D (SpecCount.v).  [api_run B e]: the result of the calls e over backend B; here decode, multiply, encode
    ([shared_secret b s] of SpecExponent.v does so for Decaf).  [rfc8032_decode]: the decoding of RFC 8032, which takes one string for each point;
    [decaf_ok b]: b is the encoding of an element of the Decaf group. *)
Require Import ZArith List Bool.
From Verif Require Import Base SpecParams SpecField SpecCurve SpecEncoding SpecCount SpecRfc8032 SpecDecaf SpecExponent FieldBackend Backends ScalarModel ApiExpr FibreGroup.
Import ListNotations.
Open Scope Z_scope.

(** Every multiple of a point by s comes from exactly gcd(s, 4 l) points, so there are 4 l / gcd(s, 4 l) of them. *)
Theorem C92_edwards : forall B, shipped B -> forall s b, is_scalar s -> (bytes 57 b /\ exists Q, rfc8032_decode b = Some Q) ->
  exactly (Z.gcd (sval s) (4 * ell)) (fun b' => (bytes 57 b' /\ exists Q, rfc8032_decode b' = Some Q) /\
    api_run B (AEdCompress (AEdMul (AEdDecompress b') s)) = api_run B (AEdCompress (AEdMul (AEdDecompress b) s))).
Proof. exact ed_fibre. Qed.
Print Assumptions C92_edwards.
Theorem C92_edwards_image : forall B, shipped B -> forall s, is_scalar s ->
  exactly (4 * ell / Z.gcd (sval s) (4 * ell)) (fun r => exists b, (bytes 57 b /\ exists Q, rfc8032_decode b = Some Q) /\
    api_run B (AEdCompress (AEdMul (AEdDecompress b) s)) = Ok (Some r)).
Proof. exact ed_image. Qed.
Print Assumptions C92_edwards_image.
(** With a reduced scalar other than 0: 1, 2 or 4. *)
Theorem C92_edwards_reduced : forall B, shipped B -> forall s b, is_scalar s -> 0 < sval s < ell -> (bytes 57 b /\ exists Q, rfc8032_decode b = Some Q) ->
  exactly (Z.gcd (sval s) 4) (fun b' => (bytes 57 b' /\ exists Q, rfc8032_decode b' = Some Q) /\
    api_run B (AEdCompress (AEdMul (AEdDecompress b') s)) = api_run B (AEdCompress (AEdMul (AEdDecompress b) s))).
Proof. exact ed_reduced. Qed.
Print Assumptions C92_edwards_reduced.

(** The same with l in place of 4 l. *)
Theorem C92_decaf : forall B, shipped B -> forall s b, is_scalar s -> (bytes 56 b /\ decaf_ok b) ->
  exactly (Z.gcd (sval s) ell) (fun b' => (bytes 56 b' /\ decaf_ok b') /\ api_run B (shared_secret b' s) = api_run B (shared_secret b s)).
Proof. exact dc_fibre. Qed.
Print Assumptions C92_decaf.
Theorem C92_decaf_image : forall B, shipped B -> forall s, is_scalar s ->
  exactly (ell / Z.gcd (sval s) ell) (fun r => exists b, (bytes 56 b /\ decaf_ok b) /\ api_run B (shared_secret b s) = Ok (Some r)).
Proof. exact dc_image. Qed.
Print Assumptions C92_decaf_image.
(** A reduced scalar other than 0 permutes the Decaf strings. *)
Theorem C92_decaf_permutes : forall B, shipped B -> forall s, is_scalar s -> 0 < sval s < ell ->
  (forall b, bytes 56 b -> decaf_ok b -> exactly 1 (fun b' => (bytes 56 b' /\ decaf_ok b') /\ api_run B (shared_secret b' s) = api_run B (shared_secret b s))) /\
  (forall r, bytes 56 r -> decaf_ok r -> exists b, bytes 56 b /\ decaf_ok b /\ api_run B (shared_secret b s) = Ok (Some r)).
Proof. exact dc_permutes. Qed.
Print Assumptions C92_decaf_permutes.

(** The generators, and four scalars. *)
Example C92_case : (bytes 57 (ed_encode G) /\ exists Q, rfc8032_decode (ed_encode G) = Some Q) /\
  (bytes 56 (string_of 1) /\ decaf_ok (string_of 1)) /\
  (forall n, In n [2; 4] -> is_scalar (digits 32 14 n) /\ sval (digits 32 14 n) = n) /\
  Z.gcd 2 (4 * ell) = 2 /\ Z.gcd 4 (4 * ell) = 4 /\ Z.gcd ell (4 * ell) = ell /\ Z.gcd 2 ell = 1.
Proof. exact gcd_case. Qed.
