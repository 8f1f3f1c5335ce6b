(** Property C93: how many secrets share a public key or a shared secret, and how many of them there are.

    Reading guide.  [exactly n D]: exactly n strings satisfy D (SpecCount.v).  [mp_mul B u s]: the crate's [&MontgomeryPoint * &Scalar] over backend B;
    [clamp448]: the scalar decoding of RFC 7748; [u_on_curve], [u_on_twist], [u_low], [ell_twist]: SpecTwist.v.  [sig_public B s] (Signature.v): the Edwards key
    of s, the compressed product with the generator; [public_key s] (SpecExponent.v): its Decaf key.  The base point of X448 is u = 5. *)
Require Import ZArith List Bool.
From Verif Require Import Base SpecParams SpecMontgomery SpecTwist SpecRfc8032 SpecExponent SpecCount FieldBackend Backends ScalarModel MontgomeryModel Signature ApiExpr TwistMain KeyCount.
Import ListNotations.
Open Scope Z_scope.

(** Clamping takes eight strings to each of its values. *)
Theorem C93_clamp : forall c, (4 | c) /\ 2 ^ 447 <= c < 2 ^ 448 -> exactly 8 (fun k => bytes 56 k /\ le_val (clamp448 k) = c).
Proof. exact clamp_strings. Qed.
Print Assumptions C93_clamp.

(** The secrets that give what the secret k gives: 16 or 8. *)
Theorem C93_curve : forall B, shipped B -> forall k u, bytes 56 k -> bytes 56 u -> u_on_curve (le_val u) -> ~ u_low (le_val u) ->
  exactly (if (8 * ell - 2 ^ 448 <? le_val (clamp448 k)) && negb (le_val (clamp448 k) =? 4 * ell) then 16 else 8)
    (fun k' => bytes 56 k' /\ mp_mul B u (scalar_from_bytes (clamp448 k')) = mp_mul B u (scalar_from_bytes (clamp448 k))).
Proof. exact curve_secrets. Qed.
Print Assumptions C93_curve.
Theorem C93_twist : forall B, shipped B -> forall k u, bytes 56 k -> bytes 56 u -> u_on_twist (le_val u) -> ~ u_low (le_val u) ->
  exactly (if le_val (clamp448 k) <=? 4 * ell_twist - 2 ^ 447 then 16 else 8)
    (fun k' => bytes 56 k' /\ mp_mul B u (scalar_from_bytes (clamp448 k')) = mp_mul B u (scalar_from_bytes (clamp448 k))).
Proof. exact twist_secrets. Qed.
Print Assumptions C93_twist.

(** The results of all secrets on one coordinate. *)
Theorem C93_curve_results : forall B, shipped B -> forall u, bytes 56 u -> u_on_curve (le_val u) -> ~ u_low (le_val u) ->
  exactly (ell + 1 - 2 ^ 445) (fun r => exists k, bytes 56 k /\ mp_mul B u (scalar_from_bytes (clamp448 k)) = Ok r).
Proof. exact curve_keys. Qed.
Print Assumptions C93_curve_results.
Theorem C93_twist_results : forall B, shipped B -> forall u, bytes 56 u -> u_on_twist (le_val u) -> ~ u_low (le_val u) ->
  exactly (2 ^ 446 - (ell_twist + 1) / 2) (fun r => exists k, bytes 56 k /\ mp_mul B u (scalar_from_bytes (clamp448 k)) = Ok r).
Proof. exact twist_keys. Qed.
Print Assumptions C93_twist_results.
Theorem C93_x448_keys : forall B, shipped B ->
  exactly (ell + 1 - 2 ^ 445) (fun r => exists k, bytes 56 k /\ mp_mul B (le_bytes 56 5) (scalar_from_bytes (clamp448 k)) = Ok r).
Proof. exact base_keys. Qed.
Print Assumptions C93_x448_keys.

(** With a clamped secret no Edwards or Decaf key is lost; a scalar decoded from 56 bytes shares its key with three or four others. *)
Theorem C93_edwards_clamped : forall B, shipped B -> exactly (2 ^ 445) (fun r => exists k, bytes 56 k /\ sig_public B (scalar_from_bytes (clamp448 k)) = Ok r).
Proof. exact ed_clamped_keys. Qed.
Print Assumptions C93_edwards_clamped.
Theorem C93_decaf_clamped : forall B, shipped B ->
  exactly (2 ^ 445) (fun r => exists k, bytes 56 k /\ api_run B (public_key (scalar_from_bytes (clamp448 k))) = Ok (Some r)).
Proof. exact decaf_clamped_keys. Qed.
Print Assumptions C93_decaf_clamped.
Theorem C93_edwards_raw : forall B, shipped B -> forall s, is_scalar s ->
  exactly (if sval s mod ell <? 2 ^ 448 - 4 * ell then 5 else 4) (fun b => bytes 56 b /\ sig_public B (scalar_from_bytes b) = sig_public B s).
Proof. exact ed_raw_keys. Qed.
Print Assumptions C93_edwards_raw.
Theorem C93_decaf_raw : forall B, shipped B -> forall s, is_scalar s ->
  exactly (if sval s mod ell <? 2 ^ 448 - 4 * ell then 5 else 4) (fun b => bytes 56 b /\ api_run B (public_key (scalar_from_bytes b)) = api_run B (public_key s)).
Proof. exact decaf_raw_keys. Qed.
Print Assumptions C93_decaf_raw.

(** Secrets with 16 and with 8 strings, on the curve and on the twist; scalars with five strings and with four. *)
Example C93_case : forall B, shipped B ->
  (forall n k, In (n, k) [(16, secret_2); (16, secret_3); (8, weak_secret); (8, secret_1)] ->
     exactly n (fun k' => bytes 56 k' /\ mp_mul B (le_bytes 56 5) (scalar_from_bytes (clamp448 k')) = mp_mul B (le_bytes 56 5) (scalar_from_bytes (clamp448 k)))) /\
  (forall n k, In (n, k) [(16, secret_4); (16, secret_5); (8, secret_2)] ->
     exactly n (fun k' => bytes 56 k' /\ mp_mul B (le_bytes 56 6) (scalar_from_bytes (clamp448 k')) = mp_mul B (le_bytes 56 6) (scalar_from_bytes (clamp448 k)))).
Proof. exact secrets_case. Qed.
Example C93_case_raw : is_scalar (scalar_from_bytes (le_bytes 56 (2 ^ 445))) /\ is_scalar scalar_one /\ (sval scalar_one mod ell <? 2 ^ 448 - 4 * ell) = true /\
  (sval (scalar_from_bytes (le_bytes 56 (2 ^ 445))) mod ell <? 2 ^ 448 - 4 * ell) = false.
Proof. exact raw_case. Qed.
