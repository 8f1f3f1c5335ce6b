(** Properties C70 and C71: when the ladder returns zero, and which secrets share a public key.

    Reading guide.  [mp_mul B u s]: the crate's [&MontgomeryPoint * &Scalar] over backend B; [zeros]: the encoding of 0; [clamp448]: the scalar
    decoding of RFC 7748.  [on_mont mont_A e P]: P is on Curve448 (e = 1) or on its twist (e = -1); [u_on_curve u], [u_on_twist u]: u is
    the coordinate of a point there; [u_low u]: u is 0, 1 or -1; [ell_twist]: SpecTwist.v.  [sig_public] (Signature.v) and [public_key],
    [shared_secret] (SpecExponent.v): key generation and agreement written over the crate's calls; [rfc8032_public n]: the encoding of n times the generator.
    [scalar_random r]: the scalar that Scalar::random makes of the 114 bytes r. *)
Require Import ZArith Znumtheory List Bool.
From Verif Require Import Base SpecParams SpecField SpecMontgomery SpecTwist SpecDecaf SpecRfc8032 SpecExponent FieldBackend Backends ScalarModel MontgomeryModel Signature
  ApiExpr TwistMain.
Import ListNotations.
Open Scope Z_scope.

(** ** C70 *)
(** The numbers of points, infinity included, are 4 times two primes. *)
Theorem C70_curve : exists L : list mpoint, NoDup L /\ (forall P, In P L <-> on_mont mont_A 1%F P) /\ Z.of_nat (length L) = 4 * ell.
Proof. exact curve_points. Qed.
Print Assumptions C70_curve.

Theorem C70_twist : exists L : list mpoint, NoDup L /\ (forall P, In P L <-> on_mont mont_A (- (1))%F P) /\ Z.of_nat (length L) = 4 * ell_twist.
Proof. exact twist_points. Qed.
Print Assumptions C70_twist.

Theorem C70_primes : prime ell /\ prime ell_twist.
Proof. exact both_prime. Qed.
Print Assumptions C70_primes.

(** Any scalar; the ladder multiplies by the next even number. *)
Theorem C70_zero : forall B, shipped B -> forall u s, bytes 56 u -> is_scalar s -> let m := sval s + sval s mod 2 in
  (mp_mul B u s = Ok zeros <->
   u_low (le_val u) \/ (u_on_curve (le_val u) /\ (ell | m)) \/ (u_on_twist (le_val u) /\ (ell_twist | m))).
Proof. exact mul_zero. Qed.
Print Assumptions C70_zero.

(** A reduced scalar other than 0 gives zeros on low-order inputs only, on the curve and on the twist. *)
Theorem C70_reduced : forall B, shipped B -> forall u s, bytes 56 u -> is_scalar s -> sval s < ell ->
  (mp_mul B u s = Ok zeros <-> u_low (le_val u) \/ sval s = 0).
Proof. exact reduced_zero. Qed.
Print Assumptions C70_reduced.

(** X448: a single clamped secret gives zeros on all of the curve, and none does on the twist. *)
Theorem C70_x448 : forall B, shipped B -> forall k u, bytes 56 k -> bytes 56 u ->
  (mp_mul B u (scalar_from_bytes (clamp448 k)) = Ok zeros <-> u_low (le_val u) \/ (u_on_curve (le_val u) /\ le_val (clamp448 k) = 4 * ell)).
Proof. exact x448_zero. Qed.
Print Assumptions C70_x448.

Example C70_case : bytes 56 weak_secret /\ le_val (clamp448 weak_secret) = 4 * ell /\ u_on_curve 5 /\ ~ u_low 5 /\ u_on_twist 6 /\ ~ u_low 6 /\
  forall B, shipped B -> mp_mul B (le_bytes 56 5) (scalar_from_bytes (clamp448 weak_secret)) = Ok zeros.
Proof. exact weak_case. Qed.

(** ** C71 *)
Theorem C71_x448 : forall B, shipped B -> forall k k' u, bytes 56 k -> bytes 56 k' -> bytes 56 u -> ~ u_low (le_val u) ->
  let c := le_val (clamp448 k) in let c' := le_val (clamp448 k') in
  (mp_mul B u (scalar_from_bytes (clamp448 k)) = mp_mul B u (scalar_from_bytes (clamp448 k')) <->
   c = c' \/ (u_on_curve (le_val u) /\ c + c' = 8 * ell) \/ (u_on_twist (le_val u) /\ c + c' = 4 * ell_twist)).
Proof. exact x448_equal. Qed.
Print Assumptions C71_x448.

Theorem C71_at_most_two : forall B, shipped B -> forall k1 k2 k3 u, bytes 56 k1 -> bytes 56 k2 -> bytes 56 k3 -> bytes 56 u -> ~ u_low (le_val u) ->
  mp_mul B u (scalar_from_bytes (clamp448 k1)) = mp_mul B u (scalar_from_bytes (clamp448 k2)) ->
  mp_mul B u (scalar_from_bytes (clamp448 k1)) = mp_mul B u (scalar_from_bytes (clamp448 k3)) ->
  le_val (clamp448 k1) = le_val (clamp448 k2) \/ le_val (clamp448 k1) = le_val (clamp448 k3) \/ le_val (clamp448 k2) = le_val (clamp448 k3).
Proof. exact x448_two. Qed.
Print Assumptions C71_at_most_two.

Theorem C71_edwards : forall B, shipped B -> forall s s', is_scalar s -> is_scalar s' -> (sig_public B s = sig_public B s' <-> sval s mod ell = sval s' mod ell).
Proof. exact edwards_keys. Qed.
Print Assumptions C71_edwards.

Theorem C71_decaf : forall B, shipped B -> forall s s', is_scalar s -> is_scalar s' ->
  (api_run B (public_key s) = api_run B (public_key s') <-> sval s mod ell = sval s' mod ell).
Proof. exact decaf_keys. Qed.
Print Assumptions C71_decaf.

Theorem C71_shared : forall B, shipped B -> forall b s s', bytes 56 b -> decaf_ok b -> is_scalar s -> is_scalar s' ->
  (api_run B (shared_secret b s) = api_run B (shared_secret b s') <-> b = repeat 0 56 \/ sval s mod ell = sval s' mod ell).
Proof. exact decaf_shared. Qed.
Print Assumptions C71_shared.

(** Keys of random scalars: every key is hit by as many of the 2^912 strings as any other, up to one. *)
Theorem C71_random_edwards : forall B, shipped B -> forall n, 0 <= n < ell ->
  exists L, NoDup L /\ (forall r, In r L <-> bytes 114 r /\ exists s, scalar_random r = Ok s /\ sig_public B s = Ok (rfc8032_public n)) /\
    (Z.of_nat (length L) = 2 ^ 912 / ell \/ Z.of_nat (length L) = 2 ^ 912 / ell + 1).
Proof. exact random_edwards. Qed.
Print Assumptions C71_random_edwards.

Theorem C71_random_decaf : forall B, shipped B -> forall b, bytes 56 b -> decaf_ok b ->
  exists L, NoDup L /\ (forall r, In r L <-> bytes 114 r /\ exists s, scalar_random r = Ok s /\ api_run B (public_key s) = Ok (Some b)) /\
    (Z.of_nat (length L) = 2 ^ 912 / ell \/ Z.of_nat (length L) = 2 ^ 912 / ell + 1).
Proof. exact random_decaf. Qed.
Print Assumptions C71_random_decaf.

(** Two secrets with the same key on the curve, two on the twist, and one with a different key. *)
Example C71_case :
  (bytes 56 secret_2 /\ bytes 56 secret_3 /\ le_val (clamp448 secret_2) <> le_val (clamp448 secret_3) /\ le_val (clamp448 secret_2) + le_val (clamp448 secret_3) = 8 * ell) /\
  (bytes 56 secret_4 /\ bytes 56 secret_5 /\ le_val (clamp448 secret_4) <> le_val (clamp448 secret_5) /\ le_val (clamp448 secret_4) + le_val (clamp448 secret_5) = 4 * ell_twist) /\
  (bytes 56 secret_1 /\ le_val (clamp448 secret_1) <> le_val (clamp448 secret_2) /\ le_val (clamp448 secret_1) + le_val (clamp448 secret_2) <> 8 * ell).
Proof. exact pair_case. Qed.
