(** Properties C36-C41, C57 and C58: the Montgomery ladder.

    Reading guide. A [MontgomeryPoint] is its 56 bytes; [mp_mul B u s] is the ladder. [on_mont mont_A e P]: P is the point
    at infinity or a solution of e v^2 = u^3 + 156326 u^2 + u; e = 1 is Curve448 and e = -1 its twist
    ([curve_or_twist e]). [mont_add], [mont_mul]: chord-and-tangent addition and repeated addition; [ucoord]: the
    u-coordinate, 0 for infinity (SpecMontgomery.v). [zeros]: 56 zero bytes. *)
Require Import ZArith List Bool.
From Verif Require Import Base SpecParams SpecField SpecCurve SpecMontgomery FieldBackend Backends ScalarModel
  TwistedModel ScalarMulModel EdwardsModel PointSpec MontCurves MontgomeryModel MontgomeryMain MontgomeryFacts.
Import ListNotations.
Open Scope F_scope.
Open Scope res_scope.

(** ** C36 *)
Theorem C36_even_scalars : forall B, shipped B -> forall P s, ed_valid B P -> is_scalar s -> Z.even (sval s) = true ->
  exists r, (u <- ed_to_montgomery B P ;; mp_mul B u s) = Ok r /\ (Q <- ed_scalar_mul B P s ;; ed_to_montgomery B Q) = Ok r.
Proof. exact even_scalar. Qed.
Print Assumptions C36_even_scalars.

Example C36_case : forall B, shipped B ->
  ed_valid B (ed_generator B) /\ is_scalar (digits 32 14 200) /\ Z.even (sval (digits 32 14 200)) = true.
Proof. exact even_case. Qed.

(** ** C37 *)
Theorem C37_odd_scalars_refuted : forall B, shipped B -> exists P s, ed_valid B P /\ is_scalar s /\ Z.odd (sval s) = true /\
  (u <- ed_to_montgomery B P ;; mp_mul B u s) <> (Q <- ed_scalar_mul B P s ;; ed_to_montgomery B Q).
Proof. exact odd_refuted. Qed.
Print Assumptions C37_odd_scalars_refuted.

(** What an odd scalar gives instead: one more multiple of P. *)
Theorem C37_odd_scalars_exact : forall B, shipped B -> forall P s, ed_valid B P -> is_scalar s -> Z.odd (sval s) = true ->
  exists r, (u <- ed_to_montgomery B P ;; mp_mul B u s) = Ok r /\
    (Q <- ed_scalar_mul B P s ;; Q' <- ed_add B Q P ;; ed_to_montgomery B Q') = Ok r.
Proof. exact odd_scalar. Qed.
Print Assumptions C37_odd_scalars_exact.

(** ** C38 *)
Theorem C38_ladder_exact : forall B, shipped B -> forall b s, bytes 56 b -> is_scalar s -> let u := of_Z (le_val b) in
  (exists e v, curve_or_twist e /\ on_mont mont_A e (Some (u, v))) /\
  (forall e v, curve_or_twist e -> on_mont mont_A e (Some (u, v)) ->
     mp_mul B b s = Ok (le_bytes 56 (fval (ucoord (mont_mul mont_A e (sval s + sval s mod 2) (Some (u, v))))))).
Proof. exact mul_exact. Qed.
Print Assumptions C38_ladder_exact.

(** The law that [mont_mul] iterates is a group law, on the curve and on the twist. *)
Theorem C38_group_law : forall e, curve_or_twist e -> forall P Q R, on_mont mont_A e P -> on_mont mont_A e Q -> on_mont mont_A e R ->
  on_mont mont_A e (mont_add mont_A e P Q) /\
  mont_add mont_A e (mont_add mont_A e P Q) R = mont_add mont_A e P (mont_add mont_A e Q R) /\
  mont_add mont_A e P Q = mont_add mont_A e Q P /\ mont_add mont_A e P None = P /\ mont_add mont_A e P (mont_neg P) = None.
Proof. exact mont_is_group. Qed.
Print Assumptions C38_group_law.

(** A non-canonical u on the curve with the largest scalar, and a u on the twist. *)
Example C38_case : forall B, shipped B ->
  mp_mul B (le_bytes 56 (p + 5)) (digits 32 14 (2 ^ 448 - 1)) = Ok (le_bytes 56 (fval (ucoord (mont_mul mont_A 1 (2 ^ 448)
    (Some (of_Z 5, of_Z 0x7d235d1295f5b1f66c98ab6e58326fcecbae5d34f55545d060f75dc28df3f6edb8027e2346430d211312c4b150677af76fd7223d457b5b1a)))))) /\
  mp_mul B (le_bytes 56 6) (digits 32 14 6) = Ok (le_bytes 56 (fval (ucoord (mont_mul mont_A (- (1)) 6
    (Some (of_Z 6, of_Z 0xf7da965e96d397bcdda2a754a6f3247a4674e865f63be2b4c041755c8e64ad7f49290ba7db9f5290534a396b67b1fe45c6beba576a26710d)))))).
Proof. exact exact_case. Qed.

(** ** C39 *)
Theorem C39_diffie_hellman : forall B, shipped B -> forall b s t, bytes 56 b -> is_scalar s -> is_scalar t ->
  exists r, (x <- mp_mul B b s ;; mp_mul B x t) = Ok r /\ (x <- mp_mul B b t ;; mp_mul B x s) = Ok r.
Proof. exact dh. Qed.
Print Assumptions C39_diffie_hellman.

(** ** C40 *)
Theorem C40_u_mod_p : forall B, shipped B -> forall b b' s, bytes 56 b -> bytes 56 b' -> is_scalar s ->
  (le_val b mod p = le_val b' mod p)%Z ->
  exists r, mp_mul B b s = Ok r /\ mp_mul B b' s = Ok r /\ bytes 56 r /\ (le_val r < p)%Z.
Proof. exact mod_p. Qed.
Print Assumptions C40_u_mod_p.

(** ** C41 *)
Theorem C41_low_order_sound : forall B, shipped B -> forall b, bytes 56 b -> mp_is_low_order b = true ->
  forall s, is_scalar s -> mp_mul B b s = Ok zeros.
Proof. exact low_order_sound. Qed.
Print Assumptions C41_low_order_sound.

Theorem C41_low_order_canonical : forall B, shipped B -> forall b, bytes 56 b -> (le_val b < p)%Z ->
  (mp_is_low_order b = true <-> forall s, is_scalar s -> mp_mul B b s = Ok zeros).
Proof. exact low_order_complete. Qed.
Print Assumptions C41_low_order_canonical.

Theorem C41_low_order_refuted : forall B, shipped B ->
  exists b, bytes 56 b /\ mp_is_low_order b = false /\ forall s, is_scalar s -> mp_mul B b s = Ok zeros.
Proof. exact low_order_refuted. Qed.
Print Assumptions C41_low_order_refuted.

(** Only the encodings of p and p + 1 are missed. *)
Theorem C41_low_order_exact : forall B, shipped B -> forall b, bytes 56 b ->
  ((forall s, is_scalar s -> mp_mul B b s = Ok zeros) <-> mp_is_low_order b = true \/ le_val b = p \/ le_val b = (p + 1)%Z).
Proof. exact low_order_exact. Qed.
Print Assumptions C41_low_order_exact.

(** The inputs that every multiplication collapses, as field elements. *)
Theorem C41_collapse_exact : forall B, shipped B -> forall b, bytes 56 b ->
  ((forall s, is_scalar s -> mp_mul B b s = Ok zeros) <->
   (le_val b mod p = 0 \/ le_val b mod p = 1 \/ le_val b mod p = p - 1)%Z).
Proof. exact collapse_iff. Qed.
Print Assumptions C41_collapse_exact.

Example C41_case : forall B, shipped B -> bytes 56 LOW_C /\ (le_val LOW_C < p)%Z /\ mp_is_low_order LOW_C = true /\
  mp_is_low_order mp_generator = false /\ exists s, is_scalar s /\ mp_mul B mp_generator s <> Ok zeros.
Proof. exact low_case. Qed.

(** ** C57 *)
Theorem C57_generators_agree : forall B, shipped B -> ed_to_montgomery B (ed_generator B) = Ok mp_generator.
Proof. exact generator_u. Qed.
Print Assumptions C57_generators_agree.

Theorem C57_projective_roundtrip : forall B, shipped B -> forall b, bytes 56 b ->
  (x <- mp_to_projective B b ;; pm_to_affine B x) = Ok (le_bytes 56 (le_val b mod p)).
Proof. exact projective_roundtrip. Qed.
Print Assumptions C57_projective_roundtrip.

(** ** C58 *)
Theorem C58_x448 : forall B, shipped B -> forall k b, bytes 56 k -> bytes 56 b -> let u := of_Z (le_val b) in
  (exists e v, curve_or_twist e /\ on_mont mont_A e (Some (u, v))) /\
  (forall e v, curve_or_twist e -> on_mont mont_A e (Some (u, v)) ->
     mp_mul B b (scalar_from_bytes (clamp448 k)) = Ok (le_bytes 56 (fval (ucoord (mont_mul mont_A e (le_val (clamp448 k)) (Some (u, v))))))).
Proof. exact x448. Qed.
Print Assumptions C58_x448.

Example C58_case : clamp448 (repeat 255%Z 56) = 252%Z :: repeat 255%Z 55 /\ clamp448 (repeat 0%Z 56) = repeat 0%Z 55 ++ [128%Z].
Proof. exact clamp_case. Qed.
