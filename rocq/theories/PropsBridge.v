(** Property C102: Edwards points and Montgomery strings are the same integers.

    Reading guide.  [multiple n]: the Edwards point n, n times a point of order 4 l (SpecExponentEd.v; every point is one, C99); [line_string 1 ell g n]: the
    string of the coordinate of n g on Curve448, [line_u] that coordinate, [generates]: SpecLine.v; [bridges g]: g generates Curve448 and the Edwards
    point n has the coordinate of 2 n g, with y^2 / x^2 for coordinate (SpecBridge.v).  [mixed_secret B P a b]: P times a, its Montgomery form, times b by the
    ladder (SpecBridge.v).  [ed_calls e], [ed_exponent e]: the calls and the integer of a program over
    Edwards points, as in C99.  The ladder multiplies by the next even number. *)
Require Import ZArith List Bool.
From Verif Require Import Base SpecParams SpecField SpecCurve SpecEncoding SpecMontgomery SpecTwist FieldBackend Backends ScalarModel TwistedModel ScalarMulModel EdwardsModel PointSpec MontgomeryModel ApiExpr ApiRun
  SpecExponentEd SpecLine SpecBridge BridgeMain.
Import ListNotations.
Open Scope Z_scope.
Open Scope res_scope.

(** One generator fits all Edwards points. *)
Theorem C102_bridge : exists g, bridges g.
Proof. exact bridge_exists. Qed.
Print Assumptions C102_bridge.

(** to_montgomery of a point, of a program, and what it reaches. *)
Theorem C102_point : forall g, bridges g -> forall B, shipped B -> forall P n, ed_valid B P -> ed_affine B P = multiple n ->
  ed_to_montgomery B P = Ok (line_string (1)%F ell g (2 * n)).
Proof. exact bridge_point. Qed.
Print Assumptions C102_point.
Theorem C102_program : forall g, bridges g -> forall B, shipped B -> forall e, ed_inputs_ok e ->
  api_run B (AEdToMontgomery (ed_calls e)) = Ok (Some (line_string (1)%F ell g (2 * ed_exponent e))).
Proof. exact bridge_program. Qed.
Print Assumptions C102_program.
Theorem C102_image : forall g, bridges g -> forall B, shipped B -> forall m,
  (exists P, ed_valid B P /\ ed_to_montgomery B P = Ok (line_string (1)%F ell g m)) <-> (2 | m).
Proof. exact bridge_image. Qed.
Print Assumptions C102_image.

(** The generators are the same integer, which gives the public keys. *)
Theorem C102_generator : forall g, bridges g -> forall B, shipped B -> mp_generator = line_string (1)%F ell g (2 * (ell + 1)).
Proof. exact bridge_generator. Qed.
Print Assumptions C102_generator.
Theorem C102_public : forall g, bridges g -> forall B, shipped B -> forall s, is_scalar s ->
  mp_mul B mp_generator s = Ok (line_string (1)%F ell g (2 * (ell + 1) * (sval s + sval s mod 2))).
Proof. exact bridge_public. Qed.
Print Assumptions C102_public.

(** The ladder after the map, and the map after the Edwards multiplication. *)
Theorem C102_ladder : forall g, bridges g -> forall B, shipped B -> forall P n s, ed_valid B P -> ed_affine B P = multiple n -> is_scalar s ->
  (u <- ed_to_montgomery B P ;; mp_mul B u s) = Ok (line_string (1)%F ell g (2 * n * (sval s + sval s mod 2))).
Proof. exact bridge_ladder. Qed.
Print Assumptions C102_ladder.
Theorem C102_multiple : forall g, bridges g -> forall B, shipped B -> forall P n s, ed_valid B P -> ed_affine B P = multiple n -> is_scalar s ->
  (Q <- ed_scalar_mul B P s ;; ed_to_montgomery B Q) = Ok (line_string (1)%F ell g (2 * (n * sval s))).
Proof. exact bridge_mul. Qed.
Print Assumptions C102_multiple.

(** Exactly when the two agree, which shows where tests miss the ladder's fault with odd scalars. *)
Theorem C102_agree : forall B, shipped B -> forall P n s, ed_valid B P -> ed_affine B P = multiple n -> is_scalar s ->
  ((u <- ed_to_montgomery B P ;; mp_mul B u s) = (Q <- ed_scalar_mul B P s ;; ed_to_montgomery B Q) <->
   Z.even (sval s) = true \/ (ell | n) \/ (2 * ell | n * (2 * sval s + 1))).
Proof. exact bridge_agree. Qed.
Print Assumptions C102_agree.

(** The generator: with 1 they differ; with (l - 1) / 2, which is odd, they agree. *)
Example C102_case : let h := digits 32 14 ((ell - 1) / 2) in is_scalar h /\ Z.even (sval h) = false /\
  forall B, shipped B -> ed_valid B (ed_generator B) /\ ed_affine B (ed_generator B) = multiple (ell + 1) /\
    (u <- ed_to_montgomery B (ed_generator B) ;; mp_mul B u h) = (Q <- ed_scalar_mul B (ed_generator B) h ;; ed_to_montgomery B Q) /\
    (u <- ed_to_montgomery B (ed_generator B) ;; mp_mul B u (digits 32 14 1)) <> (Q <- ed_scalar_mul B (ed_generator B) (digits 32 14 1) ;; ed_to_montgomery B Q).
Proof. exact bridge_case. Qed.
Print Assumptions C102_case.

(** Public keys made on the Edwards curve and shared secrets made by the ladder: when both sides get the same secret, for any point, for even scalars (so for
    decoded X448 secrets), and for the generator. *)
Theorem C102_mixed : forall B, shipped B -> forall P n a b, ed_valid B P -> ed_affine B P = multiple n -> is_scalar a -> is_scalar b ->
  (mixed_secret B P a b = mixed_secret B P b a <-> line_same ell (2 * n * (sval a * (sval b + sval b mod 2))) (2 * n * (sval b * (sval a + sval a mod 2)))).
Proof. exact mixed. Qed.
Print Assumptions C102_mixed.
Theorem C102_mixed_even : forall B, shipped B -> forall P a b, ed_valid B P -> is_scalar a -> is_scalar b -> Z.even (sval a) = true -> Z.even (sval b) = true ->
  mixed_secret B P a b = mixed_secret B P b a.
Proof. exact mixed_even. Qed.
Print Assumptions C102_mixed_even.
Theorem C102_mixed_x448 : forall B, shipped B -> forall P k k', ed_valid B P -> bytes 56 k -> bytes 56 k' ->
  let a := scalar_from_bytes (clamp448 k) in let b := scalar_from_bytes (clamp448 k') in mixed_secret B P a b = mixed_secret B P b a.
Proof. exact mixed_x448. Qed.
Print Assumptions C102_mixed_x448.
Theorem C102_mixed_generator : forall B, shipped B -> forall a b, is_scalar a -> is_scalar b ->
  (mixed_secret B (ed_generator B) a b = mixed_secret B (ed_generator B) b a <->
   (ell | sval a * (sval b + sval b mod 2) - sval b * (sval a + sval a mod 2)) \/ (ell | sval a * (sval b + sval b mod 2) + sval b * (sval a + sval a mod 2))).
Proof. exact mixed_generator. Qed.
Print Assumptions C102_mixed_generator.

(** 2 and 4 are even; with 1 and 2 the two sides get different secrets. *)
Example C102_mixed_case : is_scalar (digits 32 14 1) /\ is_scalar (digits 32 14 2) /\ is_scalar (digits 32 14 4) /\ Z.even (sval (digits 32 14 2)) = true /\
  Z.even (sval (digits 32 14 4)) = true /\
  forall B, shipped B -> mixed_secret B (ed_generator B) (digits 32 14 1) (digits 32 14 2) <> mixed_secret B (ed_generator B) (digits 32 14 2) (digits 32 14 1).
Proof. exact mixed_case. Qed.
Print Assumptions C102_mixed_case.
