(** The Edwards curve and Curve448 as the same integers (for C102). *)
Require Import ZArith List.
From Verif Require Import Base SpecParams SpecField SpecCurve SpecMontgomery SpecTwist FieldBackend ScalarModel TwistedModel ScalarMulModel EdwardsModel MontgomeryModel SpecExponentEd SpecLine.
Open Scope Z_scope.
Open Scope res_scope.

(** The coordinate y^2 / x^2 of RFC 7748, section 4.2, with 0 for x = 0. *)
Definition ed_u (P : point) : F := (snd P * snd P * finv (fst P * fst P))%F.
(** g generates Curve448, and the Edwards point n (SpecExponentEd.v) has the coordinate of 2 n g. *)
Definition bridges (g : mpoint) : Prop := generates (1)%F ell g /\ forall n, ed_u (multiple n) = line_u (1)%F ell g (2 * n).
(** A public key made on the Edwards curve, a shared secret made of its Montgomery form. *)
Definition mixed_secret (B : backend) (P : EdPoint B) (a b : scalar) : res (list Z) := Q <- ed_scalar_mul B P a ;; u <- ed_to_montgomery B Q ;; mp_mul B u b.
