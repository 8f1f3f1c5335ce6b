(** The u-coordinates of Curve448 and of its twist as integers up to sign (for C101). *)
Require Import ZArith List Bool.
From Verif Require Import Base SpecParams SpecField SpecEncoding SpecMontgomery SpecTwist.
Import ListNotations.
Open Scope Z_scope.

(** Curve448 is B = 1, with 4 l points; its twist is B = -1, with 4 l' points. *)
Definition line_order (e : F) (l : Z) : Prop := (e = (1)%F /\ l = ell) \/ (e = (- (1))%F /\ l = ell_twist).
(** Every point is a multiple of g, and exactly the multiples that differ by 4 l are the same. *)
Definition generates (e : F) (l : Z) (g : mpoint) : Prop :=
  on_mont mont_A e g /\
  (forall P, on_mont mont_A e P -> exists n, 0 <= n < 4 * l /\ P = mont_mul mont_A e n g) /\
  (forall m n, 0 <= m -> 0 <= n -> (mont_mul mont_A e m g = mont_mul mont_A e n g <-> m mod (4 * l) = n mod (4 * l))).
(** The coordinate of n g, and its string. *)
Definition line_u (e : F) (l : Z) (g : mpoint) (n : Z) : F := ucoord (mont_mul mont_A e (n mod (4 * l)) g).
Definition line_string (e : F) (l : Z) (g : mpoint) (n : Z) : list Z := le_bytes 56 (fval (line_u e l g n)).
(** A string, canonical or not, stands for n. *)
Definition line_stands (b : list Z) (e : F) (l : Z) (g : mpoint) (n : Z) : Prop := of_Z (le_val b) = line_u e l g n.
(** Integers with one coordinate: equal up to sign, or both 0 or 2 l. *)
Definition line_same (l m n : Z) : Prop := (4 * l | m - n) \/ (4 * l | m + n) \/ ((2 * l | m) /\ (2 * l | n)).
