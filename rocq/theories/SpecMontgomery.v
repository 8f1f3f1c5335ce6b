(** Montgomery curves B v^2 = u^3 + A u^2 + u with the chord-and-tangent law.

    Curve448 (RFC 7748, section 4.2) is A = 156326, B = 1; its quadratic twist is B = -1, as -1 is not a square. *)
Require Import ZArith List.
Import ListNotations.
From Verif Require Import SpecParams SpecField.
Open Scope F_scope.

(** [None] is the point at infinity. *)
Definition mpoint : Type := option (F * F).

Definition on_mont (A B : F) (P : mpoint) : Prop :=
  match P with
  | None => True
  | Some (u, v) => B * (v * v) = u * u * u + A * (u * u) + u
  end.

Definition mont_third (A B l u1 v1 u2 : F) : mpoint :=
  let u3 := B * (l * l) - A - u1 - u2 in Some (u3, l * (u1 - u3) - v1).

Definition mont_add (A B : F) (P Q : mpoint) : mpoint :=
  match P, Q with
  | None, _ => Q
  | _, None => P
  | Some (u1, v1), Some (u2, v2) =>
      if feqb u1 u2 then
        if feqb v1 (- v2) then None
        else mont_third A B ((of_Z 3 * (u1 * u1) + of_Z 2 * A * u1 + 1) / (of_Z 2 * B * v1)) u1 v1 u1
      else mont_third A B ((v2 - v1) / (u2 - u1)) u1 v1 u2
  end.

(** P added to itself n times. *)
Fixpoint mont_mul_nat (A B : F) (n : nat) (P : mpoint) : mpoint :=
  match n with
  | O => None
  | S n' => mont_add A B P (mont_mul_nat A B n' P)
  end.
Definition mont_mul (A B : F) (n : Z) (P : mpoint) : mpoint := mont_mul_nat A B (Z.to_nat n) P.

Definition mont_neg (P : mpoint) : mpoint := match P with None => None | Some (u, v) => Some (u, - v) end.

(** The u-coordinate, with 0 for the point at infinity. *)
Definition ucoord (P : mpoint) : F := match P with None => 0 | Some (u, _) => u end.

Definition mont_A : F := of_Z 156326.
(** Curve448 is B = 1 and its twist is B = -1. *)
Definition curve_or_twist (B : F) : Prop := B = 1 \/ B = - (1).

(** RFC 7748, section 5: decodeScalar448 clears the two lowest bits of the first byte and sets the highest bit of the last. *)
Definition clamp448 (k : list Z) : list Z :=
  match k with
  | [] => []
  | x :: r => Z.land x 252 :: removelast r ++ [Z.lor (last r 0%Z) 128]
  end.

(** The encoding of 0. *)
Definition zeros : list Z := repeat 0%Z 56.
