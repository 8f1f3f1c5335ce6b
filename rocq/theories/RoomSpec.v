(** Specification for C87: limbs out of range.

    The limbs of a field element of the 32-bit backend stay below 2^28 + 2^9 ([wf28]); these are the wider sets on which the
    functions are looked at here. *)
Require Import ZArith List.
From Verif Require Import Base SpecParams FieldU32Model WidthSpec.
Import ListNotations.
Open Scope Z_scope.

(** Sixteen limbs, none above [L]. *)
Definition room (L : Z) (a : fe28) : Prop := length a = 16%nat /\ Forall (fun x => 0 <= x <= L) a.

(** Sixteen u32 limbs such that the sums of a limb and the one eight places up fit into u32. *)
Definition halves_fit (a : fe28) : Prop :=
  words16 a /\ Forall (fun xy => fst xy + snd xy < 2 ^ 32) (combine (firstn 8 a) (skipn 8 a)).

(** The largest L with 38 L^2 < 2^64; a little more than 2.59 * 2^28. *)
Definition square_room : Z := 696735698.

(** The call returns limbs of a number that is [v] modulo p. *)
Definition right (r : res fe28) (v : Z) : Prop := exists c, r = Ok c /\ val28 c mod p = v mod p.
