(** The order of the twist of Curve448 (for C70 and C71): a quarter of it. *)
Require Import ZArith.
From Verif Require Import SpecParams SpecField SpecMontgomery.
Open Scope Z_scope.

Definition ell_twist : Z := 2 ^ 446 + 0x335dc163bb124b65129c96fde933d8d723a70aadc873d6d54a7bb0d.

(** u is the coordinate of a point of Curve448, or of its twist; every u is one or the other, and 0 is both. *)
Definition u_on_curve (u : Z) : Prop := exists v, on_mont mont_A 1 (Some (of_Z u, v)).
Definition u_on_twist (u : Z) : Prop := exists v, on_mont mont_A (fopp 1) (Some (of_Z u, v)).
(** The coordinates of the points of order 1, 2 and 4. *)
Definition u_low (u : Z) : Prop := u mod p = 0 \/ u mod p = 1 \/ u mod p = p - 1.
