(** Doubling on the u line (for C91). *)
Require Import ZArith.
From Verif Require Import SpecParams SpecField SpecMontgomery.
Open Scope F_scope.

(** The coordinate of 2P, if u is that of P; the same formula on Curve448 and on its twist. *)
Definition u_double (u : F) : F := (u * u - 1) * (u * u - 1) / (of_Z 4 * u * (u * u + mont_A * u + 1)).
(** Equal or inverse to each other. *)
Definition u_pair (u w : F) : Prop := u = w \/ u * w = 1.
