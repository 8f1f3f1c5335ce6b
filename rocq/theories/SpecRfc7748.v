(** X448 as written in RFC 7748, section 5: integers modulo p and byte strings only. *)
Require Import ZArith List.
From Verif Require Import Base SpecParams SpecMontgomery.
Import ListNotations.
Open Scope Z_scope.

Definition rfc_a24 : Z := 39081.

(** x_2, z_2, x_3, z_3 and swap. *)
Record xstate : Type := mkX { x_2 : Z; z_2 : Z; x_3 : Z; z_3 : Z; swap : bool }.

Definition cswap (c : bool) (s : xstate) : xstate :=
  if c then mkX (x_3 s) (z_3 s) (x_2 s) (z_2 s) (swap s) else s.

(** The body of the loop for the bit [k_t]. *)
Definition x448_step (x_1 : Z) (s : xstate) (k_t : bool) : xstate :=
  let s := cswap (xorb (swap s) k_t) s in
  let A := (x_2 s + z_2 s) mod p in
  let AA := A ^ 2 mod p in
  let B := (x_2 s - z_2 s) mod p in
  let BB := B ^ 2 mod p in
  let E := (AA - BB) mod p in
  let C := (x_3 s + z_3 s) mod p in
  let D := (x_3 s - z_3 s) mod p in
  let DA := D * A mod p in
  let CB := C * B mod p in
  mkX (AA * BB mod p) (E * (AA + rfc_a24 * E) mod p) ((DA + CB) ^ 2 mod p) (x_1 * (DA - CB) ^ 2 mod p) k_t.

(** Bits [n - 1] down to 0 of k. *)
Fixpoint x448_loop (x_1 k : Z) (n : nat) (s : xstate) : xstate :=
  match n with
  | O => s
  | S t => x448_loop x_1 k t (x448_step x_1 s (Z.testbit k (Z.of_nat t)))
  end.

Definition x448_ladder (k u : Z) : Z :=
  let s := x448_loop u k 448 (mkX 1 0 u 1 false) in
  let s := cswap (swap s) s in
  x_2 s * z_2 s ^ (p - 2) mod p.

(** [clamp448] is decodeScalar448 before the bytes are read as an integer (SpecMontgomery.v); decodeUCoordinate reduces
    modulo p. *)
Definition rfc_x448 (k u : list Z) : list Z := le_bytes 56 (x448_ladder (le_val (clamp448 k)) (le_val u mod p)).
