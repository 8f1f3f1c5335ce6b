(** Model of the derived traits of MontgomeryPoint, montgomery.rs:43-44. *)
Require Import ZArith List.
From Verif Require Import Base.
Import ListNotations.
Open Scope Z_scope.

(** core::hash::Hasher: a state, [write_usize] and [write]. *)
Record hasher := mkHasher { h_state : Type; h_usize : h_state -> Z -> h_state; h_write : h_state -> list Z -> h_state }.

(** derive(Hash), 43: the field's hash, which core defines for arrays as that of the slice: the length, then the bytes in one [write]. *)
Definition mp_hash (H : hasher) (self : list Z) (state : h_state H) : h_state H :=
  h_write H (h_usize H state (Z.of_nat (length self))) self.

(** derive(Zeroize), 44, with the feature `zeroize`: every byte is overwritten by 0. *)
Definition mp_zeroize (self : list Z) : list Z := map (fun _ => 0) self.
