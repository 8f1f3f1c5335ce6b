(** Counting strings. *)
Require Import ZArith List.
Import ListNotations.

(** Exactly n strings satisfy D. *)
Definition exactly (n : Z) (D : list Z -> Prop) : Prop :=
  exists l : list (list Z), NoDup l /\ Z.of_nat (length l) = n /\ forall b, In b l <-> D b.
