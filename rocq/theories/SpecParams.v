(** The two numbers everything is stated with. *)
Require Import ZArith.
Open Scope Z_scope.

(** The field prime of the Goldilocks curves (readme: "2^448 - 2^224 -1"). *)
Definition p : Z := 2 ^ 448 - 2 ^ 224 - 1.

(** The order of the prime-order subgroup (RFC 8032, section 5.2; scalar.rs:10). *)
Definition ell : Z := 2 ^ 446 - 0x8335dc163bb124b65129c96fde933d8d723a70aadc873d6d54a7bb0d.
