(** C90: how wide the integers of the scalar arithmetic have to be. *)
Require Import ZArith List Bool Lia.
From Verif Require Import Base SpecParams ScalarModel Steps StepScalar WidthScalarSpec WidthScalar.
Import ListNotations.
Open Scope Z_scope.

(** The statements are about all scalars below a bound B; with B = 2^448 these are all scalars, with B = ell the reduced ones.  The widths
    are the same for every B from ell on: u bits in place of u64, i in place of i64 and r in place of i8. *)

(** Addition: 33 bits for the sum of two limbs and a carry, 34 bits with the sign for the subtraction of the order. *)
Theorem C90_add : forall B u i r, ell <= B -> u <= 64 /\ i <= 64 /\ r <= 8 ->
  ((forall a b, is_scalar a -> is_scalar b -> sval a < B -> sval b < B -> exists c, scalar_addS panics (short u i r) a b = Ok c /\ scalar_add a b = Ok c) <-> 33 <= u /\ 34 <= i).
Proof. exact add_exact. Qed.
Print Assumptions C90_add.
Example C90_add_case : is_scalar full /\ sval full = ell - 2 /\ scalar_addS panics (short 32 64 8) full full = Panic /\
  scalar_addS panics (short 33 34 0) full full = Ok (0xab5844ef :: tl MODULUS).
Proof. split; [exact full_scalar|]. repeat split; vm_compute; reflexivity. Qed.

(** Subtraction uses no u64. *)
Theorem C90_sub : forall B u i r, ell <= B -> u <= 64 /\ i <= 64 /\ r <= 8 ->
  ((forall a b, is_scalar a -> is_scalar b -> sval a < B -> sval b < B -> exists c, scalar_subS panics (short u i r) a b = Ok c /\ scalar_sub a b = Ok c) <-> 34 <= i).
Proof. exact sub_exact. Qed.
Print Assumptions C90_sub.
Example C90_sub_case : scalar_subS panics (short 64 33 8) scalar_zero scalar_one = Panic /\
  scalar_subS panics (short 0 34 0) scalar_zero scalar_one = Ok (0xab5844f2 :: tl MODULUS).
Proof. split; vm_compute; reflexivity. Qed.

(** Montgomery multiplication uses u64 to the last bit, and so does the product. *)
Theorem C90_montgomery : forall B u i r, ell <= B -> u <= 64 /\ i <= 64 /\ r <= 8 ->
  ((forall a b, is_scalar a -> is_scalar b -> sval a < B -> sval b < B -> exists c, montgomery_multiplyS panics (short u i r) a b = Ok c /\ montgomery_multiply a b = Ok c) <-> u = 64 /\ 34 <= i).
Proof. exact mont_exact. Qed.
Print Assumptions C90_montgomery.
Example C90_montgomery_case : montgomery_multiplyS panics (short 63 64 8) full full = Panic /\ exists c, montgomery_multiplyS panics (short 64 34 0) full full = Ok c.
Proof. split; [vm_compute; reflexivity|]. eexists. vm_compute. reflexivity. Qed.
Theorem C90_mul : forall B u i r, ell <= B -> u <= 64 /\ i <= 64 /\ r <= 8 ->
  ((forall a b, is_scalar a -> is_scalar b -> sval a < B -> sval b < B -> exists c, scalar_mulS panics (short u i r) a b = Ok c /\ scalar_mul a b = Ok c) <-> u = 64 /\ 34 <= i).
Proof. exact mul_exact. Qed.
Print Assumptions C90_mul.
Example C90_mul_case : scalar_mulS panics (short 63 64 8) full full = Panic /\ scalar_mulS panics (short 64 34 0) full full = Ok (scalar_from_u32 4).
Proof. split; vm_compute; reflexivity. Qed.

(** Halving. *)
Theorem C90_halve : forall B u i r, ell <= B -> u <= 64 /\ i <= 64 /\ r <= 8 ->
  ((forall a, is_scalar a -> sval a < B -> exists c, scalar_halveS panics (short u i r) a = Ok c /\ scalar_halve a = Ok c) <-> 33 <= u).
Proof. exact halve_exact. Qed.
Print Assumptions C90_halve.
Example C90_halve_case : scalar_halveS panics (short 32 64 8) full = Panic /\ exists c, scalar_halveS panics (short 33 0 0) full = Ok c /\ sval c = ell - 1.
Proof. split; [vm_compute; reflexivity|]. eexists. split; vm_compute; reflexivity. Qed.

(** The digits to base 16: six bits with the sign. *)
Theorem C90_radix_16 : forall B u i r, ell <= B -> u <= 64 /\ i <= 64 /\ r <= 8 ->
  ((forall a, is_scalar a -> sval a < B -> exists c, to_radix_16S panics (short u i r) a = Ok c /\ to_radix_16 a = Ok c) <-> 6 <= r).
Proof. exact radix_exact. Qed.
Print Assumptions C90_radix_16.
Example C90_radix_16_case : to_radix_16S panics (short 64 64 5) full = Panic /\ exists c, to_radix_16S panics (short 0 0 6) full = Ok c.
Proof. split; [vm_compute; reflexivity|]. eexists. vm_compute. reflexivity. Qed.
