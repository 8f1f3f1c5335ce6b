(** Properties C01-C14: the scalar type (src/field/scalar.rs).

    Reading guide. [is_scalar s]: s is a value of the Rust type Scalar (14 limbs, each below 2^32).
    [sval s]: the integer those limbs stand for. [bytes n b]: b is a Rust [u8; n]. [le_val b]: its
    little-endian value. [ell]: the group order (SpecParams.v). [Ok r]: returns r without panicking. *)
Require Import ZArith List Lia.
From Verif Require Import Base SpecParams ScalarModel ScalarProofs ScalarProofs2 ScalarMain ValueMain.
Import ListNotations.
Open Scope Z_scope.
Open Scope res_scope.

(** ** C01 *)
Theorem C01_scalar_bytes_bijection :
  (forall b, bytes 56 b -> is_scalar (scalar_from_bytes b) /\ sval (scalar_from_bytes b) = le_val b /\
     scalar_to_bytes (scalar_from_bytes b) = b) /\
  (forall s, is_scalar s -> bytes 56 (scalar_to_bytes s) /\ le_val (scalar_to_bytes s) = sval s /\
     scalar_from_bytes (scalar_to_bytes s) = s) /\
  (forall a b, is_scalar a -> is_scalar b -> (scalar_eqb a b = true <-> sval a = sval b)).
Proof. exact scalar_bytes_bijection. Qed.
Print Assumptions C01_scalar_bytes_bijection.

Example C01_case : let b := map Z.of_nat (seq 200 56) in
  bytes 56 b /\ nth 1 (scalar_from_bytes b) 0 = 0xcfcecdcc /\ scalar_to_bytes (scalar_from_bytes b) = b.
Proof. split; [split; [reflexivity|repeat constructor; vm_compute; congruence]|split; vm_compute; reflexivity]. Qed.

(** ** C02 *)
Theorem C02_from_canonical_bytes : forall b, bytes 57 b ->
  (forall s, scalar_from_canonical_bytes b = Ok (Some s) <-> is_scalar s /\ sval s = le_val b /\ le_val b < ell) /\
  (ell <= le_val b -> scalar_from_canonical_bytes b = Ok None).
Proof. exact (fun b Hb => conj (fun s => canonical_bytes_iff b s Hb) (canonical_bytes_reject b Hb)). Qed.
Print Assumptions C02_from_canonical_bytes.

Theorem C02_canonical_roundtrip :
  (forall b s, bytes 57 b -> scalar_from_canonical_bytes b = Ok (Some s) -> scalar_to_bytes_rfc_8032 s = b) /\
  (forall s, is_scalar s -> sval s < ell -> scalar_from_canonical_bytes (scalar_to_bytes_rfc_8032 s) = Ok (Some s)).
Proof. exact canonical_bytes_roundtrip. Qed.
Print Assumptions C02_canonical_roundtrip.

Example C02_case :
  scalar_from_canonical_bytes (le_bytes 57 (ell - 1)) = Ok (Some (digits 32 14 (ell - 1))) /\
  scalar_from_canonical_bytes (le_bytes 57 ell) = Ok None /\
  scalar_from_canonical_bytes (le_bytes 57 (2 ^ 448)) = Ok None.
Proof. repeat split; vm_compute; reflexivity. Qed.

(** ** C03, C04 *)
Theorem C03_scalar_add : forall a b, is_scalar a -> is_scalar b -> sval a < ell -> sval b < ell ->
  exists r, scalar_add a b = Ok r /\ is_scalar r /\ sval r = (sval a + sval b) mod ell.
Proof. exact scalar_add_mod. Qed.
Print Assumptions C03_scalar_add.

Example C03_case : let a := digits 32 14 (ell - 3) in let b := digits 32 14 (2 ^ 445 + 7) in
  is_scalar a /\ is_scalar b /\ sval a < ell /\ sval b < ell /\ scalar_add a b = Ok (digits 32 14 (2 ^ 445 + 4)).
Proof.
  split; [split; [reflexivity|repeat constructor; vm_compute; congruence]|].
  split; [split; [reflexivity|repeat constructor; vm_compute; congruence]|].
  split; [vm_compute; reflexivity|]. split; vm_compute; reflexivity.
Qed.

Theorem C04_scalar_sub : forall a b, is_scalar a -> is_scalar b -> sval a < ell -> sval b < ell ->
  exists r, scalar_sub a b = Ok r /\ is_scalar r /\ sval r = (sval a - sval b) mod ell.
Proof. exact scalar_sub_mod. Qed.
Print Assumptions C04_scalar_sub.

Example C04_case : scalar_sub (digits 32 14 (2 ^ 40)) (digits 32 14 (2 ^ 445)) = Ok (digits 32 14 (ell + 2 ^ 40 - 2 ^ 445)).
Proof. vm_compute. reflexivity. Qed.

(** ** C05, C06: unreduced inputs. The property fails; the exact set of good inputs: *)
Theorem C05_scalar_add_exact_domain : forall a b, is_scalar a -> is_scalar b ->
  exists r, scalar_add a b = Ok r /\ is_scalar r /\
    (sval r mod ell = (sval a + sval b) mod ell <-> sval a + sval b < 2 ^ 448 + ell).
Proof. exact scalar_add_exact_domain. Qed.
Print Assumptions C05_scalar_add_exact_domain.

(** What the code returns for every pair of inputs: past 2^448 + ell it adds back the low bit of each word of ell. *)
Theorem C05_scalar_add_value : forall a b, is_scalar a -> is_scalar b ->
  exists r, scalar_add a b = Ok r /\ is_scalar r /\
    sval r = (if sval a + sval b <? ell then sval a + sval b
              else if sval a + sval b <? 2 ^ 448 + ell then sval a + sval b - ell
              else sval a + sval b - ell - 2 ^ 448 + eval 32 (map (fun d => d mod 2) (digits 32 14 ell))).
Proof. exact scalar_add_value. Qed.
Print Assumptions C05_scalar_add_value.

Theorem C05_scalar_add_refuted : exists a b r, is_scalar a /\ is_scalar b /\ scalar_add a b = Ok r /\
  sval r mod ell <> (sval a + sval b) mod ell.
Proof. exact scalar_add_wrong. Qed.
Print Assumptions C05_scalar_add_refuted.

Example C05_case : sval (digits 32 14 (2 ^ 448 - 1)) + sval (digits 32 14 (ell + 1)) = 2 ^ 448 + ell /\
  scalar_add (digits 32 14 (2 ^ 448 - 1)) (digits 32 14 ell) = Ok (digits 32 14 (2 ^ 448 - 1)).
Proof. split; vm_compute; reflexivity. Qed.

Theorem C06_scalar_sub_exact_domain : forall a b, is_scalar a -> is_scalar b ->
  exists r, scalar_sub a b = Ok r /\ is_scalar r /\
    (sval r mod ell = (sval a - sval b) mod ell <-> sval b <= sval a + ell).
Proof. exact scalar_sub_exact_domain. Qed.
Print Assumptions C06_scalar_sub_exact_domain.

Theorem C06_scalar_sub_value : forall a b, is_scalar a -> is_scalar b ->
  exists r, scalar_sub a b = Ok r /\ is_scalar r /\
    sval r = (if sval b <=? sval a then sval a - sval b
              else if sval b <=? sval a + ell then sval a - sval b + ell
              else sval a - sval b + ell + 2 ^ 448).
Proof. exact scalar_sub_value. Qed.
Print Assumptions C06_scalar_sub_value.

Theorem C06_scalar_sub_refuted : exists a b r, is_scalar a /\ is_scalar b /\ scalar_sub a b = Ok r /\
  sval r mod ell <> (sval a - sval b) mod ell.
Proof. exact scalar_sub_wrong. Qed.
Print Assumptions C06_scalar_sub_refuted.

Example C06_case : scalar_sub (digits 32 14 5) (digits 32 14 (ell + 5)) = Ok (digits 32 14 0) /\
  scalar_sub (digits 32 14 5) (digits 32 14 (ell + 6)) = Ok (digits 32 14 (2 ^ 448 - 1)).
Proof. split; vm_compute; reflexivity. Qed.

(** ** C07 *)
Theorem C07_scalar_mul : forall a b, is_scalar a -> is_scalar b ->
  exists r, scalar_mul a b = Ok r /\ is_scalar r /\ sval r = (sval a * sval b) mod ell.
Proof. exact scalar_mul_ok. Qed.
Print Assumptions C07_scalar_mul.

Example C07_case : is_scalar top_scalar /\ sval top_scalar = 2 ^ 448 - 1 /\
  scalar_mul top_scalar top_scalar = Ok (digits 32 14 ((2 ^ 448 - 1) * (2 ^ 448 - 1) mod ell)).
Proof. split; [apply top_scalar_ok|]. split; vm_compute; reflexivity. Qed.

(** ** C08 *)
Theorem C08_scalar_invert : forall s, is_scalar s -> sval s mod ell <> 0 ->
  exists i, scalar_invert s = Ok i /\ is_scalar i /\ sval i < ell /\
    scalar_mul i s = Ok scalar_one /\ scalar_mul s i = Ok scalar_one.
Proof. exact scalar_invert_mul. Qed.
Print Assumptions C08_scalar_invert.

Theorem C08_scalar_invert_of_zero : forall s, is_scalar s -> sval s mod ell = 0 -> scalar_invert s = Ok scalar_zero.
Proof. exact scalar_invert_zero. Qed.
Print Assumptions C08_scalar_invert_of_zero.

Example C08_case : sval top_scalar mod ell <> 0 /\ sval (digits 32 14 (3 * ell)) mod ell = 0 /\ sval (digits 32 14 (3 * ell)) <> 0.
Proof. repeat split; vm_compute; discriminate. Qed.

(** ** C09 *)
Theorem C09_scalar_halve : forall s, is_scalar s ->
  exists r, scalar_halve s = Ok r /\ is_scalar r /\ (2 * sval r) mod ell = sval s mod ell /\ (sval s < ell -> sval r < ell).
Proof. exact scalar_halve_mod. Qed.
Print Assumptions C09_scalar_halve.

Theorem C09_scalar_halve_value : forall s, is_scalar s ->
  exists r, scalar_halve s = Ok r /\ is_scalar r /\
    sval r = (if Z.even (sval s) then sval s else sval s + ell) / 2.
Proof. exact scalar_halve_value. Qed.
Print Assumptions C09_scalar_halve_value.

Example C09_case : scalar_halve top_scalar = Ok (digits 32 14 ((2 ^ 448 - 1 + ell) / 2)).
Proof. vm_compute. reflexivity. Qed.

(** ** C10 *)
Theorem C10_wide_reduction : forall b, bytes 114 b ->
  exists r, scalar_from_bytes_mod_order_wide b = Ok r /\ is_scalar r /\ sval r = le_val b mod ell.
Proof. exact from_bytes_wide_ok. Qed.
Print Assumptions C10_wide_reduction.

Example C10_case : bytes 114 (repeat 255 114) /\
  scalar_from_bytes_mod_order_wide (repeat 255 114) = Ok (digits 32 14 ((2 ^ 912 - 1) mod ell)).
Proof. split; [split; [reflexivity|repeat constructor; vm_compute; congruence]|vm_compute; reflexivity]. Qed.

(** ** C11 *)
Theorem C11_random_uniform : forall v, is_scalar v -> sval v < ell ->
  exists L, NoDup L /\ (forall b, In b L <-> bytes 114 b /\ scalar_random b = Ok v) /\
    (Z.of_nat (length L) = 2 ^ 912 / ell \/ Z.of_nat (length L) = 2 ^ 912 / ell + 1).
Proof. exact scalar_random_count. Qed.
Print Assumptions C11_random_uniform.

Theorem C11_random_canonical : forall b, bytes 114 b ->
  exists r, scalar_random b = Ok r /\ is_scalar r /\ sval r < ell.
Proof. exact scalar_random_canonical. Qed.
Print Assumptions C11_random_canonical.

Example C11_case : is_scalar scalar_one /\ sval scalar_one < ell /\ scalar_random (1 :: repeat 0 113) = Ok scalar_one.
Proof. split; [apply scalar_one_ok|]. split; vm_compute; reflexivity. Qed.

(** ** C12 *)
Theorem C12_bits : forall s, is_scalar s ->
  length (scalar_bits s) = 448%nat /\
  forall i, (i < 448)%nat -> nth i (scalar_bits s) false = Z.testbit (sval s) (Z.of_nat i).
Proof. exact scalar_bits_spec. Qed.
Print Assumptions C12_bits.

Example C12_case : nth 445 (scalar_bits (digits 32 14 (2 ^ 445))) false = true /\
  nth 444 (scalar_bits (digits 32 14 (2 ^ 445))) false = false.
Proof. split; vm_compute; reflexivity. Qed.

(** ** C13 *)
Theorem C13_no_panic :
  (forall a b, is_scalar a -> is_scalar b ->
     scalar_add a b <> Panic /\ scalar_sub a b <> Panic /\ scalar_mul a b <> Panic /\
     scalar_invert a <> Panic /\ scalar_halve a <> Panic) /\
  (forall b, bytes 57 b -> scalar_from_canonical_bytes b <> Panic) /\
  (forall b, bytes 114 b -> scalar_from_bytes_mod_order_wide b <> Panic /\ scalar_random b <> Panic) /\
  (forall a, is_scalar a -> to_radix_16 a <> Panic).
Proof. exact scalar_no_panic. Qed.
Print Assumptions C13_no_panic.

Example C13_case : exists r, scalar_sub scalar_zero top_scalar = Ok r /\ to_radix_16 top_scalar <> Panic.
Proof. eexists. split; [vm_compute; reflexivity|vm_compute; discriminate]. Qed.

(** ** C14 ([canonical s]: is_scalar s and sval s < ell) *)
Theorem C14_field_laws : forall a b c, canonical a -> canonical b -> canonical c ->
  (exists r, (x <- scalar_add a b ;; scalar_add x c) = Ok r /\ canonical r /\ (x <- scalar_add b c ;; scalar_add a x) = Ok r) /\
  (exists r, scalar_add a b = Ok r /\ canonical r /\ scalar_add b a = Ok r) /\
  scalar_add a scalar_zero = Ok a /\
  (x <- scalar_sub scalar_zero a ;; scalar_add a x) = Ok scalar_zero /\
  (exists r, scalar_sub a b = Ok r /\ canonical r /\ (x <- scalar_sub scalar_zero b ;; scalar_add a x) = Ok r) /\
  (exists r, (x <- scalar_mul a b ;; scalar_mul x c) = Ok r /\ canonical r /\ (x <- scalar_mul b c ;; scalar_mul a x) = Ok r) /\
  (exists r, scalar_mul a b = Ok r /\ canonical r /\ scalar_mul b a = Ok r) /\
  scalar_mul a scalar_one = Ok a /\
  (exists r, (x <- scalar_add b c ;; scalar_mul a x) = Ok r /\ canonical r /\
     (x <- scalar_mul a b ;; y <- scalar_mul a c ;; scalar_add x y) = Ok r) /\
  (a <> scalar_zero -> (x <- scalar_invert a ;; scalar_mul a x) = Ok scalar_one) /\
  scalar_one <> scalar_zero.
Proof. exact scalar_field_laws. Qed.
Print Assumptions C14_field_laws.

Example C14_case : canonical (digits 32 14 (ell - 1)).
Proof. split; [split; [reflexivity|repeat constructor; vm_compute; congruence]|vm_compute; reflexivity]. Qed.
