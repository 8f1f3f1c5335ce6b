(** Model of src/field/fiat_u64/prime_field.rs over the [fiat_p448_*] functions of the external crate fiat-crypto
    (module p448_solinas_64), which is not part of the repository.  Those functions are a parameter (the record
    [fiat_prims]); what their documentation promises is the predicate [fiat_contract].

    A field element is a list of 8 limbs in radix 2^56 (prime_field.rs:13-14). *)
Require Import ZArith List Bool.
From Verif Require Import Base SpecParams.
Import ListNotations.
Open Scope Z_scope.
Open Scope res_scope.

Definition fe56 : Type := list Z.
Definition val56 (a : fe56) : Z := eval 56 a.

(** Bounds in the documentation of fiat_p448_tight_field_element and fiat_p448_loose_field_element (inclusive). *)
Definition tight56 (a : fe56) : Prop := length a = 8%nat /\ Forall (fun x => 0 <= x <= 0x100000000000000) a.
Definition loose56 (a : fe56) : Prop := length a = 8%nat /\ Forall (fun x => 0 <= x <= 0x300000000000000) a.

Record fiat_prims : Type := mkFiat {
  fiat_relax : list Z -> res (list Z);
  fiat_carry_mul : list Z -> list Z -> res (list Z);
  fiat_carry_square : list Z -> res (list Z);
  fiat_carry : list Z -> res (list Z);
  fiat_add : list Z -> list Z -> res (list Z);
  fiat_sub : list Z -> list Z -> res (list Z);
  fiat_opp : list Z -> res (list Z);
  fiat_selectznz : Z -> list Z -> list Z -> res (list Z);
  fiat_to_bytes : list Z -> res (list Z);
  fiat_from_bytes : list Z -> res (list Z)
}.

(** The documented pre- and postconditions.  [fiat_relax] is documented as the identity; it is called on constants that
    respect the loose but not the tight bound, so the identity is asked for on every loose argument. *)
Record fiat_contract (P : fiat_prims) : Prop := {
  fc_relax : forall a, loose56 a -> fiat_relax P a = Ok a;
  fc_carry_mul : forall a b, loose56 a -> loose56 b ->
    exists r, fiat_carry_mul P a b = Ok r /\ tight56 r /\ val56 r mod p = (val56 a * val56 b) mod p;
  fc_carry_square : forall a, loose56 a ->
    exists r, fiat_carry_square P a = Ok r /\ tight56 r /\ val56 r mod p = (val56 a * val56 a) mod p;
  fc_carry : forall a, loose56 a ->
    exists r, fiat_carry P a = Ok r /\ tight56 r /\ val56 r mod p = val56 a mod p;
  fc_add : forall a b, tight56 a -> tight56 b ->
    exists r, fiat_add P a b = Ok r /\ loose56 r /\ val56 r mod p = (val56 a + val56 b) mod p;
  fc_sub : forall a b, tight56 a -> tight56 b ->
    exists r, fiat_sub P a b = Ok r /\ loose56 r /\ val56 r mod p = (val56 a - val56 b) mod p;
  fc_opp : forall a, tight56 a ->
    exists r, fiat_opp P a = Ok r /\ loose56 r /\ val56 r mod p = (- val56 a) mod p;
  fc_selectznz : forall c a b, array 64 8 a -> array 64 8 b -> c = 0 \/ c = 1 ->
    fiat_selectznz P c a b = Ok (if c =? 0 then a else b);
  fc_to_bytes : forall a, tight56 a -> fiat_to_bytes P a = Ok (le_bytes 56 (val56 a mod p));
  fc_from_bytes : forall b, bytes 56 b ->
    exists r, fiat_from_bytes P b = Ok r /\ tight56 r /\ val56 r mod p = le_val b mod p
}.

Section Wrapper.
Variable P : fiat_prims.

(** prime_field.rs:38-49 (and 50-61: forwarding variants). *)
Definition mul56 (a b : fe56) : res fe56 :=
  self_loose <- fiat_relax P a ;;
  rhs_loose <- fiat_relax P b ;;
  fiat_carry_mul P self_loose rhs_loose.
(** prime_field.rs:63-72. *)
Definition add56 (a b : fe56) : res fe56 :=
  result_loose <- fiat_add P a b ;;
  fiat_carry P result_loose.
(** prime_field.rs:73-82. *)
Definition sub56 (a b : fe56) : res fe56 :=
  result_loose <- fiat_sub P a b ;;
  fiat_carry P result_loose.
(** prime_field.rs:180-186. *)
Definition negate56 (a : fe56) : res fe56 :=
  result_loose <- fiat_opp P a ;;
  fiat_carry P result_loose.
(** prime_field.rs:91-101. *)
Definition conditional_select56 (a b : fe56) (choice : bool) : res fe56 :=
  fiat_selectznz P (if choice then 1 else 0) a b.
(** prime_field.rs:84-89. *)
Definition conditional_negate56 (a : fe56) (choice : bool) : res fe56 :=
  self_neg <- negate56 a ;;
  conditional_select56 a self_neg choice.
(** prime_field.rs:172-178. *)
Definition square56 (a : fe56) : res fe56 :=
  self_loose <- fiat_relax P a ;;
  fiat_carry_square P self_loose.
(** prime_field.rs:191-195. *)
Definition strong_reduce56 (a : fe56) : res fe56 :=
  self_loose <- fiat_relax P a ;;
  fiat_carry P self_loose.
(** prime_field.rs:156-167. *)
Definition from_bytes56 (b : list Z) : res fe56 := fiat_from_bytes P b.
Definition to_bytes56 (a : fe56) : res (list Z) := fiat_to_bytes P a.
(** prime_field.rs:137-142. *)
Definition is_negative56 (a : fe56) : res bool :=
  bytes <- to_bytes56 a ;; Ok (Z.land (nth 0 bytes 0) 1 =? 1).
End Wrapper.

(** prime_field.rs:113-132. *)
Definition zero56 : fe56 := [0; 0; 0; 0; 0; 0; 0; 0].
Definition one56 : fe56 := [1; 0; 0; 0; 0; 0; 0; 0].
Definition minus_one56 : fe56 :=
  [144115188075855869; 144115188075855870; 144115188075855870; 144115188075855870;
   144115188075855868; 144115188075855870; 144115188075855870; 144115188075855870].

(** A reference implementation of the fiat-crypto functions, by arithmetic on integers: it shows that the contract can
    be met and makes the fiat backend executable in examples.  It is not a model of the fiat-crypto code. *)
Definition to56 (v : Z) : list Z := digits 56 8 (v mod p).
Definition fiat_reference : fiat_prims := {|
  fiat_relax a := Ok a;
  fiat_carry_mul a b := Ok (to56 (val56 a * val56 b));
  fiat_carry_square a := Ok (to56 (val56 a * val56 a));
  fiat_carry a := Ok (to56 (val56 a));
  fiat_add a b := Ok (to56 (val56 a + val56 b));
  fiat_sub a b := Ok (to56 (val56 a - val56 b));
  fiat_opp a := Ok (to56 (- val56 a));
  fiat_selectznz c a b := Ok (if c =? 0 then a else b);
  fiat_to_bytes a := Ok (le_bytes 56 (val56 a mod p));
  fiat_from_bytes b := Ok (to56 (le_val b))
|}.
