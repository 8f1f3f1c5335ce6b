(** Model of src/curve/montgomery/montgomery.rs. A [MontgomeryPoint] is its 56 bytes. *)
Require Import ZArith List Bool.
From Verif Require Import Base FieldBackend FieldModel ScalarModel TwistedModel.
Import ListNotations.
Open Scope Z_scope.
Open Scope res_scope.

(** 66-70. *)
Record PMPoint (B : backend) := mkPM { pmU : fe B; pmW : fe B }.
Arguments mkPM {B}. Arguments pmU {B}. Arguments pmW {B}.

(** 24-41. *)
Definition LOW_A : list Z := repeat 0x00 56.
Definition LOW_B : list Z := 0x01 :: repeat 0x00 55.
Definition LOW_C : list Z := 0xfe :: repeat 0xff 27 ++ 0xfe :: repeat 0xff 27.

(** 53-63, [ct_eq] and [==] on the byte arrays. *)
Definition mp_eq (self other : list Z) : bool := list_eqb self other.
(** 114-116. *)
Definition mp_is_low_order (self : list Z) : bool := mp_eq self LOW_A || mp_eq self LOW_B || mp_eq self LOW_C.
(** 123-130. *)
Definition mp_generator : list Z := 0x05 :: repeat 0x00 55.
(** 107-111: [todo!()]. *)
Definition mp_to_edwards {A : Type} (self : list Z) (sign : Z) : res (option A) := Panic.

Section MontgomeryModel.
Variable B : backend.
Let fe := fe B.
Let add := fe_add B.
Let sub := fe_sub B.
Let mul := fe_mul B.
Let square := fe_square B.
Let select := fe_select B.

(** 140-151. *)
Definition pm_select (a b : PMPoint B) (choice : bool) : res (PMPoint B) :=
  U <- select (pmU a) (pmU b) choice ;;
  W <- select (pmW a) (pmW b) choice ;;
  Ok (mkPM U W).
(** subtle 2.x, the default [conditional_swap]. *)
Definition pm_cond_swap (a b : PMPoint B) (choice : bool) : res (PMPoint B * PMPoint B) :=
  a' <- pm_select a b choice ;;
  b' <- pm_select b a choice ;;
  Ok (a', b').

(** 153-189: the new P and Q. *)
Definition differential_add_and_double (P Q : PMPoint B) (affine_PmQ : fe) : res (PMPoint B * PMPoint B) :=
  t0 <- add (pmU P) (pmW P) ;;
  t1 <- sub (pmU P) (pmW P) ;;
  t2 <- add (pmU Q) (pmW Q) ;;
  t3 <- sub (pmU Q) (pmW Q) ;;
  t4 <- square t0 ;;
  t5 <- square t1 ;;
  t6 <- sub t4 t5 ;;
  t7 <- mul t0 t3 ;;
  t8 <- mul t1 t2 ;;
  t9 <- add t7 t8 ;;
  t10 <- sub t7 t8 ;;
  t11 <- square t9 ;;
  t12 <- square t10 ;;
  t13 <- mul (A_PLUS_TWO_OVER_FOUR B) t6 ;;
  t14 <- mul t4 t5 ;;
  t15 <- add t13 t5 ;;
  t16 <- mul t6 t15 ;;
  t17 <- mul affine_PmQ t12 ;;
  let t18 := t11 in
  Ok (mkPM t14 t16, mkPM t18 t17).

(** 192-197. *)
Definition pm_identity : PMPoint B := mkPM (fe_one B) (fe_zero B).
(** 199-202. *)
Definition pm_to_affine (self : PMPoint B) : res (list Z) :=
  i <- fe_invert B (pmW self) ;;
  x <- mul (pmU self) i ;;
  fe_to_bytes B x.
(** 132-137. *)
Definition mp_to_projective (self : list Z) : res (PMPoint B) :=
  u <- fe_from_bytes B self ;;
  Ok (mkPM u (fe_one B)).

(** 84-93: the loop over the bits from the most significant one.  [swap] and [bit] are 0 or 1. *)
Fixpoint ladder_loop (affine_u : fe) (bits : list bool) (swap : bool) (x0 x1 : PMPoint B) : res (PMPoint B) :=
  match bits with
  | [] => Ok x0
  | bit :: bits' =>
      let choice := xorb swap bit in
      ' (x0, x1) <- pm_cond_swap x0 x1 choice ;;
      ' (x0, x1) <- differential_add_and_double x0 x1 affine_u ;;
      ladder_loop affine_u bits' bit x0 x1
  end.
(** 72-97 (and 99-104). *)
Definition mp_mul (self : list Z) (s : scalar) : res (list Z) :=
  affine_u <- fe_from_bytes B self ;;
  x0 <- ladder_loop affine_u (rev (scalar_bits s)) false pm_identity (mkPM affine_u (fe_one B)) ;;
  pm_to_affine x0.
End MontgomeryModel.
