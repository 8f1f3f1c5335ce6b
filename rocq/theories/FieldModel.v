(** Model of src/field/mod.rs: the functions shared by both backends. *)
Require Import ZArith List Bool.
From Verif Require Import Base FieldBackend.
Import ListNotations.
Open Scope res_scope.

Section FieldModel.
Variable B : backend.
Let fe := fe B.
Let mul := fe_mul B.
Let square := fe_square B.

(** mod.rs:18-28.  [ct_eq] on byte arrays is equality. *)
Definition fe_ct_eq (a b : fe) : res bool :=
  x <- fe_to_bytes B a ;;
  y <- fe_to_bytes B b ;;
  Ok (list_eqb x y).
(** mod.rs:33-35. *)
Definition fe_is_zero (a : fe) : res bool := fe_ct_eq a (fe_zero B).

(** mod.rs:61-72.  [n = n - 1] on a u32: panics for n = 0. *)
Fixpoint square_loop (n : nat) (a : fe) : res fe :=
  match n with
  | O => Ok a
  | S n' => r <- square a ;; square_loop n' r
  end.
Definition square_n (a : fe) (n : nat) : res fe :=
  result <- square a ;;
  match n with
  | O => Panic
  | S n' => square_loop n' result
  end.

(** mod.rs:38-59. *)
Definition fe_invert (self : fe) : res fe :=
  let _1 := self in
  _10 <- square _1 ;;
  _11 <- mul _1 _10 ;;
  _110 <- square _11 ;;
  _111 <- mul _1 _110 ;;
  _111000 <- square_n _111 3 ;;
  _111111 <- mul _111 _111000 ;;
  t <- square_n _111111 6 ;;
  x12 <- mul t _111111 ;;
  t <- square_n x12 12 ;;
  x24 <- mul t x12 ;;
  i34 <- square_n x24 6 ;;
  x30 <- mul _111111 i34 ;;
  t <- square_n i34 18 ;;
  x48 <- mul t x24 ;;
  t <- square_n x48 48 ;;
  x96 <- mul t x48 ;;
  t <- square_n x96 96 ;;
  x192 <- mul t x96 ;;
  t <- square_n x192 30 ;;
  x222 <- mul t x30 ;;
  t <- square x222 ;;
  x223 <- mul t _1 ;;
  t <- square_n x223 223 ;;
  t <- mul t x222 ;;
  t <- square_n t 2 ;;
  mul t _1.

(** mod.rs:77-113. *)
Definition fe_inverse_square_root (self : fe) : res (fe * bool) :=
  l1 <- square self ;;
  l2 <- mul l1 self ;;
  l1 <- square l2 ;;
  l2 <- mul l1 self ;;
  l1 <- square_n l2 3 ;;
  l0 <- mul l2 l1 ;;
  l1 <- square_n l0 3 ;;
  l0 <- mul l2 l1 ;;
  l2 <- square_n l0 9 ;;
  l1 <- mul l0 l2 ;;
  l0 <- mul l1 l1 ;;
  l2 <- mul l0 self ;;
  l0 <- square_n l2 18 ;;
  l2 <- mul l1 l0 ;;
  l0 <- square_n l2 37 ;;
  l1 <- mul l2 l0 ;;
  l0 <- square_n l1 37 ;;
  l1 <- mul l2 l0 ;;
  l0 <- square_n l1 111 ;;
  l2 <- mul l1 l0 ;;
  l0 <- square l2 ;;
  l1 <- mul l0 self ;;
  l0 <- square_n l1 223 ;;
  l1 <- mul l2 l0 ;;
  l2 <- square l1 ;;
  l0 <- mul l2 self ;;
  is_residue <- fe_ct_eq l0 (fe_one B) ;;
  Ok (l1, is_residue).

(** mod.rs:116-125. *)
Definition fe_sqrt_ratio (u v : fe) : res (fe * bool) :=
  x <- mul u v ;;
  ' (inv_sqrt_x, is_res) <- fe_inverse_square_root x ;;
  zero_u <- fe_ct_eq u (fe_zero B) ;;
  r <- mul inv_sqrt_x u ;;
  Ok (r, zero_u || is_res).
End FieldModel.
