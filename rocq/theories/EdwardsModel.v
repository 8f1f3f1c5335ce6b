(** Model of src/curve/edwards/*.rs: the public [ExtendedPoint] and [CompressedEdwardsY]. *)
Require Import ZArith List Bool.
From Verif Require Import Base FieldBackend FieldModel ScalarModel TwistedModel ScalarMulModel.
Import ListNotations.
Open Scope Z_scope.
Open Scope res_scope.

Section EdwardsModel.
Variable B : backend.
Let fe := fe B.
Let add := fe_add B.
Let sub := fe_sub B.
Let mul := fe_mul B.
Let square := fe_square B.
Let negate := fe_negate B.
Let zero := fe_zero B.
Let one := fe_one B.
Let select := fe_select B.
Let invert := fe_invert B.
Let ct_eq := fe_ct_eq B.

(** extended.rs:27-36. *)
Definition ed_select (a b : EdPoint B) (choice : bool) : res (EdPoint B) :=
  X <- select (edX a) (edX b) choice ;;
  Y <- select (edY a) (edY b) choice ;;
  Z <- select (edZ a) (edZ b) choice ;;
  T <- select (edT a) (edT b) choice ;;
  Ok (mkEd X Y Z T).

(** affine.rs:11-16. *)
Definition eda_identity : EdAffine B := mkEdA zero one.
(** affine.rs:17-24. *)
Definition eda_to_extended (self : EdAffine B) : res (EdPoint B) :=
  T <- mul (edAx self) (edAy self) ;;
  Ok (mkEd (edAx self) (edAy self) one T).

(** extended.rs:41-66, [CompressedEdwardsY::decompress] on 57 bytes.  [split_last] gives the last byte and the rest;
    [sign >> 7] of a byte is 0 or 1. *)
Definition ed_decompress (b : list Z) : res (option (EdPoint B)) :=
  let sign := last b 0 in
  let y_bytes := removelast b in
  y <- fe_from_bytes B y_bytes ;;
  yy <- square y ;;
  dyy <- mul (EDWARDS_D B) yy ;;
  numerator <- sub one yy ;;
  denominator <- sub one dyy ;;
  ' (x, is_res) <- fe_sqrt_ratio B numerator denominator ;;
  if negb is_res then Ok None else
  let compressed_sign_bit := shr sign 7 =? 1 in
  is_negative <- fe_is_negative B x ;;
  x <- fe_cond_negate B x (xorb compressed_sign_bit is_negative) ;;
  r <- eda_to_extended (mkEdA x y) ;;
  Ok (Some r).

(** extended.rs:69-86, [ct_eq] and [==]. *)
Definition ed_ct_eq (self other : EdPoint B) : res bool :=
  XZ <- mul (edX self) (edZ other) ;;
  ZX <- mul (edZ self) (edX other) ;;
  YZ <- mul (edY self) (edZ other) ;;
  ZY <- mul (edZ self) (edY other) ;;
  a <- ct_eq XZ ZX ;;
  b <- ct_eq YZ ZY ;;
  Ok (a && b).

(** extended.rs:96-103 (and [default], 89-93). *)
Definition ed_identity : EdPoint B := mkEd zero one one zero.
(** extended.rs:105-107, with the constant GOLDILOCKS_BASE_POINT. *)
Definition ed_generator : EdPoint B := mkEd (BASE_X B) (BASE_Y B) (BASE_Z B) (BASE_T B).

(** extended.rs:230-240. *)
Definition ed_to_affine (self : EdPoint B) : res (EdAffine B) :=
  INV_Z <- invert (edZ self) ;;
  x <- mul (edX self) INV_Z ;;
  x <- fe_strong_reduce B x ;;
  y <- mul (edY self) INV_Z ;;
  y <- fe_strong_reduce B y ;;
  Ok (mkEdA x y).

(** extended.rs:109-120: the bytes of the MontgomeryPoint. *)
Definition ed_to_montgomery (self : EdPoint B) : res (list Z) :=
  affine <- ed_to_affine self ;;
  yy <- square (edAy affine) ;;
  dyy <- mul (EDWARDS_D B) yy ;;
  t1 <- sub one dyy ;;
  t1 <- mul yy t1 ;;
  t2 <- sub one yy ;;
  t2 <- invert t2 ;;
  u <- mul t1 t2 ;;
  fe_to_bytes B u.

(** extended.rs:180-206. *)
Definition ed_add (self other : EdPoint B) : res (EdPoint B) :=
  aXX <- mul (edX self) (edX other) ;;
  dT <- mul (EDWARDS_D B) (edT self) ;;
  dTT <- mul dT (edT other) ;;
  ZZ <- mul (edZ self) (edZ other) ;;
  YY <- mul (edY self) (edY other) ;;
  s1 <- mul (edX self) (edY other) ;;
  s2 <- mul (edY self) (edX other) ;;
  x_1 <- add s1 s2 ;;
  x_2 <- sub ZZ dTT ;;
  X <- mul x_1 x_2 ;;
  y_1 <- sub YY aXX ;;
  y_2 <- add ZZ dTT ;;
  Y <- mul y_1 y_2 ;;
  t_1 <- sub YY aXX ;;
  s1 <- mul (edX self) (edY other) ;;
  s2 <- mul (edY self) (edX other) ;;
  t_2 <- add s1 s2 ;;
  T <- mul t_1 t_2 ;;
  z_1 <- sub ZZ dTT ;;
  z_2 <- add ZZ dTT ;;
  Z <- mul z_1 z_2 ;;
  Ok (mkEd X Y Z T).

(** extended.rs:210-212. *)
Definition ed_double (self : EdPoint B) : res (EdPoint B) := ed_add self self.

(** extended.rs:134-156.  [conditional_assign] is [self = conditional_select(self, other, choice)]. *)
Definition ed_scalar_mod_four (self : EdPoint B) (s : scalar) : res (EdPoint B) :=
  let s_mod_four := Z.land (hd 0 s) 3 in
  let zero_p := ed_identity in
  let one_p := self in
  two_p <- ed_double one_p ;;
  three_p <- ed_add two_p self ;;
  r <- ed_select ed_identity zero_p (s_mod_four =? 0) ;;
  r <- ed_select r one_p (s_mod_four =? 1) ;;
  r <- ed_select r two_p (s_mod_four =? 2) ;;
  ed_select r three_p (s_mod_four =? 3).

(** extended.rs:244-270, [to_twisted]. *)
Definition ed_to_twisted (self : EdPoint B) : res (TwPoint B) :=
  a <- ed_to_affine self ;;
  ' (x, y, t) <- edwards_isogeny B one (edAx a) (edAy a) ;;
  Ok (mkTw x y one t).

(** extended.rs:122-131 (and the operators [*], 390-407). *)
Definition ed_scalar_mul (self : EdPoint B) (s : scalar) : res (EdPoint B) :=
  tw <- ed_to_twisted self ;;
  v <- variable_base B tw (scalar_div_by_four s) ;;
  partial_result <- tw_to_untwisted B v ;;
  r <- ed_scalar_mod_four self s ;;
  ed_add partial_result r.

(** extended.rs:160-176. *)
Definition ed_compress (self : EdPoint B) : res (list Z) :=
  affine <- ed_to_affine self ;;
  sign <- fe_is_negative B (edAx affine) ;;
  y_bytes <- fe_to_bytes B (edAy affine) ;;
  Ok (y_bytes ++ [shl_u 8 (Z.b2z sign) 7]).

(** extended.rs:214-228. *)
Definition ed_is_on_curve (self : EdPoint B) : res bool :=
  XY <- mul (edX self) (edY self) ;;
  ZT <- mul (edZ self) (edT self) ;;
  YY <- square (edY self) ;;
  XX <- square (edX self) ;;
  ZZ <- square (edZ self) ;;
  TT <- square (edT self) ;;
  lhs <- add YY XX ;;
  t <- mul TT (EDWARDS_D B) ;;
  rhs <- add ZZ t ;;
  e <- ct_eq XY ZT ;;
  if e then ct_eq lhs rhs else Ok false.

(** extended.rs:272-279 (and [Neg], 363-377). *)
Definition ed_negate (self : EdPoint B) : res (EdPoint B) :=
  X <- negate (edX self) ;;
  T <- negate (edT self) ;;
  Ok (mkEd X (edY self) (edZ self) T).
(** extended.rs:281-288. *)
Definition ed_torque (self : EdPoint B) : res (EdPoint B) :=
  X <- negate (edX self) ;;
  Y <- negate (edY self) ;;
  Ok (mkEd X Y (edZ self) (edT self)).

(** constants.rs:15-18. *)
Definition BASEPOINT_ORDER : scalar :=
  [0xab5844f3; 0x2378c292; 0x8dc58f55; 0x216cc272; 0xaed63690; 0xc44edb49; 0x7cca23e9; 0xffffffff;
   0xffffffff; 0xffffffff; 0xffffffff; 0xffffffff; 0xffffffff; 0x3fffffff].
(** extended.rs:299-301. *)
Definition ed_is_torsion_free (self : EdPoint B) : res bool :=
  r <- ed_scalar_mul self BASEPOINT_ORDER ;;
  ed_ct_eq r ed_identity.

(** extended.rs:327-332 ([-], and [-=] through it). *)
Definition ed_sub (self other : EdPoint B) : res (EdPoint B) :=
  n <- ed_negate other ;;
  ed_add self n.
(** extended.rs:346-356, [Sum]. *)
Fixpoint ed_sum_loop (l : list (EdPoint B)) (acc : EdPoint B) : res (EdPoint B) :=
  match l with
  | [] => Ok acc
  | item :: l' => acc <- ed_add acc item ;; ed_sum_loop l' acc
  end.
Definition ed_sum (l : list (EdPoint B)) : res (EdPoint B) := ed_sum_loop l ed_identity.
End EdwardsModel.
