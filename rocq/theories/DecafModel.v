(** Model of src/decaf/decaf.rs, src/decaf/ops.rs and src/ristretto/ristretto.rs.  [DecafPoint] and [RistrettoPoint] are
    newtypes around the twisted [ExtendedPoint]; [CompressedDecaf] and [CompressedRistretto] around 56 bytes. *)
Require Import ZArith List Bool.
From Verif Require Import Base FieldBackend FieldModel ScalarModel TwistedModel ScalarMulModel.
Import ListNotations.
Open Scope res_scope.

Section DecafModel.
Variable B : backend.
Let add := fe_add B.
Let sub := fe_sub B.
Let mul := fe_mul B.
Let square := fe_square B.
Let one := fe_one B.
Let ct_eq := fe_ct_eq B.
Let cneg := fe_cond_negate B.
Let is_negative := fe_is_negative B.

(** ** decaf.rs *)

(** 21-33, [==] on [CompressedDecaf]: equality of the bytes. *)
Definition cd_eq (a b : list Z) : bool := list_eqb a b.
(** 85-87. *)
Definition cd_identity : list Z := repeat 0%Z 56.
(** 41-43. *)
Definition dc_identity : TwPoint B := tw_identity B.
(** 45-47, with constants.rs:9. *)
Definition dc_generator : TwPoint B := tw_generator B.
(** 49-51. *)
Definition dc_equals (self other : TwPoint B) : res bool :=
  XY <- mul (twX self) (twY other) ;;
  YX <- mul (twY self) (twX other) ;;
  ct_eq XY YX.
(** 57-59, and ops.rs:51-62: [Sub]. *)
Definition dc_sub (self other : TwPoint B) : res (TwPoint B) :=
  r <- xt_sub_extended B (tw_to_extensible B self) other ;;
  xt_to_extended B r.
(** 63-81. *)
Definition dc_compress (self : TwPoint B) : res (list Z) :=
  let X := twX self in
  let Y := twY self in
  let Z := twZ self in
  let T := twT self in
  t1 <- add X T ;;
  t2 <- sub X T ;;
  XX_TT <- mul t1 t2 ;;
  t <- square X ;;
  t <- mul t XX_TT ;;
  t <- mul t (NEG_EDWARDS_D B) ;;
  ' (isr, _) <- fe_inverse_square_root B t ;;
  ratio <- mul isr XX_TT ;;
  altx <- mul ratio (DECAF_FACTOR B) ;;
  c <- is_negative altx ;;
  ratio <- cneg ratio c ;;
  t <- mul ratio Z ;;
  k <- sub t T ;;
  t <- mul k (NEG_EDWARDS_D B) ;;
  t <- mul t isr ;;
  s <- mul t X ;;
  c <- is_negative s ;;
  s <- cneg s c ;;
  fe_to_bytes B s.
(** 91-128.  [||] evaluates its right operand only when the left one is false. *)
Definition dc_decompress (self : list Z) : res (option (TwPoint B)) :=
  s <- fe_from_bytes B self ;;
  s_bytes_check <- fe_to_bytes B s ;;
  let s_encoding_is_canonical := list_eqb s_bytes_check self in
  s_is_negative <- is_negative s ;;
  reject <- (if negb s_encoding_is_canonical then Ok true else is_negative s) ;;
  if reject then Ok None else
  ss <- square s ;;
  u1 <- sub one ss ;;
  u2 <- add one ss ;;
  u1_sqr <- square u1 ;;
  t <- mul ss (NEG_FOUR_TIMES_TWISTED_D B) ;;
  v <- add t u1_sqr ;;
  t <- mul v u1_sqr ;;
  ' (I_, ok) <- fe_inverse_square_root B t ;;
  if negb ok then Ok None else
  Dx <- mul I_ u1 ;;
  t <- add s s ;;
  Dxs <- mul t Dx ;;
  t <- mul Dxs I_ ;;
  X <- mul t v ;;
  k <- mul Dxs (DECAF_FACTOR B) ;;
  c <- is_negative k ;;
  X <- cneg X c ;;
  Y <- mul Dx u2 ;;
  let Z := one in
  T <- mul X Y ;;
  Ok (Some (mkTw X Y Z T)).

(** ** ops.rs *)

(** 8-33: the four [Mul] impls are this call. *)
Definition dc_mul (self : TwPoint B) (s : scalar) : res (TwPoint B) := double_and_add B self s.
(** 36-47. *)
Definition dc_add (self other : TwPoint B) : res (TwPoint B) :=
  r <- xt_add_extended B (tw_to_extensible B self) other ;;
  xt_to_extended B r.
(** 66-77. *)
Definition dc_neg (self : TwPoint B) : res (TwPoint B) := tw_negate B self.

(** ** ristretto.rs *)

(** 38-40. *)
Definition rs_identity : TwPoint B := tw_identity B.
(** 42-46. *)
Definition rs_equals (self other : TwPoint B) : res bool :=
  XY <- mul (twX self) (twY other) ;;
  YX <- mul (twY self) (twX other) ;;
  ct_eq XY YX.
(** 48-50 and 58-60: [todo!()]. *)
Definition rs_encode (self : TwPoint B) : res (list Z) := Panic.
Definition rs_decode (self : list Z) : res (option (TwPoint B)) := Panic.
(** 54-56, and 18-30: [==]. *)
Definition cr_identity : list Z := repeat 0%Z 56.
Definition cr_eq (a b : list Z) : bool := list_eqb a b.
End DecafModel.
