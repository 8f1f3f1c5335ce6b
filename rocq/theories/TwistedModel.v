(** Model of src/curve/twedwards/*.rs: the point types of the twisted curve and their arithmetic, over either field
    backend.  Struct fields are computed in source order; each Rust operator is one bind. *)
Require Import ZArith List Bool.
From Verif Require Import Base FieldBackend FieldModel.
Import ListNotations.
Open Scope res_scope.

(** edwards/extended.rs:20-25 and edwards/affine.rs:5-8, twedwards/extended.rs:11-16 and affine.rs:13-17,
    extensible.rs:15-21, projective.rs:16-21, affine.rs:85-89. *)
Record EdPoint (B : backend) := mkEd { edX : fe B; edY : fe B; edZ : fe B; edT : fe B }.
Record EdAffine (B : backend) := mkEdA { edAx : fe B; edAy : fe B }.
Record TwPoint (B : backend) := mkTw { twX : fe B; twY : fe B; twZ : fe B; twT : fe B }.
Record TwAffine (B : backend) := mkTwA { twAx : fe B; twAy : fe B }.
Record XtPoint (B : backend) := mkXt { xtX : fe B; xtY : fe B; xtZ : fe B; xtT1 : fe B; xtT2 : fe B }.
Record PNiels (B : backend) := mkPN { pnYpX : fe B; pnYmX : fe B; pnTd : fe B; pnZ : fe B }.
Record ANiels (B : backend) := mkAN { anYpX : fe B; anYmX : fe B; anTd : fe B }.
Arguments mkEd {B}. Arguments edX {B}. Arguments edY {B}. Arguments edZ {B}. Arguments edT {B}.
Arguments mkEdA {B}. Arguments edAx {B}. Arguments edAy {B}.
Arguments mkTw {B}. Arguments twX {B}. Arguments twY {B}. Arguments twZ {B}. Arguments twT {B}.
Arguments mkTwA {B}. Arguments twAx {B}. Arguments twAy {B}.
Arguments mkXt {B}. Arguments xtX {B}. Arguments xtY {B}. Arguments xtZ {B}. Arguments xtT1 {B}. Arguments xtT2 {B}.
Arguments mkPN {B}. Arguments pnYpX {B}. Arguments pnYmX {B}. Arguments pnTd {B}. Arguments pnZ {B}.
Arguments mkAN {B}. Arguments anYpX {B}. Arguments anYmX {B}. Arguments anTd {B}.

Section TwistedModel.
Variable B : backend.
Let fe := fe B.
Let add := fe_add B.
Let sub := fe_sub B.
Let mul := fe_mul B.
Let square := fe_square B.
Let negate := fe_negate B.
Let zero := fe_zero B.
Let one := fe_one B.
Let select := fe_select B.
Let invert := fe_invert B.
Let ct_eq := fe_ct_eq B.

(** subtle 2.x, [ConditionallySelectable::conditional_swap]: two conditional assignments. *)
Definition fe_cond_swap (a b : fe) (choice : bool) : res (fe * fe) :=
  a' <- select a b choice ;;
  b' <- select b a choice ;;
  Ok (a', b').

(** ** extensible.rs *)

(** 23-40, [ct_eq] and [==]. *)
Definition xt_ct_eq (self other : XtPoint B) : res bool :=
  XZ <- mul (xtX self) (xtZ other) ;;
  ZX <- mul (xtZ self) (xtX other) ;;
  YZ <- mul (xtY self) (xtZ other) ;;
  ZY <- mul (xtZ self) (xtY other) ;;
  a <- ct_eq XZ ZX ;;
  b <- ct_eq YZ ZY ;;
  Ok (a && b).

(** 42-50. *)
Definition xt_identity : XtPoint B := mkXt zero one one zero one.

(** 53-69. *)
Definition xt_double (self : XtPoint B) : res (XtPoint B) :=
  A <- square (xtX self) ;;
  B_ <- square (xtY self) ;;
  t1 <- square (xtZ self) ;;
  t2 <- square (xtZ self) ;;
  C <- add t1 t2 ;;
  D <- negate A ;;
  t <- add (xtX self) (xtY self) ;;
  t <- square t ;;
  t <- sub t A ;;
  E <- sub t B_ ;;
  G <- add D B_ ;;
  F <- sub G C ;;
  H <- sub D B_ ;;
  X <- mul E F ;;
  Y <- mul G H ;;
  Z <- mul F G ;;
  Ok (mkXt X Y Z E H).

(** 77-93. *)
Definition xt_add_extended (self : XtPoint B) (other : TwPoint B) : res (XtPoint B) :=
  A <- mul (xtX self) (twX other) ;;
  B_ <- mul (xtY self) (twY other) ;;
  t <- mul (xtT1 self) (xtT2 self) ;;
  t <- mul t (twT other) ;;
  C <- mul t (TWISTED_D B) ;;
  D <- mul (xtZ self) (twZ other) ;;
  s1 <- add (xtX self) (xtY self) ;;
  s2 <- add (twX other) (twY other) ;;
  t <- mul s1 s2 ;;
  t <- sub t A ;;
  E <- sub t B_ ;;
  F <- sub D C ;;
  G <- add D C ;;
  H <- add B_ A ;;
  X <- mul E F ;;
  Y <- mul G H ;;
  Z <- mul F G ;;
  Ok (mkXt X Y Z E H).

(** 97-113. *)
Definition xt_sub_extended (self : XtPoint B) (other : TwPoint B) : res (XtPoint B) :=
  A <- mul (xtX self) (twX other) ;;
  B_ <- mul (xtY self) (twY other) ;;
  t <- mul (xtT1 self) (xtT2 self) ;;
  t <- mul t (twT other) ;;
  C <- mul t (TWISTED_D B) ;;
  D <- mul (xtZ self) (twZ other) ;;
  s1 <- add (xtX self) (xtY self) ;;
  s2 <- sub (twY other) (twX other) ;;
  t <- mul s1 s2 ;;
  t <- add t A ;;
  E <- sub t B_ ;;
  F <- add D C ;;
  G <- sub D C ;;
  H <- sub B_ A ;;
  X <- mul E F ;;
  Y <- mul G H ;;
  Z <- mul F G ;;
  Ok (mkXt X Y Z E H).

(** 117-132. *)
Definition xt_add_affine_niels (self : XtPoint B) (other : ANiels B) : res (XtPoint B) :=
  t <- sub (xtY self) (xtX self) ;;
  A <- mul (anYmX other) t ;;
  t <- add (xtX self) (xtY self) ;;
  B_ <- mul (anYpX other) t ;;
  t <- mul (anTd other) (xtT1 self) ;;
  C <- mul t (xtT2 self) ;;
  D <- add B_ A ;;
  E <- sub B_ A ;;
  F <- sub (xtZ self) C ;;
  G <- add (xtZ self) C ;;
  X <- mul E F ;;
  Y <- mul G D ;;
  Z <- mul F G ;;
  Ok (mkXt X Y Z E D).

(** 138-156. *)
Definition xt_add_projective_niels (self : XtPoint B) (other : PNiels B) : res (XtPoint B) :=
  Z_ <- mul (xtZ self) (pnZ other) ;;
  t <- sub (xtY self) (xtX self) ;;
  A <- mul t (pnYmX other) ;;
  t <- add (xtY self) (xtX self) ;;
  B_ <- mul t (pnYpX other) ;;
  t <- mul (pnTd other) (xtT1 self) ;;
  C <- mul t (xtT2 self) ;;
  D <- add B_ A ;;
  E <- sub B_ A ;;
  F <- sub Z_ C ;;
  G <- add Z_ C ;;
  X <- mul E F ;;
  Y <- mul G D ;;
  Z <- mul F G ;;
  Ok (mkXt X Y Z E D).

(** 158-165. *)
Definition xt_to_extended (self : XtPoint B) : res (TwPoint B) :=
  T <- mul (xtT1 self) (xtT2 self) ;;
  Ok (mkTw (xtX self) (xtY self) (xtZ self) T).

(** 71-73. *)
Definition xt_add_extensible (self other : XtPoint B) : res (XtPoint B) :=
  o <- xt_to_extended other ;;
  xt_add_extended self o.

(** 167-174. *)
Definition xt_to_projective_niels (self : XtPoint B) : res (PNiels B) :=
  ypx <- add (xtX self) (xtY self) ;;
  ymx <- sub (xtY self) (xtX self) ;;
  z <- add (xtZ self) (xtZ self) ;;
  t <- mul (xtT1 self) (xtT2 self) ;;
  td <- mul t (TWO_TIMES_TWISTED_D B) ;;
  Ok (mkPN ypx ymx td z).

(** ** projective.rs *)

(** 30-39. *)
Definition pn_select (a b : PNiels B) (choice : bool) : res (PNiels B) :=
  ypx <- select (pnYpX a) (pnYpX b) choice ;;
  ymx <- select (pnYmX a) (pnYmX b) choice ;;
  td <- select (pnTd a) (pnTd b) choice ;;
  z <- select (pnZ a) (pnZ b) choice ;;
  Ok (mkPN ypx ymx td z).
(** 40-45. *)
Definition pn_cond_negate (self : PNiels B) (choice : bool) : res (PNiels B) :=
  ' (ymx, ypx) <- fe_cond_swap (pnYmX self) (pnYpX self) choice ;;
  td <- fe_cond_negate B (pnTd self) choice ;;
  Ok (mkPN ypx ymx td (pnZ self)).
(** 48-50. *)
Definition pn_identity : res (PNiels B) := xt_to_projective_niels xt_identity.
(** 51-60. *)
Definition pn_to_extended (self : PNiels B) : res (TwPoint B) :=
  A <- sub (pnYpX self) (pnYmX self) ;;
  B_ <- add (pnYpX self) (pnYmX self) ;;
  X <- mul (pnZ self) A ;;
  Y <- mul (pnZ self) B_ ;;
  Z <- square (pnZ self) ;;
  T <- mul B_ A ;;
  Ok (mkTw X Y Z T).

(** ** extended.rs *)

(** 18-28, 41-45: [ct_eq] and [==]. *)
Definition tw_ct_eq (self other : TwPoint B) : res bool :=
  XZ <- mul (twX self) (twZ other) ;;
  ZX <- mul (twZ self) (twX other) ;;
  YZ <- mul (twY self) (twZ other) ;;
  ZY <- mul (twZ self) (twY other) ;;
  a <- ct_eq XZ ZX ;;
  b <- ct_eq YZ ZY ;;
  Ok (a && b).
(** projective.rs:23-28. *)
Definition pn_eq (self other : PNiels B) : res bool :=
  a <- pn_to_extended self ;;
  b <- pn_to_extended other ;;
  tw_ct_eq a b.
(** 30-39. *)
Definition tw_select (a b : TwPoint B) (choice : bool) : res (TwPoint B) :=
  X <- select (twX a) (twX b) choice ;;
  Y <- select (twY a) (twY b) choice ;;
  Z <- select (twZ a) (twZ b) choice ;;
  T <- select (twT a) (twT b) choice ;;
  Ok (mkTw X Y Z T).
(** 56-63. *)
Definition tw_identity : TwPoint B := mkTw zero one one zero.
(** 66-68, with the constant TWISTED_EDWARDS_BASE_POINT. *)
Definition tw_generator : TwPoint B := mkTw (TWBASE_X B) (TWBASE_Y B) (TWBASE_Z B) (TWBASE_T B).
(** 78-86. *)
Definition tw_to_extensible (self : TwPoint B) : XtPoint B := mkXt (twX self) (twY self) (twZ self) (twT self) one.
(** 70-72. *)
Definition tw_double (self : TwPoint B) : res (TwPoint B) :=
  d <- xt_double (tw_to_extensible self) ;; xt_to_extended d.
(** 74-76. *)
Definition tw_add (self other : TwPoint B) : res (TwPoint B) :=
  s <- xt_add_extended (tw_to_extensible self) other ;; xt_to_extended s.
(** 89-102. *)
Definition tw_to_affine (self : TwPoint B) : res (TwAffine B) :=
  INV_Z <- invert (twZ self) ;;
  x <- mul (twX self) INV_Z ;;
  x <- fe_strong_reduce B x ;;
  y <- mul (twY self) INV_Z ;;
  y <- fe_strong_reduce B y ;;
  Ok (mkTwA x y).
(** 107-130 (the same text as edwards/extended.rs:244-267): new x, new y and their product. *)
Definition edwards_isogeny (a x y : fe) : res (fe * fe * fe) :=
  xy <- mul x y ;;
  x_numerator <- add xy xy ;;
  yy <- square y ;;
  xx <- square x ;;
  axx <- mul a xx ;;
  x_denom <- sub yy axx ;;
  t <- invert x_denom ;;
  new_x <- mul x_numerator t ;;
  yy <- square y ;;
  xx <- square x ;;
  axx <- mul a xx ;;
  y_numerator <- add yy axx ;;
  two <- add one one ;;
  yy <- square y ;;
  t <- sub two yy ;;
  xx <- square x ;;
  axx <- mul a xx ;;
  y_denom <- sub t axx ;;
  t <- invert y_denom ;;
  new_y <- mul y_numerator t ;;
  T <- mul new_x new_y ;;
  Ok (new_x, new_y, T).
(** 132-134. *)
Definition tw_to_untwisted (self : TwPoint B) : res (EdPoint B) :=
  a <- tw_to_affine self ;;
  ' (x, y, t) <- edwards_isogeny (fe_minus_one B) (twAx a) (twAy a) ;;
  Ok (mkEd x y one t).
(** 137-151. *)
Definition tw_is_on_curve (self : TwPoint B) : res bool :=
  XY <- mul (twX self) (twY self) ;;
  ZT <- mul (twZ self) (twT self) ;;
  YY <- square (twY self) ;;
  XX <- square (twX self) ;;
  ZZ <- square (twZ self) ;;
  TT <- square (twT self) ;;
  lhs <- sub YY XX ;;
  t <- mul TT (TWISTED_D B) ;;
  rhs <- add ZZ t ;;
  e <- ct_eq XY ZT ;;
  if e then ct_eq lhs rhs else Ok false.
(** 153-160. *)
Definition tw_negate (self : TwPoint B) : res (TwPoint B) :=
  X <- negate (twX self) ;;
  T <- negate (twT self) ;;
  Ok (mkTw X (twY self) (twZ self) T).
(** 162-169. *)
Definition tw_torque (self : TwPoint B) : res (TwPoint B) :=
  X <- negate (twX self) ;;
  Y <- negate (twY self) ;;
  Ok (mkTw X Y (twZ self) (twT self)).

(** ** affine.rs *)

(** 26-31. *)
Definition twa_identity : TwAffine B := mkTwA zero one.
(** 34-39. *)
Definition twa_is_on_curve (self : TwAffine B) : res bool :=
  xx <- square (twAx self) ;;
  yy <- square (twAy self) ;;
  l <- sub yy xx ;;
  t <- mul (TWISTED_D B) xx ;;
  t <- mul t yy ;;
  r <- add one t ;;
  ct_eq l r.
(** 41-46. *)
Definition twa_negate (self : TwAffine B) : res (TwAffine B) :=
  x <- negate (twAx self) ;;
  Ok (mkTwA x (twAy self)).
(** 48-58. *)
Definition twa_add (self other : TwAffine B) : res (TwAffine B) :=
  t1 <- mul (twAy self) (twAy other) ;;
  t2 <- mul (twAx self) (twAx other) ;;
  y_numerator <- add t1 t2 ;;
  t <- mul (TWISTED_D B) (twAx self) ;;
  t <- mul t (twAx other) ;;
  t <- mul t (twAy self) ;;
  t <- mul t (twAy other) ;;
  y_denominator <- sub one t ;;
  t1 <- mul (twAx self) (twAy other) ;;
  t2 <- mul (twAy self) (twAx other) ;;
  x_numerator <- add t1 t2 ;;
  t <- mul (TWISTED_D B) (twAx self) ;;
  t <- mul t (twAx other) ;;
  t <- mul t (twAy self) ;;
  t <- mul t (twAy other) ;;
  x_denominator <- add one t ;;
  i <- invert x_denominator ;;
  x <- mul x_numerator i ;;
  i <- invert y_denominator ;;
  y <- mul y_numerator i ;;
  Ok (mkTwA x y).
(** derive(PartialEq), 13. *)
Definition twa_eq (self other : TwAffine B) : res bool :=
  e <- ct_eq (twAx self) (twAx other) ;;
  if e then ct_eq (twAy self) (twAy other) else Ok false.
(** 60-68. *)
Definition twa_to_extensible (self : TwAffine B) : XtPoint B :=
  mkXt (twAx self) (twAy self) one (twAx self) (twAy self).
(** 78-80. *)
Definition twa_to_extended (self : TwAffine B) : res (TwPoint B) := xt_to_extended (twa_to_extensible self).
(** 70-76. *)
Definition twa_to_affine_niels (self : TwAffine B) : res (ANiels B) :=
  ypx <- add (twAy self) (twAx self) ;;
  ymx <- sub (twAy self) (twAx self) ;;
  t <- mul (twAx self) (twAy self) ;;
  td <- mul t (TWISTED_D B) ;;
  Ok (mkAN ypx ymx td).
(** 92-100. *)
Definition an_select (a b : ANiels B) (choice : bool) : res (ANiels B) :=
  ypx <- select (anYpX a) (anYpX b) choice ;;
  ymx <- select (anYmX a) (anYmX b) choice ;;
  td <- select (anTd a) (anTd b) choice ;;
  Ok (mkAN ypx ymx td).
(** 105-109. *)
Definition an_equals (self other : ANiels B) : res bool :=
  e <- ct_eq (anYmX self) (anYmX other) ;;
  if negb e then Ok false else
  e <- ct_eq (anYpX self) (anYpX other) ;;
  if negb e then Ok false else
  ct_eq (anTd self) (anTd other).
(** 112-118. *)
Definition an_identity : ANiels B := mkAN one one zero.
(** 120-127. *)
Definition an_to_extended (self : ANiels B) : res (TwPoint B) :=
  X <- sub (anYpX self) (anYmX self) ;;
  Y <- add (anYmX self) (anYpX self) ;;
  T <- mul (anYpX self) (anYmX self) ;;
  Ok (mkTw X Y one T).
End TwistedModel.
