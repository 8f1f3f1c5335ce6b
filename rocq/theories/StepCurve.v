(** The curve code, as in FieldModel.v, TwistedModel.v, ScalarMulModel.v, EdwardsModel.v, MontgomeryModel.v and DecafModel.v,
    and the interpreter of API programs of ApiExpr.v, as a sequence of steps.  [machine] lists the operations they are made of:
    field arithmetic, the functions on scalars, the recoded digits of scalars, and [m_branch]: every [if] of this code that
    depends on data asks it.  (Combining two [Choice]s with [&], [|], [^] is not a step.)
    Of the backend B only the type of field elements and the constants are used.  Functions no API call leads to are left out. *)
Require Import ZArith List Bool.
From Verif Require Import Base FieldBackend ScalarModel TwistedModel ScalarMulModel EdwardsModel MontgomeryModel DecafModel ApiExpr Steps.
Import ListNotations.
Open Scope Z_scope.
Open Scope step_scope.

Record machine (M : steps) (B : backend) : Type := mkMachine {
  m_add : fe B -> fe B -> run M (fe B);
  m_sub : fe B -> fe B -> run M (fe B);
  m_mul : fe B -> fe B -> run M (fe B);
  m_square : fe B -> run M (fe B);
  m_negate : fe B -> run M (fe B);
  m_strong_reduce : fe B -> run M (fe B);
  m_select : fe B -> fe B -> bool -> run M (fe B);
  m_cond_negate : fe B -> bool -> run M (fe B);
  m_is_negative : fe B -> run M bool;
  m_from_bytes : list Z -> run M (fe B);
  m_to_bytes : fe B -> run M (list Z);
  m_branch : bool -> run M bool;
  m_sign : list Z -> run M bool;               (** the top bit of the last of 57 bytes *)
  m_sign_byte : bool -> run M Z;               (** a choice, shifted to the top of a byte *)
  m_sc_add : scalar -> scalar -> run M scalar;
  m_sc_sub : scalar -> scalar -> run M scalar;
  m_sc_mul : scalar -> scalar -> run M scalar;
  m_sc_invert : scalar -> run M scalar;
  m_sc_halve : scalar -> run M scalar;
  m_sc_canonical : list Z -> run M (option scalar);
  m_sc_wide : list Z -> run M scalar;
  m_div4 : scalar -> run M scalar;
  m_bits : scalar -> run M (list bool);
  digit : Type;
  m_radix16 : scalar -> run M (list digit);
  m_mod_four : scalar -> run M digit;          (** the two low bits *)
  m_digit_abs : digit -> run M (digit * digit);  (** absolute value and sign *)
  m_digit_choice : digit -> run M bool;        (** the sign as a [Choice] *)
  m_digit_ct_eq : digit -> Z -> run M bool;    (** [ct_eq] with a constant *)
  m_digit_eq : digit -> Z -> run M bool;       (** [==] with a constant *)
  m_bytes_eq : list Z -> list Z -> run M bool  (** [ct_eq] of two strings of 56 bytes *)
}.
Arguments m_add {M B}. Arguments m_sub {M B}. Arguments m_mul {M B}. Arguments m_square {M B}. Arguments m_negate {M B}.
Arguments m_strong_reduce {M B}. Arguments m_select {M B}. Arguments m_cond_negate {M B}. Arguments m_is_negative {M B}.
Arguments m_from_bytes {M B}. Arguments m_to_bytes {M B}. Arguments m_branch {M B}. Arguments m_sign {M B}. Arguments m_sign_byte {M B}.
Arguments m_sc_add {M B}. Arguments m_sc_sub {M B}. Arguments m_sc_mul {M B}. Arguments m_sc_invert {M B}. Arguments m_sc_halve {M B}.
Arguments m_sc_canonical {M B}. Arguments m_sc_wide {M B}. Arguments m_div4 {M B}. Arguments m_bits {M B}. Arguments digit {M B}.
Arguments m_radix16 {M B}. Arguments m_mod_four {M B}. Arguments m_digit_abs {M B}. Arguments m_digit_choice {M B}. Arguments m_digit_ct_eq {M B}.
Arguments m_digit_eq {M B}. Arguments m_bytes_eq {M B}.

Section StepCurve.
Variable M : steps.
Variable B : backend.
Variable K : machine M B.
Local Notation res := (run M).
Local Notation Ok := ret.
Local Notation Panic := fail.
Local Notation fe := (fe B).
Local Notation zero := (fe_zero B).
Local Notation one := (fe_one B).
Local Notation add := (m_add K).
Local Notation sub := (m_sub K).
Local Notation mul := (m_mul K).
Local Notation square := (m_square K).
Local Notation negate := (m_negate K).
Local Notation select := (m_select K).
Local Notation cneg := (m_cond_negate K).
Local Notation is_negative := (m_is_negative K).

(** ** src/field/mod.rs *)
(** mod.rs:18-28. *)
Definition fe_ct_eqS (a b : fe) : res bool :=
  x <- m_to_bytes K a ;;
  y <- m_to_bytes K b ;;
  m_bytes_eq K x y.
(** mod.rs:61-72.  [n = n - 1] on a u32: panics for n = 0. *)
Fixpoint square_loopS (n : nat) (a : fe) : res fe :=
  match n with
  | O => Ok a
  | S n' => r <- square a ;; square_loopS n' r
  end.
Definition square_nS (a : fe) (n : nat) : res fe :=
  result <- square a ;;
  match n with
  | O => Panic
  | S n' => square_loopS n' result
  end.
(** mod.rs:38-59. *)
Definition fe_invertS (self : fe) : res fe :=
  let _1 := self in
  _10 <- square _1 ;;
  _11 <- mul _1 _10 ;;
  _110 <- square _11 ;;
  _111 <- mul _1 _110 ;;
  _111000 <- square_nS _111 3 ;;
  _111111 <- mul _111 _111000 ;;
  t <- square_nS _111111 6 ;;
  x12 <- mul t _111111 ;;
  t <- square_nS x12 12 ;;
  x24 <- mul t x12 ;;
  i34 <- square_nS x24 6 ;;
  x30 <- mul _111111 i34 ;;
  t <- square_nS i34 18 ;;
  x48 <- mul t x24 ;;
  t <- square_nS x48 48 ;;
  x96 <- mul t x48 ;;
  t <- square_nS x96 96 ;;
  x192 <- mul t x96 ;;
  t <- square_nS x192 30 ;;
  x222 <- mul t x30 ;;
  t <- square x222 ;;
  x223 <- mul t _1 ;;
  t <- square_nS x223 223 ;;
  t <- mul t x222 ;;
  t <- square_nS t 2 ;;
  mul t _1.
(** mod.rs:77-113. *)
Definition fe_inverse_square_rootS (self : fe) : res (fe * bool) :=
  l1 <- square self ;;
  l2 <- mul l1 self ;;
  l1 <- square l2 ;;
  l2 <- mul l1 self ;;
  l1 <- square_nS l2 3 ;;
  l0 <- mul l2 l1 ;;
  l1 <- square_nS l0 3 ;;
  l0 <- mul l2 l1 ;;
  l2 <- square_nS l0 9 ;;
  l1 <- mul l0 l2 ;;
  l0 <- mul l1 l1 ;;
  l2 <- mul l0 self ;;
  l0 <- square_nS l2 18 ;;
  l2 <- mul l1 l0 ;;
  l0 <- square_nS l2 37 ;;
  l1 <- mul l2 l0 ;;
  l0 <- square_nS l1 37 ;;
  l1 <- mul l2 l0 ;;
  l0 <- square_nS l1 111 ;;
  l2 <- mul l1 l0 ;;
  l0 <- square l2 ;;
  l1 <- mul l0 self ;;
  l0 <- square_nS l1 223 ;;
  l1 <- mul l2 l0 ;;
  l2 <- square l1 ;;
  l0 <- mul l2 self ;;
  is_residue <- fe_ct_eqS l0 (fe_one B) ;;
  Ok (l1, is_residue).
(** mod.rs:116-125. *)
Definition fe_sqrt_ratioS (u v : fe) : res (fe * bool) :=
  x <- mul u v ;;
  ' (inv_sqrt_x, is_res) <- fe_inverse_square_rootS x ;;
  zero_u <- fe_ct_eqS u (fe_zero B) ;;
  r <- mul inv_sqrt_x u ;;
  Ok (r, zero_u || is_res).
(** ** src/curve/twedwards *)
(** subtle 2.x, [ConditionallySelectable::conditional_swap]: two conditional assignments. *)
Definition fe_cond_swapS (a b : fe) (choice : bool) : res (fe * fe) :=
  a' <- select a b choice ;;
  b' <- select b a choice ;;
  Ok (a', b').
(** 23-40, [ct_eq] and [==]. *)
Definition xt_ct_eqS (self other : XtPoint B) : res bool :=
  XZ <- mul (xtX self) (xtZ other) ;;
  ZX <- mul (xtZ self) (xtX other) ;;
  YZ <- mul (xtY self) (xtZ other) ;;
  ZY <- mul (xtZ self) (xtY other) ;;
  a <- fe_ct_eqS XZ ZX ;;
  b <- fe_ct_eqS YZ ZY ;;
  Ok (a && b).
(** 53-69. *)
Definition xt_doubleS (self : XtPoint B) : res (XtPoint B) :=
  A <- square (xtX self) ;;
  B_ <- square (xtY self) ;;
  t1 <- square (xtZ self) ;;
  t2 <- square (xtZ self) ;;
  C <- add t1 t2 ;;
  D <- negate A ;;
  t <- add (xtX self) (xtY self) ;;
  t <- square t ;;
  t <- sub t A ;;
  E <- sub t B_ ;;
  G <- add D B_ ;;
  F <- sub G C ;;
  H <- sub D B_ ;;
  X <- mul E F ;;
  Y <- mul G H ;;
  Z <- mul F G ;;
  Ok (mkXt X Y Z E H).
(** 77-93. *)
Definition xt_add_extendedS (self : XtPoint B) (other : TwPoint B) : res (XtPoint B) :=
  A <- mul (xtX self) (twX other) ;;
  B_ <- mul (xtY self) (twY other) ;;
  t <- mul (xtT1 self) (xtT2 self) ;;
  t <- mul t (twT other) ;;
  C <- mul t (TWISTED_D B) ;;
  D <- mul (xtZ self) (twZ other) ;;
  s1 <- add (xtX self) (xtY self) ;;
  s2 <- add (twX other) (twY other) ;;
  t <- mul s1 s2 ;;
  t <- sub t A ;;
  E <- sub t B_ ;;
  F <- sub D C ;;
  G <- add D C ;;
  H <- add B_ A ;;
  X <- mul E F ;;
  Y <- mul G H ;;
  Z <- mul F G ;;
  Ok (mkXt X Y Z E H).
(** 97-113. *)
Definition xt_sub_extendedS (self : XtPoint B) (other : TwPoint B) : res (XtPoint B) :=
  A <- mul (xtX self) (twX other) ;;
  B_ <- mul (xtY self) (twY other) ;;
  t <- mul (xtT1 self) (xtT2 self) ;;
  t <- mul t (twT other) ;;
  C <- mul t (TWISTED_D B) ;;
  D <- mul (xtZ self) (twZ other) ;;
  s1 <- add (xtX self) (xtY self) ;;
  s2 <- sub (twY other) (twX other) ;;
  t <- mul s1 s2 ;;
  t <- add t A ;;
  E <- sub t B_ ;;
  F <- add D C ;;
  G <- sub D C ;;
  H <- sub B_ A ;;
  X <- mul E F ;;
  Y <- mul G H ;;
  Z <- mul F G ;;
  Ok (mkXt X Y Z E H).
(** 138-156. *)
Definition xt_add_projective_nielsS (self : XtPoint B) (other : PNiels B) : res (XtPoint B) :=
  Z_ <- mul (xtZ self) (pnZ other) ;;
  t <- sub (xtY self) (xtX self) ;;
  A <- mul t (pnYmX other) ;;
  t <- add (xtY self) (xtX self) ;;
  B_ <- mul t (pnYpX other) ;;
  t <- mul (pnTd other) (xtT1 self) ;;
  C <- mul t (xtT2 self) ;;
  D <- add B_ A ;;
  E <- sub B_ A ;;
  F <- sub Z_ C ;;
  G <- add Z_ C ;;
  X <- mul E F ;;
  Y <- mul G D ;;
  Z <- mul F G ;;
  Ok (mkXt X Y Z E D).
(** 158-165. *)
Definition xt_to_extendedS (self : XtPoint B) : res (TwPoint B) :=
  T <- mul (xtT1 self) (xtT2 self) ;;
  Ok (mkTw (xtX self) (xtY self) (xtZ self) T).
(** 71-73. *)
Definition xt_add_extensibleS (self other : XtPoint B) : res (XtPoint B) :=
  o <- xt_to_extendedS other ;;
  xt_add_extendedS self o.
(** 167-174. *)
Definition xt_to_projective_nielsS (self : XtPoint B) : res (PNiels B) :=
  ypx <- add (xtX self) (xtY self) ;;
  ymx <- sub (xtY self) (xtX self) ;;
  z <- add (xtZ self) (xtZ self) ;;
  t <- mul (xtT1 self) (xtT2 self) ;;
  td <- mul t (TWO_TIMES_TWISTED_D B) ;;
  Ok (mkPN ypx ymx td z).
(** 30-39. *)
Definition pn_selectS (a b : PNiels B) (choice : bool) : res (PNiels B) :=
  ypx <- select (pnYpX a) (pnYpX b) choice ;;
  ymx <- select (pnYmX a) (pnYmX b) choice ;;
  td <- select (pnTd a) (pnTd b) choice ;;
  z <- select (pnZ a) (pnZ b) choice ;;
  Ok (mkPN ypx ymx td z).
(** 40-45. *)
Definition pn_cond_negateS (self : PNiels B) (choice : bool) : res (PNiels B) :=
  ' (ymx, ypx) <- fe_cond_swapS (pnYmX self) (pnYpX self) choice ;;
  td <- m_cond_negate K (pnTd self) choice ;;
  Ok (mkPN ypx ymx td (pnZ self)).
(** 48-50. *)
Definition pn_identityS : res (PNiels B) := xt_to_projective_nielsS (xt_identity B).
(** 51-60. *)
Definition pn_to_extendedS (self : PNiels B) : res (TwPoint B) :=
  A <- sub (pnYpX self) (pnYmX self) ;;
  B_ <- add (pnYpX self) (pnYmX self) ;;
  X <- mul (pnZ self) A ;;
  Y <- mul (pnZ self) B_ ;;
  Z <- square (pnZ self) ;;
  T <- mul B_ A ;;
  Ok (mkTw X Y Z T).
(** 18-28, 41-45: [ct_eq] and [==]. *)
Definition tw_ct_eqS (self other : TwPoint B) : res bool :=
  XZ <- mul (twX self) (twZ other) ;;
  ZX <- mul (twZ self) (twX other) ;;
  YZ <- mul (twY self) (twZ other) ;;
  ZY <- mul (twZ self) (twY other) ;;
  a <- fe_ct_eqS XZ ZX ;;
  b <- fe_ct_eqS YZ ZY ;;
  Ok (a && b).
(** projective.rs:23-28. *)
Definition pn_eqS (self other : PNiels B) : res bool :=
  a <- pn_to_extendedS self ;;
  b <- pn_to_extendedS other ;;
  tw_ct_eqS a b.
(** 30-39. *)
Definition tw_selectS (a b : TwPoint B) (choice : bool) : res (TwPoint B) :=
  X <- select (twX a) (twX b) choice ;;
  Y <- select (twY a) (twY b) choice ;;
  Z <- select (twZ a) (twZ b) choice ;;
  T <- select (twT a) (twT b) choice ;;
  Ok (mkTw X Y Z T).
(** 70-72. *)
Definition tw_doubleS (self : TwPoint B) : res (TwPoint B) :=
  d <- xt_doubleS ((tw_to_extensible B) self) ;; xt_to_extendedS d.
(** 74-76. *)
Definition tw_addS (self other : TwPoint B) : res (TwPoint B) :=
  s <- xt_add_extendedS ((tw_to_extensible B) self) other ;; xt_to_extendedS s.
(** 89-102. *)
Definition tw_to_affineS (self : TwPoint B) : res (TwAffine B) :=
  INV_Z <- fe_invertS (twZ self) ;;
  x <- mul (twX self) INV_Z ;;
  x <- m_strong_reduce K x ;;
  y <- mul (twY self) INV_Z ;;
  y <- m_strong_reduce K y ;;
  Ok (mkTwA x y).
(** 107-130 (the same text as edwards/extended.rs:244-267): new x, new y and their product. *)
Definition edwards_isogenyS (a x y : fe) : res (fe * fe * fe) :=
  xy <- mul x y ;;
  x_numerator <- add xy xy ;;
  yy <- square y ;;
  xx <- square x ;;
  axx <- mul a xx ;;
  x_denom <- sub yy axx ;;
  t <- fe_invertS x_denom ;;
  new_x <- mul x_numerator t ;;
  yy <- square y ;;
  xx <- square x ;;
  axx <- mul a xx ;;
  y_numerator <- add yy axx ;;
  two <- add one one ;;
  yy <- square y ;;
  t <- sub two yy ;;
  xx <- square x ;;
  axx <- mul a xx ;;
  y_denom <- sub t axx ;;
  t <- fe_invertS y_denom ;;
  new_y <- mul y_numerator t ;;
  T <- mul new_x new_y ;;
  Ok (new_x, new_y, T).
(** 132-134. *)
Definition tw_to_untwistedS (self : TwPoint B) : res (EdPoint B) :=
  a <- tw_to_affineS self ;;
  ' (x, y, t) <- edwards_isogenyS (fe_minus_one B) (twAx a) (twAy a) ;;
  Ok (mkEd x y one t).
(** 153-160. *)
Definition tw_negateS (self : TwPoint B) : res (TwPoint B) :=
  X <- negate (twX self) ;;
  T <- negate (twT self) ;;
  Ok (mkTw X (twY self) (twZ self) T).
(** 162-169. *)
Definition tw_torqueS (self : TwPoint B) : res (TwPoint B) :=
  X <- negate (twX self) ;;
  Y <- negate (twY self) ;;
  Ok (mkTw X Y (twZ self) (twT self)).
(** ** src/curve/scalar_mul *)
(** double_and_add.rs:6-20.  The loop runs over the bits from the most significant one. *)
Fixpoint daa_loopS (point : TwPoint B) (bits : list bool) (result : TwPoint B) : res (TwPoint B) :=
  match bits with
  | [] => Ok result
  | bit :: bits' =>
      result <- tw_doubleS result ;;
      p <- tw_selectS (tw_identity B) point bit ;;
      result <- tw_addS result p ;;
      daa_loopS point bits' result
  end.
Definition double_and_addS (point : TwPoint B) (s : scalar) : res (TwPoint B) :=
  bits <- m_bits K s ;;
  daa_loopS point (rev bits) (tw_identity B).
(** double_base.rs:10-14. *)
Definition double_base_scalar_mulS (a : scalar) (A : TwPoint B) (b : scalar) : res (TwPoint B) :=
  part_a <- double_and_addS A a ;;
  part_b <- double_and_addS (tw_generator B) b ;;
  tw_addS part_a part_b.
(** window/wnaf/mod.rs:10-22.  The array is filled left to right; [n] entries follow [prev]. *)
Fixpoint table_loopS (n : nat) (P : XtPoint B) (prev : PNiels B) : res (list (PNiels B)) :=
  match n with
  | O => Ok [prev]
  | S n' =>
      s <- xt_add_projective_nielsS P prev ;;
      next <- xt_to_projective_nielsS s ;;
      rest <- table_loopS n' P next ;;
      Ok (prev :: rest)
  end.
Definition lookup_fromS (point : TwPoint B) : res (list (PNiels B)) :=
  let P := tw_to_extensible B point in
  first <- xt_to_projective_nielsS P ;;
  table_loopS 7 P first.
(** wnaf/mod.rs:26-34: [for i in 1..9 { result.conditional_assign(&self.0[i - 1], index.ct_eq(&i)) }]. *)
Fixpoint select_loopS (table : list (PNiels B)) (i : Z) (index : digit K) (result : PNiels B) : res (PNiels B) :=
  match table with
  | [] => Ok result
  | e :: table' =>
      swap <- m_digit_ct_eq K index i ;;
      result <- pn_selectS result e swap ;;
      select_loopS table' (i + 1) index result
  end.
Definition lookup_selectS (table : list (PNiels B)) (index : digit K) : res (PNiels B) :=
  result <- pn_identityS ;;
  select_loopS table 1 index result.
(** variable_base.rs:8-35.  [mask], [sign] and [abs_value] in i8 arithmetic. *)
Fixpoint vb_loopS (table : list (PNiels B)) (digits : list (digit K)) (result : XtPoint B) : res (XtPoint B) :=
  match digits with
  | [] => Ok result
  | d :: digits' =>
      result <- xt_doubleS result ;;
      result <- xt_doubleS result ;;
      result <- xt_doubleS result ;;
      result <- xt_doubleS result ;;
      ' (abs_value, sign) <- m_digit_abs K d ;;
      neg_P <- lookup_selectS table abs_value ;;
      c <- m_digit_choice K sign ;;
      neg_P <- pn_cond_negateS neg_P c ;;
      result <- xt_add_projective_nielsS result neg_P ;;
      vb_loopS table digits' result
  end.
Definition variable_baseS (point : TwPoint B) (s : scalar) : res (TwPoint B) :=
  scalar <- m_radix16 K s ;;
  lookup <- lookup_fromS point ;;
  result <- vb_loopS lookup (rev scalar) (xt_identity B) ;;
  xt_to_extendedS result.
(** ** src/curve/edwards *)
(** extended.rs:27-36. *)
Definition ed_selectS (a b : EdPoint B) (choice : bool) : res (EdPoint B) :=
  X <- select (edX a) (edX b) choice ;;
  Y <- select (edY a) (edY b) choice ;;
  Z <- select (edZ a) (edZ b) choice ;;
  T <- select (edT a) (edT b) choice ;;
  Ok (mkEd X Y Z T).
(** affine.rs:17-24. *)
Definition eda_to_extendedS (self : EdAffine B) : res (EdPoint B) :=
  T <- mul (edAx self) (edAy self) ;;
  Ok (mkEd (edAx self) (edAy self) one T).
(** extended.rs:41-66, [CompressedEdwardsY::decompress] on 57 bytes.  [split_last] gives the last byte and the rest;
    [sign >> 7] of a byte is 0 or 1. *)
(** In three parts, cut at the early return. *)
Definition ed_preS (b : list Z) : res (fe * (fe * bool)) :=
  y <- m_from_bytes K (removelast b) ;;
  yy <- square y ;;
  dyy <- mul (EDWARDS_D B) yy ;;
  numerator <- sub one yy ;;
  denominator <- sub one dyy ;;
  r <- fe_sqrt_ratioS numerator denominator ;;
  Ok (y, r).
Definition ed_postS (b : list Z) (y x : fe) : res (EdPoint B) :=
  compressed_sign_bit <- m_sign K b ;;
  is_negative <- m_is_negative K x ;;
  x <- m_cond_negate K x (xorb compressed_sign_bit is_negative) ;;
  eda_to_extendedS (mkEdA x y).
Definition ed_decompressS (b : list Z) : res (option (EdPoint B)) :=
  ' (y, (x, is_res)) <- ed_preS b ;;
  c <- m_branch K (negb is_res) ;;
  if c : bool then Ok None else r <- ed_postS b y x ;; Ok (Some r).
(** extended.rs:69-86, [ct_eq] and [==]. *)
Definition ed_ct_eqS (self other : EdPoint B) : res bool :=
  XZ <- mul (edX self) (edZ other) ;;
  ZX <- mul (edZ self) (edX other) ;;
  YZ <- mul (edY self) (edZ other) ;;
  ZY <- mul (edZ self) (edY other) ;;
  a <- fe_ct_eqS XZ ZX ;;
  b <- fe_ct_eqS YZ ZY ;;
  Ok (a && b).
(** extended.rs:230-240. *)
Definition ed_to_affineS (self : EdPoint B) : res (EdAffine B) :=
  INV_Z <- fe_invertS (edZ self) ;;
  x <- mul (edX self) INV_Z ;;
  x <- m_strong_reduce K x ;;
  y <- mul (edY self) INV_Z ;;
  y <- m_strong_reduce K y ;;
  Ok (mkEdA x y).
(** extended.rs:109-120: the bytes of the MontgomeryPoint. *)
Definition ed_to_montgomeryS (self : EdPoint B) : res (list Z) :=
  affine <- ed_to_affineS self ;;
  yy <- square (edAy affine) ;;
  dyy <- mul (EDWARDS_D B) yy ;;
  t1 <- sub one dyy ;;
  t1 <- mul yy t1 ;;
  t2 <- sub one yy ;;
  t2 <- fe_invertS t2 ;;
  u <- mul t1 t2 ;;
  m_to_bytes K u.
(** extended.rs:180-206. *)
Definition ed_addS (self other : EdPoint B) : res (EdPoint B) :=
  aXX <- mul (edX self) (edX other) ;;
  dT <- mul (EDWARDS_D B) (edT self) ;;
  dTT <- mul dT (edT other) ;;
  ZZ <- mul (edZ self) (edZ other) ;;
  YY <- mul (edY self) (edY other) ;;
  s1 <- mul (edX self) (edY other) ;;
  s2 <- mul (edY self) (edX other) ;;
  x_1 <- add s1 s2 ;;
  x_2 <- sub ZZ dTT ;;
  X <- mul x_1 x_2 ;;
  y_1 <- sub YY aXX ;;
  y_2 <- add ZZ dTT ;;
  Y <- mul y_1 y_2 ;;
  t_1 <- sub YY aXX ;;
  s1 <- mul (edX self) (edY other) ;;
  s2 <- mul (edY self) (edX other) ;;
  t_2 <- add s1 s2 ;;
  T <- mul t_1 t_2 ;;
  z_1 <- sub ZZ dTT ;;
  z_2 <- add ZZ dTT ;;
  Z <- mul z_1 z_2 ;;
  Ok (mkEd X Y Z T).
(** extended.rs:210-212. *)
Definition ed_doubleS (self : EdPoint B) : res (EdPoint B) := ed_addS self self.
(** extended.rs:134-156.  [conditional_assign] is [self = conditional_select(self, other, choice)]. *)
Definition ed_scalar_mod_fourS (self : EdPoint B) (s : scalar) : res (EdPoint B) :=
  s_mod_four <- m_mod_four K s ;;
  let zero_p := ed_identity B in
  let one_p := self in
  two_p <- ed_doubleS one_p ;;
  three_p <- ed_addS two_p self ;;
  c <- m_digit_eq K s_mod_four 0 ;;
  r <- ed_selectS (ed_identity B) zero_p c ;;
  c <- m_digit_eq K s_mod_four 1 ;;
  r <- ed_selectS r one_p c ;;
  c <- m_digit_eq K s_mod_four 2 ;;
  r <- ed_selectS r two_p c ;;
  c <- m_digit_eq K s_mod_four 3 ;;
  ed_selectS r three_p c.
(** extended.rs:244-270, [to_twisted]. *)
Definition ed_to_twistedS (self : EdPoint B) : res (TwPoint B) :=
  a <- ed_to_affineS self ;;
  ' (x, y, t) <- edwards_isogenyS one (edAx a) (edAy a) ;;
  Ok (mkTw x y one t).
(** extended.rs:122-131 (and the operators [*], 390-407). *)
Definition ed_scalar_mulS (self : EdPoint B) (s : scalar) : res (EdPoint B) :=
  scalar_div_four <- m_div4 K s ;;
  tw <- ed_to_twistedS self ;;
  v <- variable_baseS tw scalar_div_four ;;
  partial_result <- tw_to_untwistedS v ;;
  r <- ed_scalar_mod_fourS self s ;;
  ed_addS partial_result r.
(** extended.rs:160-176. *)
Definition ed_compressS (self : EdPoint B) : res (list Z) :=
  affine <- ed_to_affineS self ;;
  sign <- m_is_negative K (edAx affine) ;;
  y_bytes <- m_to_bytes K (edAy affine) ;;
  top <- m_sign_byte K sign ;;
  Ok (y_bytes ++ [top]).
(** extended.rs:272-279 (and [Neg], 363-377). *)
Definition ed_negateS (self : EdPoint B) : res (EdPoint B) :=
  X <- negate (edX self) ;;
  T <- negate (edT self) ;;
  Ok (mkEd X (edY self) (edZ self) T).
(** extended.rs:281-288. *)
Definition ed_torqueS (self : EdPoint B) : res (EdPoint B) :=
  X <- negate (edX self) ;;
  Y <- negate (edY self) ;;
  Ok (mkEd X Y (edZ self) (edT self)).
(** extended.rs:299-301. *)
Definition ed_is_torsion_freeS (self : EdPoint B) : res bool :=
  r <- ed_scalar_mulS self BASEPOINT_ORDER ;;
  ed_ct_eqS r (ed_identity B).
(** extended.rs:327-332 ([-], and [-=] through it). *)
Definition ed_subS (self other : EdPoint B) : res (EdPoint B) :=
  n <- ed_negateS other ;;
  ed_addS self n.
(** extended.rs:346-356, [Sum]. *)
Fixpoint ed_sum_loopS (l : list (EdPoint B)) (acc : EdPoint B) : res (EdPoint B) :=
  match l with
  | [] => Ok acc
  | item :: l' => acc <- ed_addS acc item ;; ed_sum_loopS l' acc
  end.
Definition ed_sumS (l : list (EdPoint B)) : res (EdPoint B) := ed_sum_loopS l (ed_identity B).
(** ** src/curve/montgomery/montgomery.rs *)
(** 140-151. *)
Definition pm_selectS (a b : PMPoint B) (choice : bool) : res (PMPoint B) :=
  U <- select (pmU a) (pmU b) choice ;;
  W <- select (pmW a) (pmW b) choice ;;
  Ok (mkPM U W).
(** subtle 2.x, the default [conditional_swap]. *)
Definition pm_cond_swapS (a b : PMPoint B) (choice : bool) : res (PMPoint B * PMPoint B) :=
  a' <- pm_selectS a b choice ;;
  b' <- pm_selectS b a choice ;;
  Ok (a', b').
(** 153-189: the new P and Q. *)
Definition differential_add_and_doubleS (P Q : PMPoint B) (affine_PmQ : fe) : res (PMPoint B * PMPoint B) :=
  t0 <- add (pmU P) (pmW P) ;;
  t1 <- sub (pmU P) (pmW P) ;;
  t2 <- add (pmU Q) (pmW Q) ;;
  t3 <- sub (pmU Q) (pmW Q) ;;
  t4 <- square t0 ;;
  t5 <- square t1 ;;
  t6 <- sub t4 t5 ;;
  t7 <- mul t0 t3 ;;
  t8 <- mul t1 t2 ;;
  t9 <- add t7 t8 ;;
  t10 <- sub t7 t8 ;;
  t11 <- square t9 ;;
  t12 <- square t10 ;;
  t13 <- mul (A_PLUS_TWO_OVER_FOUR B) t6 ;;
  t14 <- mul t4 t5 ;;
  t15 <- add t13 t5 ;;
  t16 <- mul t6 t15 ;;
  t17 <- mul affine_PmQ t12 ;;
  let t18 := t11 in
  Ok (mkPM t14 t16, mkPM t18 t17).
(** 199-202. *)
Definition pm_to_affineS (self : PMPoint B) : res (list Z) :=
  i <- fe_invertS (pmW self) ;;
  x <- mul (pmU self) i ;;
  m_to_bytes K x.
(** 132-137. *)
Definition mp_to_projectiveS (self : list Z) : res (PMPoint B) :=
  u <- m_from_bytes K self ;;
  Ok (mkPM u (fe_one B)).
(** 84-93: the loop over the bits from the most significant one.  [swap] and [bit] are 0 or 1. *)
Fixpoint ladder_loopS (affine_u : fe) (bits : list bool) (swap : bool) (x0 x1 : PMPoint B) : res (PMPoint B) :=
  match bits with
  | [] => Ok x0
  | bit :: bits' =>
      let choice := xorb swap bit in
      ' (x0, x1) <- pm_cond_swapS x0 x1 choice ;;
      ' (x0, x1) <- differential_add_and_doubleS x0 x1 affine_u ;;
      ladder_loopS affine_u bits' bit x0 x1
  end.
(** 72-97 (and 99-104). *)
Definition mp_mulS (self : list Z) (s : scalar) : res (list Z) :=
  affine_u <- m_from_bytes K self ;;
  bits <- m_bits K s ;;
  x0 <- ladder_loopS affine_u (rev bits) false (pm_identity B) (mkPM affine_u (fe_one B)) ;;
  pm_to_affineS x0.
(** ** src/decaf, src/ristretto *)
(** 49-51. *)
Definition dc_equalsS (self other : TwPoint B) : res bool :=
  XY <- mul (twX self) (twY other) ;;
  YX <- mul (twY self) (twX other) ;;
  fe_ct_eqS XY YX.
(** 57-59, and ops.rs:51-62: [Sub]. *)
Definition dc_subS (self other : TwPoint B) : res (TwPoint B) :=
  r <- xt_sub_extendedS (tw_to_extensible B self) other ;;
  xt_to_extendedS r.
(** 63-81. *)
Definition dc_compressS (self : TwPoint B) : res (list Z) :=
  let X := twX self in
  let Y := twY self in
  let Z := twZ self in
  let T := twT self in
  t1 <- add X T ;;
  t2 <- sub X T ;;
  XX_TT <- mul t1 t2 ;;
  t <- square X ;;
  t <- mul t XX_TT ;;
  t <- mul t (NEG_EDWARDS_D B) ;;
  ' (isr, _) <- fe_inverse_square_rootS t ;;
  ratio <- mul isr XX_TT ;;
  altx <- mul ratio (DECAF_FACTOR B) ;;
  c <- is_negative altx ;;
  ratio <- cneg ratio c ;;
  t <- mul ratio Z ;;
  k <- sub t T ;;
  t <- mul k (NEG_EDWARDS_D B) ;;
  t <- mul t isr ;;
  s <- mul t X ;;
  c <- is_negative s ;;
  s <- cneg s c ;;
  m_to_bytes K s.
(** 91-128.  [||] evaluates its right operand only when the left one is false. *)
(** In parts, cut at the early returns and inside [||]. *)
Definition dc_preS (self : list Z) : res (fe * bool) :=
  s <- m_from_bytes K self ;;
  canonical <- (s_bytes_check <- m_to_bytes K s ;; m_bytes_eq K s_bytes_check self) ;;
  s_is_negative <- is_negative s ;;
  Ok (s, canonical).
Definition dc_midS (s : fe) : res (fe * (fe * fe) * (fe * bool)) :=
  ss <- square s ;;
  u1 <- sub one ss ;;
  u2 <- add one ss ;;
  u1_sqr <- square u1 ;;
  t <- mul ss (NEG_FOUR_TIMES_TWISTED_D B) ;;
  v <- add t u1_sqr ;;
  t <- mul v u1_sqr ;;
  r <- fe_inverse_square_rootS t ;;
  Ok (u1, (u2, v), r).
Definition dc_postS (s u1 u2 v I_ : fe) : res (TwPoint B) :=
  Dx <- mul I_ u1 ;;
  t <- add s s ;;
  Dxs <- mul t Dx ;;
  t <- mul Dxs I_ ;;
  X <- mul t v ;;
  k <- mul Dxs (DECAF_FACTOR B) ;;
  c <- is_negative k ;;
  X <- cneg X c ;;
  Y <- mul Dx u2 ;;
  let Z := one in
  T <- mul X Y ;;
  Ok (mkTw X Y Z T).
Definition dc_decompressS (self : list Z) : res (option (TwPoint B)) :=
  ' (s, s_encoding_is_canonical) <- dc_preS self ;;
  c <- m_branch K (negb s_encoding_is_canonical) ;;
  reject <- (if c : bool then Ok true else n <- is_negative s ;; m_branch K n) ;;
  if reject : bool then Ok None else
  ' (u1, (u2, v), (I_, ok)) <- dc_midS s ;;
  c <- m_branch K (negb ok) ;;
  if c : bool then Ok None else
  r <- dc_postS s u1 u2 v I_ ;;
  Ok (Some r).
(** 8-33: the four [Mul] impls are this call. *)
Definition dc_mulS (self : TwPoint B) (s : scalar) : res (TwPoint B) := double_and_addS self s.
(** 36-47. *)
Definition dc_addS (self other : TwPoint B) : res (TwPoint B) :=
  r <- xt_add_extendedS (tw_to_extensible B self) other ;;
  xt_to_extendedS r.
(** 66-77. *)
Definition dc_negS (self : TwPoint B) : res (TwPoint B) := tw_negateS self.
(** 42-46. *)
Definition rs_equalsS (self other : TwPoint B) : res bool :=
  XY <- mul (twX self) (twY other) ;;
  YX <- mul (twY self) (twX other) ;;
  fe_ct_eqS XY YX.
(** ** Programs *)
Definition obindS {A C : Type} (r : res (option A)) (f : A -> res (option C)) : res (option C) :=
  o <- r ;; match o with Some a => f a | None => Ok None end.
Definition osomeS {A : Type} (r : res A) : res (option A) := a <- r ;; Ok (Some a).
Fixpoint api_runS {s} (e : api s) : res (option (val B s)) :=
  match e in api s return res (option (val B s)) with
  | ARet d v => Ok (Some v)
  | ABind d s x k => obindS (api_runS x) (fun v => api_runS (k v))
  | AIsSome s x => r <- api_runS x ;; Ok (Some (match r with Some _ => true | None => false end))
  | AScAdd a b => osomeS (m_sc_add K a b)
  | AScSub a b => osomeS (m_sc_sub K a b)
  | AScMul a b => osomeS (m_sc_mul K a b)
  | AScInvert a => osomeS (m_sc_invert K a)
  | AScHalve a => osomeS (m_sc_halve K a)
  | AScCanonical b => m_sc_canonical K b
  | AScWide b => osomeS (m_sc_wide K b)
  | AEdIdentity => Ok (Some (ed_identity B))
  | AEdGenerator => Ok (Some (ed_generator B))
  | AEdDecompress b => ed_decompressS b
  | AEdAdd x y => obindS (api_runS x) (fun P => obindS (api_runS y) (fun Q => osomeS (ed_addS P Q)))
  | AEdSub x y => obindS (api_runS x) (fun P => obindS (api_runS y) (fun Q => osomeS (ed_subS P Q)))
  | AEdNeg x => obindS (api_runS x) (fun P => osomeS (ed_negateS P))
  | AEdDouble x => obindS (api_runS x) (fun P => osomeS (ed_doubleS P))
  | AEdTorque x => obindS (api_runS x) (fun P => osomeS (ed_torqueS P))
  | AEdMul x t => obindS (api_runS x) (fun P => osomeS (ed_scalar_mulS P t))
  | AEdModFour x t => obindS (api_runS x) (fun P => osomeS (ed_scalar_mod_fourS P t))
  | AEdSelect x y c => obindS (api_runS x) (fun P => obindS (api_runS y) (fun Q => osomeS (ed_selectS P Q c)))
  | ANil => Ok (Some [])
  | ACons x l => obindS (api_runS x) (fun P => obindS (api_runS l) (fun ps => Ok (Some (P :: ps))))
  | AEdSum l => obindS (api_runS l) (fun ps => osomeS (ed_sumS ps))
  | AEdUntwist x => obindS (api_runS x) (fun P => osomeS (tw_to_untwistedS P))
  | AEdOfAffine x => obindS (api_runS x) (fun P => osomeS (eda_to_extendedS P))
  | AEdAffineIdentity => Ok (Some (eda_identity B))
  | AEdToAffine x => obindS (api_runS x) (fun P => osomeS (ed_to_affineS P))
  | AEdCompress x => obindS (api_runS x) (fun P => osomeS (ed_compressS P))
  | AEdEq x y => obindS (api_runS x) (fun P => obindS (api_runS y) (fun Q => osomeS (ed_ct_eqS P Q)))
  | AEdTorsionFree x => obindS (api_runS x) (fun P => osomeS (ed_is_torsion_freeS P))
  | AEdToMontgomery x => obindS (api_runS x) (fun P => osomeS (ed_to_montgomeryS P))
  | ATwIdentity => Ok (Some (tw_identity B))
  | ATwGenerator => Ok (Some (tw_generator B))
  | ATwist x => obindS (api_runS x) (fun P => osomeS (ed_to_twistedS P))
  | ATwNeg x => obindS (api_runS x) (fun P => osomeS (tw_negateS P))
  | ATwTorque x => obindS (api_runS x) (fun P => osomeS (tw_torqueS P))
  | ATwSelect x y c => obindS (api_runS x) (fun P => obindS (api_runS y) (fun Q => osomeS (tw_selectS P Q c)))
  | ATwOfXt x => obindS (api_runS x) (fun P => osomeS (xt_to_extendedS P))
  | ATwOfPn x => obindS (api_runS x) (fun P => osomeS (pn_to_extendedS P))
  | ATwEq x y => obindS (api_runS x) (fun P => obindS (api_runS y) (fun Q => osomeS (tw_ct_eqS P Q)))
  | AXtIdentity => Ok (Some (xt_identity B))
  | AXtOfTw x => obindS (api_runS x) (fun P => Ok (Some (tw_to_extensible B P)))
  | AXtDouble x => obindS (api_runS x) (fun P => osomeS (xt_doubleS P))
  | AXtAddXt x y => obindS (api_runS x) (fun P => obindS (api_runS y) (fun Q => osomeS (xt_add_extensibleS P Q)))
  | AXtAddTw x y => obindS (api_runS x) (fun P => obindS (api_runS y) (fun Q => osomeS (xt_add_extendedS P Q)))
  | AXtSubTw x y => obindS (api_runS x) (fun P => obindS (api_runS y) (fun Q => osomeS (xt_sub_extendedS P Q)))
  | AXtAddPn x y => obindS (api_runS x) (fun P => obindS (api_runS y) (fun Q => osomeS (xt_add_projective_nielsS P Q)))
  | AXtEq x y => obindS (api_runS x) (fun P => obindS (api_runS y) (fun Q => osomeS (xt_ct_eqS P Q)))
  | APnIdentity => osomeS (pn_identityS)
  | APnOfXt x => obindS (api_runS x) (fun P => osomeS (xt_to_projective_nielsS P))
  | APnSelect x y c => obindS (api_runS x) (fun P => obindS (api_runS y) (fun Q => osomeS (pn_selectS P Q c)))
  | APnNegate x c => obindS (api_runS x) (fun P => osomeS (pn_cond_negateS P c))
  | APnEq x y => obindS (api_runS x) (fun P => obindS (api_runS y) (fun Q => osomeS (pn_eqS P Q)))
  | AMpMul b t => osomeS (mp_mulS b t)
  | APmOf b => osomeS (mp_to_projectiveS b)
  | APmIdentity => Ok (Some (pm_identity B))
  | APmSelect x y c => obindS (api_runS x) (fun P => obindS (api_runS y) (fun Q => osomeS (pm_selectS P Q c)))
  | APmToAffine x => obindS (api_runS x) (fun P => osomeS (pm_to_affineS P))
  | ADcIdentity => Ok (Some (dc_identity B))
  | ADcGenerator => Ok (Some (dc_generator B))
  | ADcDecompress b => dc_decompressS b
  | ADcAdd x y => obindS (api_runS x) (fun P => obindS (api_runS y) (fun Q => osomeS (dc_addS P Q)))
  | ADcSub x y => obindS (api_runS x) (fun P => obindS (api_runS y) (fun Q => osomeS (dc_subS P Q)))
  | ADcNeg x => obindS (api_runS x) (fun P => osomeS (dc_negS P))
  | ADcMul x t => obindS (api_runS x) (fun P => osomeS (dc_mulS P t))
  | ADcCompress x => obindS (api_runS x) (fun P => osomeS (dc_compressS P))
  | ADcEq x y => obindS (api_runS x) (fun P => obindS (api_runS y) (fun Q => osomeS (dc_equalsS P Q)))
  | ARsIdentity => Ok (Some (rs_identity B))
  | ARsEq x y => obindS (api_runS x) (fun P => obindS (api_runS y) (fun Q => osomeS (rs_equalsS P Q)))
  end.
End StepCurve.
