(** The fiat-crypto arithmetic of FiatCode.v (which see for where it comes from) and the wrapper of FieldFiatModel.v, as a sequence of
    steps.  Operands are computed left to right; an intermediate result that is used twice is computed once. *)
Require Import ZArith List Bool.
From Verif Require Import Base FieldFiatModel FiatCode Steps.
Import ListNotations.
Open Scope Z_scope.
Open Scope step_scope.

Section StepFiat.
Variable M : steps.
Variable W : cpu M.
Local Notation res := (run M).
Local Notation Ok := ret.
Local Notation Panic := fail.
Local Notation word := (word W).
Local Notation lit := (lit W).
Local Notation u64_add := (lift2 (chk W CU64Add)).
Local Notation u64_sub := (lift2 (chk W CU64Sub)).
Local Notation u64_mul := (lift2 (chk W CU64Mul)).
Local Notation u128_add := (lift2 (chk W CU128Add)).
Local Notation u128_mul := (lift2 (chk W CU128Mul)).
Local Notation i8_sub := (lift2 (chk W CI8Sub)).
Local Notation i128_sub := (lift2 (chk W CI128Sub)).
Local Notation land := (lift2 (bin W BAnd)).
Local Notation lor := (lift2 (bin W BOr)).
Local Notation lxor := (lift2 (bin W BXor)).
Local Notation as_u8 := (lift1 (un W (UCast 8))).
Local Notation as_u64 := (lift1 (un W (UCast 64))).
Local Notation as_i w := (lift1 (un W (UCastI w))).
Local Notation shr x n := (lift1 (un W (UShr n)) x).
Local Notation shl_u w x n := (lift1 (un W (UShl w n)) x).

Definition addcarryx_u56S (arg1 arg2 arg3 : word) : res (word * word) :=
  x1 <- u64_add arg1 arg2 ;;
  x1 <- u64_add x1 arg3 ;;
  x2 <- land x1 (lit mask56) ;;
  x3 <- as_u8 (shr x1 56) ;;
  Ok (x2, x3).
Definition subborrowx_u56S (arg1 arg2 arg3 : word) : res (word * word) :=
  x1 <- i128_sub arg2 arg1 ;;
  x1 <- i128_sub (as_i 64 x1) arg3 ;;
  x1 <- as_i 64 x1 ;;
  x2 <- as_i 8 (shr x1 56) ;;
  x3 <- as_u64 (land x1 (lit mask56)) ;;
  x4 <- i8_sub (lit 0) x2 ;;
  x4 <- as_u8 x4 ;;
  Ok (x3, x4).
Definition cmovznz_u64S (arg1 arg2 arg3 : word) : res word :=
  x1 <- i8_sub (lit 0) arg1 ;;
  x2 <- as_u64 (land x1 (lit mask64)) ;;
  lor (land x2 arg3) (land (lxor x2 (lit mask64)) arg2).

Local Notation "x +! y" := (u128_add x y) (at level 50, left associativity).
Local Notation "$ x" := (Ok x) (at level 9, x at level 9, format "$ x").
Definition mS64 (x y : word) : res word := u128_mul x y.
Local Notation m x y := (mS64 x y).

Definition carry_sumsS (c : list word) : res (list word) :=
  match c with
  | [c0; c1; c2; c3; c4; c5; c6; c7] =>
      k3 <- as_u64 (shr c3 56) ;; x3 <- as_u64 (land c3 (lit mask56)) ;;
      k7 <- as_u64 (shr c7 56) ;; x7 <- as_u64 (land c7 (lit mask56)) ;;
      c4 <- $k3 +! $c4 ;;
      c4 <- $c4 +! $k7 ;;
      c0 <- $k7 +! $c0 ;;
      k4 <- as_u64 (shr c4 56) ;; x4 <- as_u64 (land c4 (lit mask56)) ;;
      k0 <- as_u64 (shr c0 56) ;; x0 <- as_u64 (land c0 (lit mask56)) ;;
      c5 <- $k4 +! $c5 ;;
      c1 <- $k0 +! $c1 ;;
      k5 <- as_u64 (shr c5 56) ;; x5 <- as_u64 (land c5 (lit mask56)) ;;
      k1 <- as_u64 (shr c1 56) ;; x1 <- as_u64 (land c1 (lit mask56)) ;;
      c6 <- $k5 +! $c6 ;;
      c2 <- $k1 +! $c2 ;;
      k6 <- as_u64 (shr c6 56) ;; x6 <- as_u64 (land c6 (lit mask56)) ;;
      k2 <- as_u64 (shr c2 56) ;; x2 <- as_u64 (land c2 (lit mask56)) ;;
      x7 <- u64_add k6 x7 ;;
      x3 <- u64_add k2 x3 ;;
      k7 <- shr x7 56 ;; x7 <- land x7 (lit mask56) ;;
      k3 <- shr x3 56 ;; x3 <- land x3 (lit mask56) ;;
      x0 <- u64_add x0 k7 ;;
      x4 <- u64_add k3 x4 ;;
      x4 <- u64_add x4 k7 ;;
      k4 <- as_u8 (shr x4 56) ;; x4 <- land x4 (lit mask56) ;;
      k0 <- as_u8 (shr x0 56) ;; x0 <- land x0 (lit mask56) ;;
      x5 <- u64_add k4 x5 ;;
      x1 <- u64_add k0 x1 ;;
      Ok [x0; x1; x2; x3; x4; x5; x6; x7]
  | _ => Panic
  end.
Definition fcode_carry_mulS (a b : list word) : res (list word) :=
  match a, b with
  | [a0; a1; a2; a3; a4; a5; a6; a7],
    [b0; b1; b2; b3; b4; b5; b6; b7] =>
      c3 <- m a7 b4 +! m a6 b5 +! m a5 b6 +! m a4 b7 +! m a3 b0 +! m a2 b1 +! m a1 b2 +! m a0 b3 ;;
      c7 <- m a7 b4 +! m a6 b5 +! m a5 b6 +! m a4 b7 +! m a7 b0 +! m a6 b1 +! m a5 b2 +! m a4 b3 +! m a3 b4 +! m a2 b5 +!
        m a1 b6 +! m a0 b7 ;;
      c4 <- m a7 b5 +! m a7 b5 +! m a6 b6 +! m a6 b6 +! m a5 b7 +! m a5 b7 +! m a7 b1 +! m a6 b2 +! m a5 b3 +! m a4 b4 +!
        m a3 b5 +! m a2 b6 +! m a1 b7 +! m a4 b0 +! m a3 b1 +! m a2 b2 +! m a1 b3 +! m a0 b4 ;;
      c0 <- m a7 b5 +! m a6 b6 +! m a5 b7 +! m a7 b1 +! m a6 b2 +! m a5 b3 +! m a4 b4 +! m a3 b5 +! m a2 b6 +! m a1 b7 +!
        m a0 b0 ;;
      c5 <- m a7 b6 +! m a7 b6 +! m a6 b7 +! m a6 b7 +! m a7 b2 +! m a6 b3 +! m a5 b4 +! m a4 b5 +! m a3 b6 +! m a2 b7 +!
        m a5 b0 +! m a4 b1 +! m a3 b2 +! m a2 b3 +! m a1 b4 +! m a0 b5 ;;
      c1 <- m a7 b6 +! m a6 b7 +! m a7 b2 +! m a6 b3 +! m a5 b4 +! m a4 b5 +! m a3 b6 +! m a2 b7 +! m a1 b0 +! m a0 b1 ;;
      c6 <- m a7 b7 +! m a7 b7 +! m a7 b3 +! m a6 b4 +! m a5 b5 +! m a4 b6 +! m a3 b7 +! m a6 b0 +! m a5 b1 +! m a4 b2 +!
        m a3 b3 +! m a2 b4 +! m a1 b5 +! m a0 b6 ;;
      c2 <- m a7 b7 +! m a7 b3 +! m a6 b4 +! m a5 b5 +! m a4 b6 +! m a3 b7 +! m a2 b0 +! m a1 b1 +! m a0 b2 ;;
      carry_sumsS [c0; c1; c2; c3; c4; c5; c6; c7]
  | _, _ => Panic
  end.
Definition fcode_carry_squareS (a : list word) : res (list word) :=
  match a with
  | [a0; a1; a2; a3; a4; a5; a6; a7] =>
      d7 <- u64_mul a7 (lit 2) ;;
      d6 <- u64_mul a6 (lit 2) ;;
      d5 <- u64_mul a5 (lit 2) ;;
      d4 <- u64_mul a4 (lit 2) ;;
      d3 <- u64_mul a3 (lit 2) ;;
      d2 <- u64_mul a2 (lit 2) ;;
      d1 <- u64_mul a1 (lit 2) ;;
      c3 <- m a4 d7 +! m a5 d6 +! m a0 d3 +! m a1 d2 ;;
      c7 <- m a4 d7 +! m a5 d6 +! m a0 d7 +! m a1 d6 +! m a2 d5 +! m a3 d4 ;;
      c4 <- m a5 d7 +! m a5 d7 +! m a6 a6 +! m a6 a6 +! m a1 d7 +! m a2 d6 +! m a3 d5 +! m a4 a4 +! m a0 d4 +! m a1 d3 +!
        m a2 a2 ;;
      c0 <- m a5 d7 +! m a6 a6 +! m a1 d7 +! m a2 d6 +! m a3 d5 +! m a4 a4 +! m a0 a0 ;;
      c5 <- m a6 d7 +! m a6 d7 +! m a2 d7 +! m a3 d6 +! m a4 d5 +! m a0 d5 +! m a1 d4 +! m a2 d3 ;;
      c1 <- m a6 d7 +! m a2 d7 +! m a3 d6 +! m a4 d5 +! m a0 d1 ;;
      c6 <- m a7 a7 +! m a7 a7 +! m a3 d7 +! m a4 d6 +! m a5 a5 +! m a0 d6 +! m a1 d5 +! m a2 d4 +! m a3 a3 ;;
      c2 <- m a7 a7 +! m a3 d7 +! m a4 d6 +! m a5 a5 +! m a0 d2 +! m a1 a1 ;;
      carry_sumsS [c0; c1; c2; c3; c4; c5; c6; c7]
  | _ => Panic
  end.
Definition fcode_carryS (a : list word) : res (list word) :=
  match a with
  | [a0; a1; a2; a3; a4; a5; a6; a7] =>
      x1 <- $a3 ;;
      x2 <- $a7 ;;
      x3 <- shr x2 56 ;;
      x4 <- u64_add (shr x1 56) a4 ;;
      x4 <- u64_add x4 x3 ;;
      x5 <- u64_add a0 x3 ;;
      x6 <- u64_add (shr x4 56) a5 ;;
      x7 <- u64_add (shr x5 56) a1 ;;
      x8 <- u64_add (shr x6 56) a6 ;;
      x9 <- u64_add (shr x7 56) a2 ;;
      x10 <- u64_add (shr x8 56) (land x2 (lit mask56)) ;;
      x11 <- u64_add (shr x9 56) (land x1 (lit mask56)) ;;
      x12 <- as_u8 (shr x10 56) ;;
      x13 <- u64_add (land x5 (lit mask56)) x12 ;;
      x14 <- u64_add (as_u8 (shr x11 56)) (land x4 (lit mask56)) ;;
      x14 <- u64_add x14 x12 ;;
      x15 <- land x13 (lit mask56) ;;
      x16 <- u64_add (as_u8 (shr x13 56)) (land x7 (lit mask56)) ;;
      x17 <- land x9 (lit mask56) ;;
      x18 <- land x11 (lit mask56) ;;
      x19 <- land x14 (lit mask56) ;;
      x20 <- u64_add (as_u8 (shr x14 56)) (land x6 (lit mask56)) ;;
      x21 <- land x8 (lit mask56) ;;
      x22 <- land x10 (lit mask56) ;;
      Ok [x15; x16; x17; x18; x19; x20; x21; x22]
  | _ => Panic
  end.
Fixpoint fadd_limbsS (a b : list word) : res (list word) :=
  match a, b with
  | [], [] => Ok []
  | x :: a', y :: b' => c <- u64_add x y ;; r <- fadd_limbsS a' b' ;; Ok (c :: r)
  | _, _ => Panic
  end.
Fixpoint fsub_limbsS (k a b : list word) : res (list word) :=
  match k, a, b with
  | [], [], [] => Ok []
  | z :: k', x :: a', y :: b' => c <- u64_add z x ;; c <- u64_sub c y ;; r <- fsub_limbsS k' a' b' ;; Ok (c :: r)
  | _, _, _ => Panic
  end.
Fixpoint fopp_limbsS (k a : list word) : res (list word) :=
  match k, a with
  | [], [] => Ok []
  | z :: k', x :: a' => c <- u64_sub z x ;; r <- fopp_limbsS k' a' ;; Ok (c :: r)
  | _, _ => Panic
  end.
Definition fcode_addS (a b : list word) : res (list word) := fadd_limbsS a b.
Definition fcode_subS (a b : list word) : res (list word) := fsub_limbsS (map lit two_p_limbs) a b.
Definition fcode_oppS (a : list word) : res (list word) := fopp_limbsS (map lit two_p_limbs) a.
Fixpoint fcode_selectznzS (c : word) (a b : list word) : res (list word) :=
  match a, b with
  | [], [] => Ok []
  | x :: a', y :: b' => v <- cmovznz_u64S c x y ;; r <- fcode_selectznzS c a' b' ;; Ok (v :: r)
  | _, _ => Panic
  end.
Fixpoint sub_chainS (a k : list word) (borrow : word) : res (list word * word) :=
  match a, k with
  | [], [] => Ok ([], borrow)
  | x :: a', z :: k' =>
      ' (y, borrow) <- subborrowx_u56S borrow x z ;;
      ' (r, borrow) <- sub_chainS a' k' borrow ;;
      Ok (y :: r, borrow)
  | _, _ => Panic
  end.
Fixpoint add_chainS (a k : list word) (sel carry : word) : res (list word * word) :=
  match a, k with
  | [], [] => Ok ([], carry)
  | x :: a', z :: k' =>
      t <- land sel z ;;
      ' (y, carry) <- addcarryx_u56S carry x t ;;
      ' (r, carry) <- add_chainS a' k' sel carry ;;
      Ok (y :: r, carry)
  | _, _ => Panic
  end.
Fixpoint limb_bytesS (n : nat) (x : word) : res (list word) :=
  match n with
  | O => y <- as_u8 x ;; Ok [y]
  | S n' => y <- as_u8 (land x (lit 0xff)) ;; x <- shr x 8 ;; r <- limb_bytesS n' x ;; Ok (y :: r)
  end.
Fixpoint limbs_bytesS (l : list word) : res (list word) :=
  match l with
  | [] => Ok []
  | x :: l' => b <- limb_bytesS 6 x ;; r <- limbs_bytesS l' ;; Ok (b ++ r)
  end.
Definition fcode_to_bytesS (a : list word) : res (list word) :=
  ' (x, borrow) <- sub_chainS a (map lit p_limbs56) (lit 0) ;;
  sel <- cmovznz_u64S borrow (lit 0) (lit mask64) ;;
  ' (y, _) <- add_chainS x (map lit p_limbs56) sel (lit 0) ;;
  limbs_bytesS y.
Definition load56S (b : list word) : res word :=
  match b with
  | b0 :: b1 :: b2 :: b3 :: b4 :: b5 :: b6 :: _ =>
      x <- u64_add (shl_u 64 b1 8) b0 ;;
      x <- u64_add (shl_u 64 b2 16) x ;;
      x <- u64_add (shl_u 64 b3 24) x ;;
      x <- u64_add (shl_u 64 b4 32) x ;;
      x <- u64_add (shl_u 64 b5 40) x ;;
      u64_add (shl_u 64 b6 48) x
  | _ => Panic
  end.
Fixpoint fcode_from_bytes_loopS (n : nat) (b : list word) : res (list word) :=
  match n with
  | O => Ok []
  | S n' => x <- load56S b ;; r <- fcode_from_bytes_loopS n' (skipn 7 b) ;; Ok (x :: r)
  end.
Definition fcode_from_bytesS (b : list word) : res (list word) := fcode_from_bytes_loopS 8 b.


(** field/fiat_u64/prime_field.rs.  [fiat_p448_relax] copies. *)
Definition mul56S (a b : list word) : res (list word) := fcode_carry_mulS a b.
Definition square56S (a : list word) : res (list word) := fcode_carry_squareS a.
Definition add56S (a b : list word) : res (list word) := result_loose <- fcode_addS a b ;; fcode_carryS result_loose.
Definition sub56S (a b : list word) : res (list word) := result_loose <- fcode_subS a b ;; fcode_carryS result_loose.
Definition negate56S (a : list word) : res (list word) := result_loose <- fcode_oppS a ;; fcode_carryS result_loose.
Definition conditional_select56S (a b : list word) (choice : bool) : res (list word) := c <- unwrap W choice ;; fcode_selectznzS c a b.
Definition conditional_negate56S (a : list word) (choice : bool) : res (list word) :=
  self_neg <- negate56S a ;; conditional_select56S a self_neg choice.
Definition strong_reduce56S (a : list word) : res (list word) := fcode_carryS a.
Definition from_bytes56S (b : list word) : res (list word) := fcode_from_bytesS b.
Definition to_bytes56S (a : list word) : res (list word) := fcode_to_bytesS a.
Definition is_negative56S (a : list word) : res bool :=
  bytes <- to_bytes56S a ;; x <- land (nth 0 bytes (lit 0)) (lit 1) ;; test W TOne x.
End StepFiat.
