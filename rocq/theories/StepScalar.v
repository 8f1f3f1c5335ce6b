(** Scalars, as in ScalarModel.v (which see for the citations), as a sequence of steps.  The bits of the constant exponent
    in [invert] (inv_bit) are not words here.  Where ScalarModel.v writes one function for two places of the source
    (shift_loop) or adds a carry of zero (recenter), this file has the steps of the source. *)
Require Import ZArith List Bool.
From Verif Require Import Base ScalarModel Steps StepSubtle.
Import ListNotations.
Open Scope Z_scope.
Open Scope step_scope.

Definition indexS {M : steps} {A : Type} (l : list A) (i : Z) : run M A :=
  match index l i with Base.Ok a => ret a | Base.Panic => fail end.

Section StepScalar.
Variable M : steps.
Variable W : cpu M.
Local Notation res := (run M).
Local Notation Ok := ret.
Local Notation Panic := fail.
Local Notation word := (word W).
Local Notation lit := (lit W).
Local Notation u64_add := (lift2 (chk W CU64Add)).
Local Notation u64_mul := (lift2 (chk W CU64Mul)).
Local Notation i64_add := (lift2 (chk W CI64Add)).
Local Notation i64_sub := (lift2 (chk W CI64Sub)).
Local Notation i8_add := (lift2 (chk W CI8Add)).
Local Notation i8_sub := (lift2 (chk W CI8Sub)).
Local Notation land := (lift2 (bin W BAnd)).
Local Notation lor := (lift2 (bin W BOr)).
Local Notation wsub32 := (lift2 (bin W (BSub 32))).
Local Notation wmul32 := (lift2 (bin W (BMul 32))).
Local Notation as_u8 := (lift1 (un W (UCast 8))).
Local Notation as_u32 := (lift1 (un W (UCast 32))).
Local Notation shr x n := (lift1 (un W (UShr n)) x).
Local Notation shl_u w x n := (lift1 (un W (UShl w n)) x).


(** ** Addition and subtraction *)

(** scalar.rs:351-360. *)
Fixpoint add_loopS (a b : list word) (chain : word) : res (list word * word) :=
  match a, b with
  | x :: a', y :: b' =>
      t <- u64_add x y ;;
      chain <- u64_add chain t ;;
      lo <- as_u32 chain ;;
      chain <- shr chain 32 ;;
      ' (r, out) <- add_loopS a' b' chain ;;
      Ok (lo :: r, out)
  | _, _ => Ok ([], chain)
  end.

(** scalar.rs:371-379. *)
Fixpoint sub_loopS (a b : list word) (chain : word) : res (list word * word) :=
  match a, b with
  | x :: a', y :: b' =>
      t <- i64_sub x y ;;
      chain <- i64_add chain t ;;
      lo <- as_u32 chain ;;
      chain <- shr chain 32 ;;
      ' (r, out) <- sub_loopS a' b' chain ;;
      Ok (lo :: r, out)
  | _, _ => Ok ([], chain)
  end.

(** scalar.rs:388-395. *)
Fixpoint addback_loopS (a m : list word) (borrow chain : word) : res (list word) :=
  match a, m with
  | x :: a', y :: m' =>
      t <- i64_add x (land y borrow) ;;
      chain <- i64_add chain t ;;
      lo <- as_u32 chain ;;
      chain <- shr chain 32 ;;
      r <- addback_loopS a' m' borrow chain ;;
      Ok (lo :: r)
  | _, _ => Ok []
  end.

(** scalar.rs:368-398. *)
Definition sub_extraS (a b : list word) (carry : word) : res (list word) :=
  ' (result, chain) <- sub_loopS a b (lit 0) ;;
  borrow <- i64_add chain carry ;;
  addback_loopS result (map lit MODULUS) borrow (lit 0).

(** scalar.rs:345-364. *)
Definition scalar_addS (a b : list word) : res (list word) :=
  ' (result, chain) <- add_loopS a b (lit 0) ;;
  carry <- as_u32 chain ;;
  sub_extraS result (map lit MODULUS) carry.

(** scalar.rs:73-78. *)
Definition scalar_subS (a b : list word) : res (list word) := sub_extraS a b (lit 0).

(** ** Montgomery multiplication *)

(** scalar.rs:407. *)
Definition mul_addS (a b c : word) : res word := u64_add (u64_mul a b) c.

(** scalar.rs:411-415, and 421-427 with the cast of the limb that is dropped. *)
Fixpoint mac_loopS (xi : word) (y r : list word) (chain : word) : res (list word * word) :=
  match y, r with
  | yj :: y', rj :: r' =>
      t <- mul_addS xi yj rj ;;
      chain <- u64_add chain t ;;
      lo <- as_u32 chain ;;
      chain <- shr chain 32 ;;
      ' (out, chain') <- mac_loopS xi y' r' chain ;;
      Ok (lo :: out, chain')
  | _, _ => Ok ([], chain)
  end.

(** scalar.rs:409-431. *)
Definition mont_stepS (xi : word) (y : list word) (st : list word * word) : res (list word * word) :=
  let '(result, carry) := st in
  ' (result, chain) <- mac_loopS xi y result (lit 0) ;;
  saved <- as_u32 chain ;;
  multiplicand <- wmul32 (hd (lit 0) result) (lit 0xae918bc5) ;;
  ' (result, chain) <- mac_loopS multiplicand (map lit MODULUS) result (lit 0) ;;
  t <- u64_add saved carry ;;
      chain <- u64_add chain t ;;
  top <- as_u32 chain ;;
  carry <- as_u32 (shr chain 32) ;;
  Ok (tl result ++ [top], carry).

Fixpoint mont_loopS (x y : list word) (st : list word * word) : res (list word * word) :=
  match x with
  | [] => Ok st
  | xi :: x' => st' <- mont_stepS xi y st ;; mont_loopS x' y st'
  end.

(** scalar.rs:400-434. *)
Definition montgomery_multiplyS (x y : list word) : res (list word) :=
  ' (result, carry) <- mont_loopS x y (map lit scalar_zero, lit 0) ;;
  sub_extraS result (map lit MODULUS) carry.

(** scalar.rs:66-72. *)
Definition scalar_mulS (a b : list word) : res (list word) :=
  unreduced <- montgomery_multiplyS a b ;;
  montgomery_multiplyS unreduced (map lit R2).

(** scalar.rs:178-180. *)
Definition scalar_squareS (a : list word) : res (list word) := montgomery_multiplyS a a.

(** ** Inversion, scalar.rs:181-247 *)

(** Lines 189-197. *)
Definition inv_precompS (s : list word) : res (list (list word)) :=
  p0 <- montgomery_multiplyS s (map lit R2) ;;
  sq <- montgomery_multiplyS p0 p0 ;;
  p1 <- montgomery_multiplyS p0 sq ;;
  p2 <- montgomery_multiplyS p1 sq ;;
  p3 <- montgomery_multiplyS p2 sq ;;
  p4 <- montgomery_multiplyS p3 sq ;;
  p5 <- montgomery_multiplyS p4 sq ;;
  p6 <- montgomery_multiplyS p5 sq ;;
  p7 <- montgomery_multiplyS p6 sq ;;
  Ok [p0; p1; p2; p3; p4; p5; p6; p7].

(** Loop state of lines 200-202 and 183. *)
Record inv_stateS := { iv_resultS : list word; iv_residueS : Z; iv_trailingS : Z; iv_startedS : bool }.

(** Lines 207-242. *)
Definition inv_stepS (pre : list (list word)) (i : Z) (st : inv_stateS) : res inv_stateS :=
  result <- (if iv_startedS st then scalar_squareS (iv_resultS st) else Ok (iv_resultS st)) ;;
  b <- (match inv_bit i with Base.Ok b => Ok b | Base.Panic => Panic end) ;;
  let residue := Z.lor (Base.shl_u 32 (iv_residueS st) 1) b in
  let '(trailing, residue) :=
    if Base.shr residue 3 =? 0 then (iv_trailingS st, residue) else (residue, 0) in
  if (0 <? trailing) && (Z.land trailing 7 =? 0) then
    p <- indexS pre (Base.shr trailing 4) ;;
    result <- (if iv_startedS st then montgomery_multiplyS result p else Ok p) ;;
    Ok {| iv_resultS := result; iv_residueS := residue; iv_trailingS := 0; iv_startedS := true |}
  else
    Ok {| iv_resultS := result; iv_residueS := residue; iv_trailingS := Base.shl_u 64 trailing 1; iv_startedS := iv_startedS st |}.

Fixpoint inv_loopS (n : nat) (i : Z) (pre : list (list word)) (st : inv_stateS) : res inv_stateS :=
  match n with
  | O => Ok st
  | S n' => st' <- inv_stepS pre i st ;; inv_loopS n' (i - 1) pre st'
  end.

Definition scalar_invertS (s : list word) : res (list word) :=
  pre <- inv_precompS s ;;
  st <- inv_loopS 449 445 pre
          {| iv_resultS := map lit scalar_zero; iv_residueS := 0; iv_trailingS := 0; iv_startedS := false |} ;;
  montgomery_multiplyS (iv_resultS st) (map lit scalar_one).

(** ** Halving, scalar.rs:250-268 *)

(** Lines 256-260. *)
Fixpoint halve_add_loopS (s m : list word) (mask chain : word) : res (list word * word) :=
  match s, m with
  | x :: s', y :: m' =>
      t <- u64_add x (land y mask) ;;
      chain <- u64_add chain t ;;
      lo <- as_u32 chain ;;
      chain <- shr chain 32 ;;
      ' (r, out) <- halve_add_loopS s' m' mask chain ;;
      Ok (lo :: r, out)
  | _, _ => Ok ([], chain)
  end.

(** Lines 262-265. *)
Fixpoint halve_shift_loopS (s : list word) (chain : word) : res (list word) :=
  match s with
  | [] => Ok []
  | [x] => z <- lor (shr x 1) (shl_u 32 chain 31) ;; Ok [z]
  | x :: ((y :: _) as s') => z <- lor (shr x 1) (shl_u 32 y 31) ;; r <- halve_shift_loopS s' chain ;; Ok (z :: r)
  end.

Definition scalar_halveS (s : list word) : res (list word) :=
  mask <- wsub32 (lit 0) (land (hd (lit 0) s) (lit 1)) ;;
  ' (r, chain) <- halve_add_loopS s (map lit MODULUS) mask (lit 0) ;;
  halve_shift_loopS r chain.

(** scalar.rs:95-100. *)
Fixpoint scalar_div_by_fourS (s : list word) : res (list word) :=
  match s with
  | [] => Ok []
  | [x] => z <- shr x 2 ;; Ok [z]
  | x :: ((y :: _) as s') => z <- lor (shl_u 32 y 30) (shr x 2) ;; r <- scalar_div_by_fourS s' ;; Ok (z :: r)
  end.

(** ** Bytes and bits *)

(** scalar.rs:149-165. *)
Fixpoint scalar_from_bytesS (b : list word) : res (list word) :=
  match b with
  | b0 :: b1 :: b2 :: b3 :: b' =>
      x <- as_u32 (lor (lor (lor b0 (shl_u 64 b1 8)) (shl_u 64 b2 16)) (shl_u 64 b3 24)) ;;
      r <- scalar_from_bytesS b' ;;
      Ok (x :: r)
  | _ => Ok []
  end.

(** scalar.rs:166-177. *)
Fixpoint scalar_to_bytesS (s : list word) : res (list word) :=
  match s with
  | [] => Ok []
  | l :: s' =>
      x0 <- as_u8 l ;; l <- shr l 8 ;;
      x1 <- as_u8 l ;; l <- shr l 8 ;;
      x2 <- as_u8 l ;; l <- shr l 8 ;;
      x3 <- as_u8 l ;; _ <- shr l 8 ;;
      r <- scalar_to_bytesS s' ;;
      Ok (x0 :: x1 :: x2 :: x3 :: r)
  end.

(** scalar.rs:27-38. *)
Definition scalar_eqbS (a b : list word) : res bool :=
  a <- scalar_to_bytesS a ;;
  b <- scalar_to_bytesS b ;;
  ct_eq_sliceS M W a b.

(** scalar.rs:135-148. *)
Fixpoint testsS (js : list nat) (l : word) : res (list bool) :=
  match js with
  | [] => Ok []
  | j :: js' =>
      x <- land l (lit (Base.shl_u 32 1 (Z.of_nat j))) ;;
      b <- test W TNonZero x ;;
      r <- testsS js' l ;;
      Ok (b :: r)
  end.
Fixpoint scalar_bitsS (s : list word) : res (list bool) :=
  match s with [] => Ok [] | l :: s' => b <- testsS (seq 0 32) l ;; r <- scalar_bitsS s' ;; Ok (b ++ r) end.

(** scalar.rs:277-292 (57 bytes). *)
Definition scalar_from_canonical_bytesS (b : list word) : res (option (list word)) :=
  b56 <- indexS b 56 ;;
  t <- test W TNonZero b56 ;;
  t <- branch W t ;;
  t <- (if t : bool then Ok true else b55 <- indexS b 55 ;; x <- shr b55 6 ;; t <- test W TNonZero x ;; branch W t) ;;
  if t : bool then Ok None else
  candidate <- scalar_from_bytesS (firstn 56 b) ;;
  reduced <- sub_extraS candidate (map lit MODULUS) (lit 0) ;;
  t <- scalar_eqbS candidate reduced ;;
  t <- branch W t ;;
  if t : bool then Ok (Some candidate) else Ok None.

(** scalar.rs:304-326 (114 bytes). *)
Definition scalar_from_bytes_mod_order_wideS (b : list word) : res (list word) :=
  lo <- scalar_from_bytesS (firstn 56 b) ;;
  lo <- montgomery_multiplyS lo (map lit R1) ;;
  hi <- scalar_from_bytesS (firstn 56 (skipn 56 b)) ;;
  hi <- montgomery_multiplyS hi (map lit R2) ;;
  top <- scalar_from_bytesS (firstn 2 (skipn 112 b) ++ repeat (lit 0) 54) ;;
  top <- montgomery_multiplyS top (map lit R2) ;;
  top <- montgomery_multiplyS top (map lit R2) ;;
  t <- scalar_addS lo hi ;;
  scalar_addS t top.

(** ** Signed radix-16 recoding, scalar.rs:105-133 *)

(** Lines 121-124. *)
Fixpoint nibblesS (b : list word) : res (list word) :=
  match b with
  | [] => Ok []
  | x :: b' =>
      lo <- land (shr x 0) (lit 15) ;;
      hi <- land (shr x 4) (lit 15) ;;
      r <- nibblesS b' ;;
      Ok (lo :: hi :: r)
  end.

(** Lines 126-130: x is output[i], l the rest of the output. *)
Fixpoint recenterS (x : word) (l : list word) : res (list word) :=
  match l with
  | [] => Ok [x]
  | y :: l' =>
      carry <- shr (i8_add x (lit 8)) 4 ;;
      d <- i8_sub x (lift1 (un W (UShlI 4)) carry) ;;
      y <- i8_add y carry ;;
      r <- recenterS y l' ;;
      Ok (d :: r)
  end.

Definition to_radix_16S (s : list word) : res (list word) :=
  bytes <- scalar_to_bytesS s ;;
  l <- nibblesS bytes ;;
  match l ++ [lit 0] with
  | [] => Ok []
  | x :: l' => recenterS x l'
  end.

(** ** Digits, src/curve/scalar_mul/variable_base.rs:22-25 *)
(** The absolute value and the sign of a digit. *)
Definition digit_absS (d : word) : res (word * word) :=
  mask <- shr d 7 ;;
  sign <- land mask (lit 1) ;;
  abs_value <- as_u32 (lift2 (bin W BXor) (i8_add d mask) mask) ;;
  Ok (abs_value, sign).
(** Line 28. *)
Definition digit_choiceS (sign : word) : res bool := x <- as_u8 sign ;; test W TOne x.
(** edwards/extended.rs:136. *)
Definition mod_fourS (s : list word) : res word := x <- indexS s 0 ;; land x (lit 3).
(** edwards/extended.rs:59, 174. *)
Definition sign_bitS (sign : word) : res bool := x <- shr sign 7 ;; test W TOne x.
Definition sign_byteS (c : bool) : res word := x <- unwrap W c ;; shl_u 8 x 7.
End StepScalar.
