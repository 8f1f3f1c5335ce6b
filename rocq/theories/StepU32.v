(** The 32-bit field backend, as in FieldU32Model.v (which see for the citations), as a sequence of steps.  Operands are
    computed left to right, array elements in order. *)
Require Import ZArith List Bool.
From Verif Require Import Base FieldU32Model Steps StepSubtle.
Import ListNotations.
Open Scope Z_scope.
Open Scope step_scope.

Section StepU32.
Variable M : steps.
Variable W : cpu M.
Local Notation res := (run M).
Local Notation Ok := ret.
Local Notation Panic := fail.
Local Notation word := (word W).
Local Notation lit := (lit W).
Local Notation u32_add := (lift2 (chk W CU32Add)).
Local Notation u32_sub := (lift2 (chk W CU32Sub)).
Local Notation u32_mul := (lift2 (chk W CU32Mul)).
Local Notation u64_add := (lift2 (chk W CU64Add)).
Local Notation u64_mul := (lift2 (chk W CU64Mul)).
Local Notation i64_add := (lift2 (chk W CI64Add)).
Local Notation i64_sub := (lift2 (chk W CI64Sub)).
Local Notation i128_add := (lift2 (chk W CI128Add)).
Local Notation i128_sub := (lift2 (chk W CI128Sub)).
Local Notation i128_mul := (lift2 (chk W CI128Mul)).
Local Notation land := (lift2 (bin W BAnd)).
Local Notation lor := (lift2 (bin W BOr)).
Local Notation wadd32 := (lift2 (bin W (BAdd 32))).
Local Notation wsub32 := (lift2 (bin W (BSub 32))).
Local Notation wadd := (lift2 (bin W (BAdd 64))).
Local Notation wsub := (lift2 (bin W (BSub 64))).
Local Notation wmul := (lift2 (bin W (BMul 64))).
Local Notation as_u8 := (lift1 (un W (UCast 8))).
Local Notation as_u32 := (lift1 (un W (UCast 32))).
Local Notation shr x n := (lift1 (un W (UShr n)) x).
Local Notation shl_u w x n := (lift1 (un W (UShl w n)) x).

(** ** Carries: prime_field.rs:226-249.  The source updates [self] in place from limb 15 down to limb 1, so every
    right-hand side reads the old neighbour (limb 8 already incremented). *)
Definition weak_reduce28S (a : list word) : res (list word) :=
  match a with
  | [a0; a1; a2; a3; a4; a5; a6; a7; a8; a9; a10; a11; a12; a13; a14; a15] =>
      limb16_mod <- shr a15 28 ;;
      a8 <- u32_add a8 limb16_mod ;;
      c15 <- u32_add (land a15 (lit mask28)) (shr a14 28) ;;
      c14 <- u32_add (land a14 (lit mask28)) (shr a13 28) ;;
      c13 <- u32_add (land a13 (lit mask28)) (shr a12 28) ;;
      c12 <- u32_add (land a12 (lit mask28)) (shr a11 28) ;;
      c11 <- u32_add (land a11 (lit mask28)) (shr a10 28) ;;
      c10 <- u32_add (land a10 (lit mask28)) (shr a9 28) ;;
      c9 <- u32_add (land a9 (lit mask28)) (shr a8 28) ;;
      c8 <- u32_add (land a8 (lit mask28)) (shr a7 28) ;;
      c7 <- u32_add (land a7 (lit mask28)) (shr a6 28) ;;
      c6 <- u32_add (land a6 (lit mask28)) (shr a5 28) ;;
      c5 <- u32_add (land a5 (lit mask28)) (shr a4 28) ;;
      c4 <- u32_add (land a4 (lit mask28)) (shr a3 28) ;;
      c3 <- u32_add (land a3 (lit mask28)) (shr a2 28) ;;
      c2 <- u32_add (land a2 (lit mask28)) (shr a1 28) ;;
      c1 <- u32_add (land a1 (lit mask28)) (shr a0 28) ;;
      c0 <- u32_add (land a0 (lit mask28)) limb16_mod ;;
      Ok [c0; c1; c2; c3; c4; c5; c6; c7; c8; c9; c10; c11; c12; c13; c14; c15]
  | _ => Panic
  end.

(** ** Addition: prime_field.rs:42-49 and 395-414. *)
Fixpoint add_limbsS (a b : list word) : res (list word) :=
  match a, b with
  | [], [] => Ok []
  | x :: a', y :: b' => c <- u32_add x y ;; r <- add_limbsS a' b' ;; Ok (c :: r)
  | _, _ => Panic
  end.
Definition add28S (a b : list word) : res (list word) := inter_res <- add_limbsS a b ;; weak_reduce28S inter_res.

(** ** Subtraction: prime_field.rs:50-58, bias 197-224, sub_no_reduce 418-437. *)
Definition bias28S (a : list word) (b : word) : res (list word) :=
  match a with
  | [a0; a1; a2; a3; a4; a5; a6; a7; a8; a9; a10; a11; a12; a13; a14; a15] =>
      co1 <- u32_mul b (lit mask28) ;;
      co2 <- u32_sub co1 b ;;
      all [wadd32 a0 co1; wadd32 a1 co1; wadd32 a2 co1; wadd32 a3 co1;
          wadd32 a4 co1; wadd32 a5 co1; wadd32 a6 co1; wadd32 a7 co1;
          wadd32 a8 co2; wadd32 a9 co1; wadd32 a10 co1; wadd32 a11 co1;
          wadd32 a12 co1; wadd32 a13 co1; wadd32 a14 co1; wadd32 a15 co1]
  | _ => Panic
  end.
Fixpoint sub_limbsS (a b : list word) : res (list word) :=
  match a, b with
  | [], [] => Ok []
  | x :: a', y :: b' => c <- wsub32 x y ;; r <- sub_limbsS a' b' ;; Ok (c :: r)
  | _, _ => Panic
  end.
Definition sub28S (a b : list word) : res (list word) :=
  a' <- bias28S a (lit 2) ;; inter_res <- sub_limbsS a' b ;; weak_reduce28S inter_res.

(** prime_field.rs:192-194. *)
Definition negate28S (a : list word) : res (list word) := sub28S (map lit zero28) a.

(** ** Strong reduction: prime_field.rs:254-391.  The sixteen unrolled copies of the three-line borrow step
    (274-322) and of the carry step (337-386) are written as recursions over the limbs; the mask added to limb 8 is computed
    before the carries here, in the source when its turn comes. *)
Fixpoint borrow_chainS (limbs consts : list word) (scarry : word) : res (list word * word) :=
  match limbs, consts with
  | [], [] => Ok ([], scarry)
  | x :: limbs', k :: consts' =>
      t <- i64_sub x k ;;
      scarry <- i64_add scarry t ;;
      y <- land (as_u32 scarry) (lit mask28) ;;
      scarry <- shr scarry 28 ;;
      ' (r, s) <- borrow_chainS limbs' consts' scarry ;;
      Ok (y :: r, s)
  | _, _ => Panic
  end.
Fixpoint carry_chainS (limbs adds : list word) (carry : word) : res (list word * word) :=
  match limbs, adds with
  | [], [] => Ok ([], carry)
  | x :: limbs', y :: adds' =>
      t <- u64_add x y ;;
      carry <- u64_add carry t ;;
      y <- land (as_u32 carry) (lit mask28) ;;
      carry <- shr carry 28 ;;
      ' (r, s) <- carry_chainS limbs' adds' carry ;;
      Ok (y :: r, s)
  | _, _ => Panic
  end.
Definition strong_reduce28S (a : list word) : res (list word) :=
  a <- weak_reduce28S a ;;
  ' (a, scarry) <- borrow_chainS a (map lit p_limbs) (lit 0) ;;
  scarry_mask <- land (as_u32 scarry) (lit mask28) ;;
  m' <- land scarry_mask (lit 0xfffffffffffffffe) ;;
  ' (a, carry) <- carry_chainS a [scarry_mask; scarry_mask; scarry_mask; scarry_mask; scarry_mask; scarry_mask; scarry_mask; scarry_mask; m'; scarry_mask; scarry_mask; scarry_mask; scarry_mask; scarry_mask; scarry_mask; scarry_mask] (lit 0) ;;
  _ <- guard W GLess2 carry ;;
  t <- i64_add carry scarry ;;
  _ <- guard W GZero t ;;
  Ok a.

(** ** Serialisation: prime_field.rs:141-182. *)
Definition load7S (input : list word) : res word :=
  match input with
  | i0 :: i1 :: i2 :: i3 :: i4 :: i5 :: i6 :: _ =>
      lor (lor (lor (lor (lor (lor i0 (shl_u 64 i1 8)) (shl_u 64 i2 16)) (shl_u 64 i3 24))
            (shl_u 64 i4 32)) (shl_u 64 i5 40)) (shl_u 64 i6 48)
  | _ => Panic
  end.
Fixpoint from_bytes_loopS (n : nat) (b : list word) : res (list word) :=
  match n with
  | O => Ok []
  | S n' =>
      out <- load7S b ;;
      lo <- land (as_u32 out) (lit mask28) ;;
      hi <- as_u32 (shr out 28) ;;
      r <- from_bytes_loopS n' (skipn 7 b) ;;
      Ok (lo :: hi :: r)
  end.
Definition from_bytes28S (b : list word) : res (list word) := from_bytes_loopS 8 b.

Fixpoint push_bytesS (n : nat) (l : word) : res (list word) :=
  match n with
  | O => Ok []
  | S n' => x <- as_u8 l ;; l <- shr l 8 ;; r <- push_bytesS n' l ;; Ok (x :: r)
  end.
Fixpoint to_bytes_loopS (limbs : list word) : res (list word) :=
  match limbs with
  | [] => Ok []
  | x :: y :: limbs' =>
      l <- u64_add x (shl_u 64 y 28) ;;
      bytes <- push_bytesS 7 l ;;
      r <- to_bytes_loopS limbs' ;;
      Ok (bytes ++ r)
  | _ => Panic
  end.
Definition to_bytes28S (a : list word) : res (list word) := limbs <- strong_reduce28S a ;; to_bytes_loopS limbs.

(** prime_field.rs:123-126. *)
Definition is_negative28S (a : list word) : res bool :=
  bytes <- to_bytes28S a ;; x <- land (nth 0 bytes (lit 0)) (lit 1) ;; test W TOne x.

(** ** Selection: prime_field.rs:60-92.  [Choice] is a boolean; selecting limb by limb. *)
Fixpoint select_limbsS (a b : list word) (choice : bool) : res (list word) :=
  match a, b with
  | x :: a', y :: b' => c <- selectS M W choice x y ;; r <- select_limbsS a' b' choice ;; Ok (c :: r)
  | _, _ => Ok []
  end.
Definition conditional_select28S (a b : list word) (choice : bool) : res (list word) := select_limbsS a b choice.
Definition conditional_negate28S (a : list word) (choice : bool) : res (list word) :=
  self_neg <- negate28S a ;; conditional_select28S a self_neg choice.

(** ** Multiplication: karatsuba.rs.  Checked i128 arithmetic on sub-expressions that may panic. *)
Local Notation "x +! y" := (i128_add x y) (at level 50, left associativity).
Local Notation "x -! y" := (i128_sub x y) (at level 50, left associativity).
Local Notation "$ x" := (Ok x) (at level 9, x at level 9, format "$ x").
(** karatsuba.rs:42. *)
Definition mS (a b : word) : res word := i128_mul a b.

(** karatsuba.rs:17-284. *)
Definition mul28S (a b : list word) : res (list word) :=
  match a, b with
  | [a0; a1; a2; a3; a4; a5; a6; a7; a8; a9; a10; a11; a12; a13; a14; a15],
    [b0; b1; b2; b3; b4; b5; b6; b7; b8; b9; b10; b11; b12; b13; b14; b15] =>
      aa0 <- wadd32 a0 a8 ;; aa1 <- wadd32 a1 a9 ;;
      aa2 <- wadd32 a2 a10 ;; aa3 <- wadd32 a3 a11 ;;
      aa4 <- wadd32 a4 a12 ;; aa5 <- wadd32 a5 a13 ;;
      aa6 <- wadd32 a6 a14 ;; aa7 <- wadd32 a7 a15 ;;
      bb0 <- wadd32 b0 b8 ;; bb1 <- wadd32 b1 b9 ;;
      bb2 <- wadd32 b2 b10 ;; bb3 <- wadd32 b3 b11 ;;
      bb4 <- wadd32 b4 b12 ;; bb5 <- wadd32 b5 b13 ;;
      bb6 <- wadd32 b6 b14 ;; bb7 <- wadd32 b7 b15 ;;
      let z0 := lit 0 in
      z2 <- mS a0 b0 ;;
      z1 <- mS aa0 bb0 -! $z2 ;;
      z0 <- $z0 +! (mS a8 b8 +! $z2) ;;
      z2 <- mS aa7 bb1 +! mS aa6 bb2 +! mS aa5 bb3 +! mS aa4 bb4 +! mS aa3 bb5 +! mS aa2 bb6 +! mS aa1 bb7 ;;
      z1 <- $z1 +! (mS a15 b9 +! mS a14 b10 +! mS a13 b11 +! mS a12 b12 +! mS a11 b13 +! mS a10 b14 +! mS a9 b15 +!
          $z2) ;;
      z0 <- $z0 -! (mS a7 b1 +! mS a6 b2 +! mS a5 b3 +! mS a4 b4 +! mS a3 b5 +! mS a2 b6 +! mS a1 b7 -! $z2) ;;
      c0 <- as_u32 (land z0 (lit mask28)) ;;
      c8 <- as_u32 (land z1 (lit mask28)) ;;
      z0 <- shr z0 28 ;;
      z1 <- shr z1 28 ;;
      z2 <- mS a1 b0 +! mS a0 b1 ;;
      z1 <- $z1 +! (mS aa1 bb0 +! mS aa0 bb1 -! $z2) ;;
      z0 <- $z0 +! (mS a9 b8 +! mS a8 b9 +! $z2) ;;
      z2 <- mS aa7 bb2 +! mS aa6 bb3 +! mS aa5 bb4 +! mS aa4 bb5 +! mS aa3 bb6 +! mS aa2 bb7 ;;
      z1 <- $z1 +! (mS a15 b10 +! mS a14 b11 +! mS a13 b12 +! mS a12 b13 +! mS a11 b14 +! mS a10 b15 +! $z2) ;;
      z0 <- $z0 -! (mS a7 b2 +! mS a6 b3 +! mS a5 b4 +! mS a4 b5 +! mS a3 b6 +! mS a2 b7 -! $z2) ;;
      c1 <- as_u32 (land z0 (lit mask28)) ;;
      c9 <- as_u32 (land z1 (lit mask28)) ;;
      z0 <- shr z0 28 ;;
      z1 <- shr z1 28 ;;
      z2 <- mS a2 b0 +! mS a1 b1 +! mS a0 b2 ;;
      z1 <- $z1 +! (mS aa0 bb2 +! mS aa1 bb1 +! mS aa2 bb0 -! $z2) ;;
      z0 <- $z0 +! (mS a10 b8 +! mS a9 b9 +! mS a8 b10 +! $z2) ;;
      z2 <- mS aa7 bb3 +! mS aa6 bb4 +! mS aa5 bb5 +! mS aa4 bb6 +! mS aa3 bb7 ;;
      z1 <- $z1 +! (mS a15 b11 +! mS a14 b12 +! mS a13 b13 +! mS a12 b14 +! mS a11 b15 +! $z2) ;;
      z0 <- $z0 -! (mS a7 b3 +! mS a6 b4 +! mS a5 b5 +! mS a4 b6 +! mS a3 b7 -! $z2) ;;
      c2 <- as_u32 (land z0 (lit mask28)) ;;
      c10 <- as_u32 (land z1 (lit mask28)) ;;
      z0 <- shr z0 28 ;;
      z1 <- shr z1 28 ;;
      z2 <- mS a3 b0 +! mS a2 b1 +! mS a1 b2 +! mS a0 b3 ;;
      z1 <- $z1 +! (mS aa3 bb0 +! mS aa2 bb1 +! mS aa1 bb2 +! mS aa0 bb3 -! $z2) ;;
      z0 <- $z0 +! (mS a11 b8 +! mS a10 b9 +! mS a9 b10 +! mS a8 b11 +! $z2) ;;
      z2 <- mS aa7 bb4 +! mS aa6 bb5 +! mS aa5 bb6 +! mS aa4 bb7 ;;
      z0 <- $z0 -! (mS a7 b4 +! mS a6 b5 +! mS a5 b6 +! mS a4 b7 -! $z2) ;;
      z1 <- $z1 +! (mS a15 b12 +! mS a14 b13 +! mS a13 b14 +! mS a12 b15 +! $z2) ;;
      c3 <- as_u32 (land z0 (lit mask28)) ;;
      c11 <- as_u32 (land z1 (lit mask28)) ;;
      z0 <- shr z0 28 ;;
      z1 <- shr z1 28 ;;
      z2 <- mS a4 b0 +! mS a3 b1 +! mS a2 b2 +! mS a1 b3 +! mS a0 b4 ;;
      z1 <- $z1 +! (mS aa4 bb0 +! mS aa3 bb1 +! mS aa2 bb2 +! mS aa1 bb3 +! mS aa0 bb4 -! $z2) ;;
      z0 <- $z0 +! (mS a12 b8 +! mS a11 b9 +! mS a10 b10 +! mS a9 b11 +! mS a8 b12 +! $z2) ;;
      z2 <- mS aa7 bb5 +! mS aa6 bb6 +! mS aa5 bb7 ;;
      z1 <- $z1 +! (mS a15 b13 +! mS a14 b14 +! mS a13 b15 +! $z2) ;;
      z0 <- $z0 -! (mS a7 b5 +! mS a6 b6 +! mS a5 b7 -! $z2) ;;
      c4 <- as_u32 (land z0 (lit mask28)) ;;
      c12 <- as_u32 (land z1 (lit mask28)) ;;
      z0 <- shr z0 28 ;;
      z1 <- shr z1 28 ;;
      z2 <- mS a5 b0 +! mS a4 b1 +! mS a3 b2 +! mS a2 b3 +! mS a1 b4 +! mS a0 b5 ;;
      z1 <- $z1 +! (mS aa5 bb0 +! mS aa4 bb1 +! mS aa3 bb2 +! mS aa2 bb3 +! mS aa1 bb4 +! mS aa0 bb5 -! $z2) ;;
      z0 <- $z0 +! (mS a13 b8 +! mS a12 b9 +! mS a11 b10 +! mS a10 b11 +! mS a9 b12 +! mS a8 b13 +! $z2) ;;
      z2 <- mS aa7 bb6 +! mS aa6 bb7 ;;
      z1 <- $z1 +! (mS a15 b14 +! mS a14 b15 +! $z2) ;;
      z0 <- $z0 -! (mS a7 b6 +! mS a6 b7 -! $z2) ;;
      c5 <- as_u32 (land z0 (lit mask28)) ;;
      c13 <- as_u32 (land z1 (lit mask28)) ;;
      z0 <- shr z0 28 ;;
      z1 <- shr z1 28 ;;
      z2 <- mS a6 b0 +! mS a5 b1 +! mS a4 b2 +! mS a3 b3 +! mS a2 b4 +! mS a1 b5 +! mS a0 b6 ;;
      z1 <- $z1 +! (mS aa6 bb0 +! mS aa5 bb1 +! mS aa4 bb2 +! mS aa3 bb3 +! mS aa2 bb4 +! mS aa1 bb5 +! mS aa0 bb6 -!
          $z2) ;;
      z0 <- $z0 +! (mS a14 b8 +! mS a13 b9 +! mS a12 b10 +! mS a11 b11 +! mS a10 b12 +! mS a9 b13 +! mS a8 b14 +!
          $z2) ;;
      z2 <- mS aa7 bb7 ;;
      z1 <- $z1 +! (mS a15 b15 +! $z2) ;;
      z0 <- $z0 -! (mS a7 b7 -! $z2) ;;
      c6 <- as_u32 (land z0 (lit mask28)) ;;
      c14 <- as_u32 (land z1 (lit mask28)) ;;
      z0 <- shr z0 28 ;;
      z1 <- shr z1 28 ;;
      z2 <- mS a7 b0 +! mS a6 b1 +! mS a5 b2 +! mS a4 b3 +! mS a3 b4 +! mS a2 b5 +! mS a1 b6 +! mS a0 b7 ;;
      z1 <- $z1 +! (mS aa7 bb0 +! mS aa6 bb1 +! mS aa5 bb2 +! mS aa4 bb3 +! mS aa3 bb4 +! mS aa2 bb5 +! mS aa1 bb6 +!
          mS aa0 bb7 -! $z2) ;;
      z0 <- $z0 +! (mS a15 b8 +! mS a14 b9 +! mS a13 b10 +! mS a12 b11 +! mS a11 b12 +! mS a10 b13 +! mS a9 b14 +! mS
          a8 b15 +! $z2) ;;
      z2 <- $(lit 0) ;;
      z1 <- $z1 +! $z2 ;;
      z0 <- $z0 +! $z2 ;;
      c7 <- as_u32 (land z0 (lit mask28)) ;;
      c15 <- as_u32 (land z1 (lit mask28)) ;;
      z0 <- shr z0 28 ;;
      z1 <- shr z1 28 ;;
      z0 <- $z0 +! ($z1 +! $c8) ;;
      z1 <- $z1 +! $c0 ;;
      c8 <- as_u32 (land z0 (lit mask28)) ;;
      c0 <- as_u32 (land z1 (lit mask28)) ;;
      z0 <- shr z0 28 ;;
      z1 <- shr z1 28 ;;
      c9 <- u32_add c9 (as_u32 (land z0 (lit mask28))) ;;
      c1 <- u32_add c1 (as_u32 (land z1 (lit mask28))) ;;
      Ok [c0; c1; c2; c3; c4; c5; c6; c7; c8; c9; c10; c11; c12; c13; c14; c15]
  | _, _ => Panic
  end.

(** karatsuba.rs:287-394.  u64 accumulators with wrapping arithmetic; [for] loops are folds over the index range. *)
Definition widemulS (a b : word) : res word := u64_mul a b.

Definition set_nthS (i : nat) (v : word) (l : list word) : list word := firstn i l ++ v :: skipn (S i) l.
Section Square.
  Variable a : list word.
  Local Notation "a [ i ]" := (nth i a (lit 0)) (at level 9, i at level 200, format "a [ i ]").

  (** Lines 300-324. *)
  Definition square_j0S (aa : list word) (c : list word) : res (word * word * list word) :=
    let accum0 := lit 0 in let accum1 := lit 0 in
    t <- widemulS (a[0]) (a[0]) ;;
    accum2 <- wadd (lit 0) t ;;
    accum1 <- wadd accum1 (wmul (aa[0]) (aa[0])) ;;
    t <- widemulS (a[8]) (a[8]) ;;
    accum0 <- wadd accum0 t ;;
    accum1 <- wsub accum1 accum2 ;;
    accum0 <- wadd accum0 accum2 ;;
    ' (accum0, accum1, accum2) <-
      for_eachS (range 1 4) (fun i '((accum0, accum1, accum2) : word * word * word) =>
        accum2 <- wadd accum2 (shl_u 64 (wmul (aa[i]) (aa[8 - i])) 1) ;;
        t <- widemulS (a[8 + i]) (a[16 - i]) ;;
        accum1 <- wadd accum1 (shl_u 64 t 1) ;;
        t <- widemulS (a[i]) (a[8 - i]) ;;
        accum0 <- wsub accum0 (shl_u 64 t 1) ;;
        Ok (accum0, accum1, accum2)) (accum0, accum1, lit 0) ;;
    accum2 <- wadd accum2 (wmul (aa[4]) (aa[4])) ;;
    t <- widemulS (a[12]) (a[12]) ;;
    accum1 <- wadd (wadd accum1 t) accum2 ;;
    t <- widemulS (a[4]) (a[4]) ;;
    accum0 <- wadd (wsub accum0 t) accum2 ;;
    t <- land (as_u32 accum0) (lit mask28) ;;
    let c := set_nthS 0 t c in
    t <- land (as_u32 accum1) (lit mask28) ;;
    let c := set_nthS 8 t c in
    accum0 <- shr accum0 28 ;;
    accum1 <- shr accum1 28 ;;
    Ok (accum0, accum1, c).

  (** The body of the loop, lines 327-364. *)
  Definition square_jS (aa : list word) (j : nat) (st : word * word * list word) : res (word * word * list word) :=
    let '(accum0, accum1, c) := st in
    ' (accum0, accum1, accum2) <-
      for_eachS (range 0 (j / 2 + 1)) (fun i '((accum0, accum1, accum2) : word * word * word) =>
        if negb (i =? j - i)%nat then
          t <- widemulS (a[j - i]) (a[i]) ;;
          accum2 <- wadd accum2 (shl_u 64 t 1) ;;
          accum1 <- wadd accum1 (shl_u 64 (wmul (aa[j - i]) (aa[i])) 1) ;;
          t <- widemulS (a[8 + (j - i)]) (a[8 + i]) ;;
          accum0 <- wadd accum0 (shl_u 64 t 1) ;;
          Ok (accum0, accum1, accum2)
        else
          t <- widemulS (a[j / 2]) (a[j / 2]) ;;
          accum2 <- wadd accum2 t ;;
          accum1 <- wadd accum1 (wmul (aa[j / 2]) (aa[j / 2])) ;;
          t <- widemulS (a[8 + j / 2]) (a[8 + j / 2]) ;;
          accum0 <- wadd accum0 t ;;
          Ok (accum0, accum1, accum2)) (accum0, accum1, lit 0) ;;
    accum1 <- wsub accum1 accum2 ;;
    accum0 <- wadd accum0 accum2 ;;
    ' (accum0, accum1, accum2) <-
      for_eachS (range 1 ((8 - j) / 2 + 1)) (fun i '((accum0, accum1, accum2) : word * word * word) =>
        if negb (j + i =? 8 - i)%nat then
          accum2 <- wadd accum2 (shl_u 64 (wmul (aa[8 - i]) (aa[j + i])) 1) ;;
          t <- widemulS (a[16 - i]) (a[8 + j + i]) ;;
          accum1 <- wadd accum1 (shl_u 64 t 1) ;;
          t <- widemulS (a[8 - i]) (a[j + i]) ;;
          accum0 <- wsub accum0 (shl_u 64 t 1) ;;
          Ok (accum0, accum1, accum2)
        else
          accum2 <- wadd accum2 (wmul (aa[j + i]) (aa[j + i])) ;;
          t <- widemulS (a[8 + j + i]) (a[8 + j + i]) ;;
          accum1 <- wadd accum1 t ;;
          t <- widemulS (a[j + i]) (a[j + i]) ;;
          accum0 <- wsub accum0 t ;;
          Ok (accum0, accum1, accum2)) (accum0, accum1, lit 0) ;;
    accum1 <- wadd accum1 accum2 ;;
    accum0 <- wadd accum0 accum2 ;;
    t <- land (as_u32 accum0) (lit mask28) ;;
    let c := set_nthS j t c in
    t <- land (as_u32 accum1) (lit mask28) ;;
    let c := set_nthS (j + 8) t c in
    accum0 <- shr accum0 28 ;;
    accum1 <- shr accum1 28 ;;
    Ok (accum0, accum1, c).

  (** Lines 368-379. *)
  Definition square_j7S (aa : list word) (st : word * word * list word) : res (word * word * list word) :=
    let '(accum0, accum1, c) := st in
    ' (accum0, accum1, accum2) <-
      for_eachS (range 0 4) (fun i '((accum0, accum1, accum2) : word * word * word) =>
        t <- widemulS (a[7 - i]) (a[i]) ;;
        accum2 <- wadd accum2 (shl_u 64 t 1) ;;
        accum1 <- wadd accum1 (shl_u 64 (wmul (aa[7 - i]) (aa[i])) 1) ;;
        t <- widemulS (a[15 - i]) (a[8 + i]) ;;
        accum0 <- wadd accum0 (shl_u 64 t 1) ;;
        Ok (accum0, accum1, accum2)) (accum0, accum1, lit 0) ;;
    accum1 <- wsub accum1 accum2 ;;
    accum0 <- wadd accum0 accum2 ;;
    t <- land (as_u32 accum0) (lit mask28) ;;
    let c := set_nthS 7 t c in
    t <- land (as_u32 accum1) (lit mask28) ;;
    let c := set_nthS 15 t c in
    accum0 <- shr accum0 28 ;;
    accum1 <- shr accum1 28 ;;
    Ok (accum0, accum1, c).

  (** Lines 383-393. *)
  Definition square_finalS (st : word * word * list word) : res (list word) :=
    let '(accum0, accum1, c) := st in
    accum0 <- u64_add accum0 accum1 ;;
    accum0 <- u64_add accum0 (c[8]) ;;
    accum1 <- u64_add accum1 (c[0]) ;;
    t <- land (as_u32 accum0) (lit mask28) ;;
    let c := set_nthS 8 t c in
    t <- land (as_u32 accum1) (lit mask28) ;;
    let c := set_nthS 0 t c in
    accum0 <- shr accum0 28 ;;
    accum1 <- shr accum1 28 ;;
    c9 <- u32_add (c[9]) (as_u32 accum0) ;;
    let c := set_nthS 9 c9 c in
    c1 <- u32_add (c[1]) (as_u32 accum1) ;;
    Ok (set_nthS 1 c1 c).

  Definition square28_S : res (list word) :=
    aa <- map_resS (fun i => u64_add (a[i]) (a[i + 8])) (range 0 8) ;;
    st <- square_j0S aa (map lit zero28) ;;
    st <- for_eachS (range 1 7) (square_jS aa) st ;;
    st <- square_j7S aa st ;;
    square_finalS st.
End Square.
Definition square28S (a : list word) : res (list word) := square28_S a.
End StepU32.
