(** The field arithmetic of fiat-crypto (module p448_solinas_64), which field/fiat_u64/prime_field.rs calls.

    fiat-crypto is a dependency (Cargo.toml:20): its source is not in the repository and is written here as published, as far as
    memory goes (there was no network).  Limbs are u64 in radix 2^56, products and their sums u128; [fiat_p448_u1] is u8,
    [fiat_p448_i1] and [fiat_p448_i2] are i8.  Simplified: the products are listed limb by limb, and the additions of one sum may come in
    another order than in the generated code; a product that enters two sums is formed where it is used, as there; unrolled
    code with one pattern is a recursion over the limbs. *)
Require Import ZArith List Bool.
From Verif Require Import Base FieldFiatModel.
Import ListNotations.
Open Scope Z_scope.
Open Scope res_scope.

Definition u128_add x y := chk_u 128 (x + y).
Definition u128_mul x y := chk_u 128 (x * y).
(** [as] casts to signed types. *)
Definition as_i (w x : Z) : Z := let y := wrap w x in if y <? 2 ^ (w - 1) then y else y - 2 ^ w.
Definition mask56 : Z := 0xffffffffffffff.
Definition mask64 : Z := 0xffffffffffffffff.

(** fiat_p448_addcarryx_u56, fiat_p448_subborrowx_u56, fiat_p448_cmovznz_u64.  [!x] is [x ^ 0xff..ff]; [!(!arg1)] is [arg1]. *)
Definition addcarryx_u56 (arg1 arg2 arg3 : Z) : res (Z * Z) :=
  x1 <- u64_add arg1 arg2 ;;
  x1 <- u64_add x1 arg3 ;;
  Ok (Z.land x1 mask56, as_u8 (shr x1 56)).
Definition subborrowx_u56 (arg1 arg2 arg3 : Z) : res (Z * Z) :=
  x1 <- i128_sub arg2 arg1 ;;
  x1 <- i128_sub (as_i 64 x1) arg3 ;;
  let x1 := as_i 64 x1 in
  let x2 := as_i 8 (shr x1 56) in
  let x3 := as_u64 (Z.land x1 mask56) in
  x4 <- i8_sub 0 x2 ;;
  Ok (x3, as_u8 x4).
Definition cmovznz_u64 (arg1 arg2 arg3 : Z) : res Z :=
  x1 <- i8_sub 0 arg1 ;;
  let x2 := as_u64 (Z.land x1 mask64) in
  Ok (Z.lor (Z.land x2 arg3) (Z.land (Z.lxor x2 mask64) arg2)).

Definition add128 (x y : res Z) : res Z := a <- x ;; b <- y ;; u128_add a b.
Local Notation "x +! y" := (add128 x y) (at level 50, left associativity).
Local Notation "$ x" := (Ok x) (at level 9, x at level 9, format "$ x").
Local Notation m x y := (u128_mul x y).

(** The carries at the end of fiat_p448_carry_mul and fiat_p448_carry_square: from limbs 3 and 7, then from 4, 0, 5, 1, 6, 2, 7, 3, then
    from 4 and 0. *)
Definition carry_sums (c : list Z) : res (list Z) :=
  match c with
  | [c0; c1; c2; c3; c4; c5; c6; c7] =>
      let k3 := as_u64 (shr c3 56) in let x3 := as_u64 (Z.land c3 mask56) in
      let k7 := as_u64 (shr c7 56) in let x7 := as_u64 (Z.land c7 mask56) in
      c4 <- $k3 +! $c4 ;;
      c4 <- $c4 +! $k7 ;;
      c0 <- $k7 +! $c0 ;;
      let k4 := as_u64 (shr c4 56) in let x4 := as_u64 (Z.land c4 mask56) in
      let k0 := as_u64 (shr c0 56) in let x0 := as_u64 (Z.land c0 mask56) in
      c5 <- $k4 +! $c5 ;;
      c1 <- $k0 +! $c1 ;;
      let k5 := as_u64 (shr c5 56) in let x5 := as_u64 (Z.land c5 mask56) in
      let k1 := as_u64 (shr c1 56) in let x1 := as_u64 (Z.land c1 mask56) in
      c6 <- $k5 +! $c6 ;;
      c2 <- $k1 +! $c2 ;;
      let k6 := as_u64 (shr c6 56) in let x6 := as_u64 (Z.land c6 mask56) in
      let k2 := as_u64 (shr c2 56) in let x2 := as_u64 (Z.land c2 mask56) in
      x7 <- u64_add k6 x7 ;;
      x3 <- u64_add k2 x3 ;;
      let k7 := shr x7 56 in let x7 := Z.land x7 mask56 in
      let k3 := shr x3 56 in let x3 := Z.land x3 mask56 in
      x0 <- u64_add x0 k7 ;;
      x4 <- u64_add k3 x4 ;;
      x4 <- u64_add x4 k7 ;;
      let k4 := as_u8 (shr x4 56) in let x4 := Z.land x4 mask56 in
      let k0 := as_u8 (shr x0 56) in let x0 := Z.land x0 mask56 in
      x5 <- u64_add k4 x5 ;;
      x1 <- u64_add k0 x1 ;;
      Ok [x0; x1; x2; x3; x4; x5; x6; x7]
  | _ => Panic
  end.
(** fiat_p448_carry_mul: 2^448 = 2^224 + 1, so a product of weight 2^(56 k) goes to limbs k - 8 and k - 4, or to k - 12 and twice to k - 8. *)
Definition fcode_carry_mul (a b : list Z) : res (list Z) :=
  match a, b with
  | [a0; a1; a2; a3; a4; a5; a6; a7],
    [b0; b1; b2; b3; b4; b5; b6; b7] =>
      c3 <- m a7 b4 +! m a6 b5 +! m a5 b6 +! m a4 b7 +! m a3 b0 +! m a2 b1 +! m a1 b2 +! m a0 b3 ;;
      c7 <- m a7 b4 +! m a6 b5 +! m a5 b6 +! m a4 b7 +! m a7 b0 +! m a6 b1 +! m a5 b2 +! m a4 b3 +! m a3 b4 +! m a2 b5 +!
        m a1 b6 +! m a0 b7 ;;
      c4 <- m a7 b5 +! m a7 b5 +! m a6 b6 +! m a6 b6 +! m a5 b7 +! m a5 b7 +! m a7 b1 +! m a6 b2 +! m a5 b3 +! m a4 b4 +!
        m a3 b5 +! m a2 b6 +! m a1 b7 +! m a4 b0 +! m a3 b1 +! m a2 b2 +! m a1 b3 +! m a0 b4 ;;
      c0 <- m a7 b5 +! m a6 b6 +! m a5 b7 +! m a7 b1 +! m a6 b2 +! m a5 b3 +! m a4 b4 +! m a3 b5 +! m a2 b6 +! m a1 b7 +!
        m a0 b0 ;;
      c5 <- m a7 b6 +! m a7 b6 +! m a6 b7 +! m a6 b7 +! m a7 b2 +! m a6 b3 +! m a5 b4 +! m a4 b5 +! m a3 b6 +! m a2 b7 +!
        m a5 b0 +! m a4 b1 +! m a3 b2 +! m a2 b3 +! m a1 b4 +! m a0 b5 ;;
      c1 <- m a7 b6 +! m a6 b7 +! m a7 b2 +! m a6 b3 +! m a5 b4 +! m a4 b5 +! m a3 b6 +! m a2 b7 +! m a1 b0 +! m a0 b1 ;;
      c6 <- m a7 b7 +! m a7 b7 +! m a7 b3 +! m a6 b4 +! m a5 b5 +! m a4 b6 +! m a3 b7 +! m a6 b0 +! m a5 b1 +! m a4 b2 +!
        m a3 b3 +! m a2 b4 +! m a1 b5 +! m a0 b6 ;;
      c2 <- m a7 b7 +! m a7 b3 +! m a6 b4 +! m a5 b5 +! m a4 b6 +! m a3 b7 +! m a2 b0 +! m a1 b1 +! m a0 b2 ;;
      carry_sums [c0; c1; c2; c3; c4; c5; c6; c7]
  | _, _ => Panic
  end.
(** fiat_p448_carry_square: the same with doubled limbs. *)
Definition fcode_carry_square (a : list Z) : res (list Z) :=
  match a with
  | [a0; a1; a2; a3; a4; a5; a6; a7] =>
      d7 <- u64_mul a7 2 ;;
      d6 <- u64_mul a6 2 ;;
      d5 <- u64_mul a5 2 ;;
      d4 <- u64_mul a4 2 ;;
      d3 <- u64_mul a3 2 ;;
      d2 <- u64_mul a2 2 ;;
      d1 <- u64_mul a1 2 ;;
      c3 <- m a4 d7 +! m a5 d6 +! m a0 d3 +! m a1 d2 ;;
      c7 <- m a4 d7 +! m a5 d6 +! m a0 d7 +! m a1 d6 +! m a2 d5 +! m a3 d4 ;;
      c4 <- m a5 d7 +! m a5 d7 +! m a6 a6 +! m a6 a6 +! m a1 d7 +! m a2 d6 +! m a3 d5 +! m a4 a4 +! m a0 d4 +! m a1 d3 +!
        m a2 a2 ;;
      c0 <- m a5 d7 +! m a6 a6 +! m a1 d7 +! m a2 d6 +! m a3 d5 +! m a4 a4 +! m a0 a0 ;;
      c5 <- m a6 d7 +! m a6 d7 +! m a2 d7 +! m a3 d6 +! m a4 d5 +! m a0 d5 +! m a1 d4 +! m a2 d3 ;;
      c1 <- m a6 d7 +! m a2 d7 +! m a3 d6 +! m a4 d5 +! m a0 d1 ;;
      c6 <- m a7 a7 +! m a7 a7 +! m a3 d7 +! m a4 d6 +! m a5 a5 +! m a0 d6 +! m a1 d5 +! m a2 d4 +! m a3 a3 ;;
      c2 <- m a7 a7 +! m a3 d7 +! m a4 d6 +! m a5 a5 +! m a0 d2 +! m a1 a1 ;;
      carry_sums [c0; c1; c2; c3; c4; c5; c6; c7]
  | _ => Panic
  end.
(** fiat_p448_carry. *)
Definition fcode_carry (a : list Z) : res (list Z) :=
  match a with
  | [a0; a1; a2; a3; a4; a5; a6; a7] =>
      let x1 := a3 in
      let x2 := a7 in
      let x3 := shr x2 56 in
      x4 <- u64_add (shr x1 56) a4 ;;
      x4 <- u64_add x4 x3 ;;
      x5 <- u64_add a0 x3 ;;
      x6 <- u64_add (shr x4 56) a5 ;;
      x7 <- u64_add (shr x5 56) a1 ;;
      x8 <- u64_add (shr x6 56) a6 ;;
      x9 <- u64_add (shr x7 56) a2 ;;
      x10 <- u64_add (shr x8 56) (Z.land x2 mask56) ;;
      x11 <- u64_add (shr x9 56) (Z.land x1 mask56) ;;
      let x12 := as_u8 (shr x10 56) in
      x13 <- u64_add (Z.land x5 mask56) x12 ;;
      x14 <- u64_add (as_u8 (shr x11 56)) (Z.land x4 mask56) ;;
      x14 <- u64_add x14 x12 ;;
      let x15 := Z.land x13 mask56 in
      x16 <- u64_add (as_u8 (shr x13 56)) (Z.land x7 mask56) ;;
      let x17 := Z.land x9 mask56 in
      let x18 := Z.land x11 mask56 in
      let x19 := Z.land x14 mask56 in
      x20 <- u64_add (as_u8 (shr x14 56)) (Z.land x6 mask56) ;;
      let x21 := Z.land x8 mask56 in
      let x22 := Z.land x10 mask56 in
      Ok [x15; x16; x17; x18; x19; x20; x21; x22]
  | _ => Panic
  end.
(** fiat_p448_add, fiat_p448_sub, fiat_p448_opp; the constants are the limbs of 2p. *)
Definition two_p_limbs : list Z :=
  [0x1fffffffffffffe; 0x1fffffffffffffe; 0x1fffffffffffffe; 0x1fffffffffffffe; 0x1fffffffffffffc; 0x1fffffffffffffe; 0x1fffffffffffffe; 0x1fffffffffffffe].
Fixpoint fadd_limbs (a b : list Z) : res (list Z) :=
  match a, b with
  | [], [] => Ok []
  | x :: a', y :: b' => c <- u64_add x y ;; r <- fadd_limbs a' b' ;; Ok (c :: r)
  | _, _ => Panic
  end.
Fixpoint fsub_limbs (k a b : list Z) : res (list Z) :=
  match k, a, b with
  | [], [], [] => Ok []
  | z :: k', x :: a', y :: b' => c <- u64_add z x ;; c <- u64_sub c y ;; r <- fsub_limbs k' a' b' ;; Ok (c :: r)
  | _, _, _ => Panic
  end.
Fixpoint fopp_limbs (k a : list Z) : res (list Z) :=
  match k, a with
  | [], [] => Ok []
  | z :: k', x :: a' => c <- u64_sub z x ;; r <- fopp_limbs k' a' ;; Ok (c :: r)
  | _, _ => Panic
  end.
Definition fcode_add (a b : list Z) : res (list Z) := fadd_limbs a b.
Definition fcode_sub (a b : list Z) : res (list Z) := fsub_limbs two_p_limbs a b.
Definition fcode_opp (a : list Z) : res (list Z) := fopp_limbs two_p_limbs a.
(** fiat_p448_selectznz. *)
Fixpoint fcode_selectznz (c : Z) (a b : list Z) : res (list Z) :=
  match a, b with
  | [], [] => Ok []
  | x :: a', y :: b' => v <- cmovznz_u64 c x y ;; r <- fcode_selectznz c a' b' ;; Ok (v :: r)
  | _, _ => Panic
  end.
(** fiat_p448_to_bytes: subtract p, add it back if that was too much, cut into bytes. *)
Definition p_limbs56 : list Z :=
  [0xffffffffffffff; 0xffffffffffffff; 0xffffffffffffff; 0xffffffffffffff; 0xfffffffffffffe; 0xffffffffffffff; 0xffffffffffffff; 0xffffffffffffff].
Fixpoint sub_chain (a k : list Z) (borrow : Z) : res (list Z * Z) :=
  match a, k with
  | [], [] => Ok ([], borrow)
  | x :: a', z :: k' =>
      ' (y, borrow) <- subborrowx_u56 borrow x z ;;
      ' (r, borrow) <- sub_chain a' k' borrow ;;
      Ok (y :: r, borrow)
  | _, _ => Panic
  end.
Fixpoint add_chain (a k : list Z) (sel carry : Z) : res (list Z * Z) :=
  match a, k with
  | [], [] => Ok ([], carry)
  | x :: a', z :: k' =>
      ' (y, carry) <- addcarryx_u56 carry x (Z.land sel z) ;;
      ' (r, carry) <- add_chain a' k' sel carry ;;
      Ok (y :: r, carry)
  | _, _ => Panic
  end.
Fixpoint limb_bytes (n : nat) (x : Z) : list Z :=
  match n with
  | O => [as_u8 x]
  | S n' => as_u8 (Z.land x 0xff) :: limb_bytes n' (shr x 8)
  end.
Definition fcode_to_bytes (a : list Z) : res (list Z) :=
  ' (x, borrow) <- sub_chain a p_limbs56 0 ;;
  sel <- cmovznz_u64 borrow 0 mask64 ;;
  ' (y, _) <- add_chain x p_limbs56 sel 0 ;;
  Ok (flat_map (limb_bytes 6) y).
(** fiat_p448_from_bytes. *)
Definition load56 (b : list Z) : res Z :=
  match b with
  | b0 :: b1 :: b2 :: b3 :: b4 :: b5 :: b6 :: _ =>
      x <- u64_add (shl_u 64 b1 8) b0 ;;
      x <- u64_add (shl_u 64 b2 16) x ;;
      x <- u64_add (shl_u 64 b3 24) x ;;
      x <- u64_add (shl_u 64 b4 32) x ;;
      x <- u64_add (shl_u 64 b5 40) x ;;
      u64_add (shl_u 64 b6 48) x
  | _ => Panic
  end.
Fixpoint fcode_from_bytes_loop (n : nat) (b : list Z) : res (list Z) :=
  match n with
  | O => Ok []
  | S n' => x <- load56 b ;; r <- fcode_from_bytes_loop n' (skipn 7 b) ;; Ok (x :: r)
  end.
Definition fcode_from_bytes (b : list Z) : res (list Z) := fcode_from_bytes_loop 8 b.

(** fiat_p448_relax copies. *)
Definition fiat_code : fiat_prims := {|
  fiat_relax a := Ok a;
  fiat_carry_mul := fcode_carry_mul;
  fiat_carry_square := fcode_carry_square;
  fiat_carry := fcode_carry;
  fiat_add := fcode_add;
  fiat_sub := fcode_sub;
  fiat_opp := fcode_opp;
  fiat_selectznz := fcode_selectznz;
  fiat_to_bytes := fcode_to_bytes;
  fiat_from_bytes := fcode_from_bytes
|}.
