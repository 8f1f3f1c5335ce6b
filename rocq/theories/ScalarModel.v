(** Model of src/field/scalar.rs.

    A [Scalar] is [[u32; 14]] (scalar.rs:13), here a list of 14 integers in [0, 2^32).  Loops over the limbs are
    structural recursions over the limb lists that visit the limbs in the same order; the loop-carried variables are the
    extra arguments.  Arithmetic is checked as described in Base.v. *)
Require Import ZArith List Bool.
From Verif Require Import Base.
Import ListNotations.
Open Scope Z_scope.
Open Scope res_scope.

Definition scalar := list Z.
(** The values of the Rust type [[u32; 14]]. *)
Definition is_scalar (s : scalar) : Prop := array 32 14 s.
(** The integer held by a scalar. *)
Definition sval (s : scalar) : Z := eval 32 s.

(** src/constants.rs:15-18, [BASEPOINT_ORDER]; scalar.rs:15, [MODULUS]. *)
Definition MODULUS : scalar :=
  [0xab5844f3; 0x2378c292; 0x8dc58f55; 0x216cc272; 0xaed63690; 0xc44edb49; 0x7cca23e9; 0xffffffff;
   0xffffffff; 0xffffffff; 0xffffffff; 0xffffffff; 0xffffffff; 0x3fffffff].

(** scalar.rs:18-21, [R2]. *)
Definition R2 : scalar :=
  [0x049b9b60; 0xe3539257; 0xc1b195d9; 0x7af32c4b; 0x88ea1859; 0x0d66de23; 0x5ee4d838; 0xae17cf72;
   0xa3c47c44; 0x1a9cc14b; 0xe4d070af; 0x2052bcb7; 0xf823b729; 0x3402a939].

(** scalar.rs:22-25, [R]. *)
Definition R1 : scalar :=
  [0x529eec34; 0x721cf5b5; 0xc8e9c2ab; 0x7a4cf635; 0x44a725bf; 0xeec492d9; 0xcd77058; 0x2; 0; 0; 0; 0; 0; 0].

(** scalar.rs:86-91, [Scalar::one], [Scalar::zero]; scalar.rs:40-44, [From<u32>]. *)
Definition scalar_one : scalar := [1; 0; 0; 0; 0; 0; 0; 0; 0; 0; 0; 0; 0; 0].
Definition scalar_zero : scalar := [0; 0; 0; 0; 0; 0; 0; 0; 0; 0; 0; 0; 0; 0].
Definition scalar_from_u32 (a : Z) : scalar := [a; 0; 0; 0; 0; 0; 0; 0; 0; 0; 0; 0; 0; 0].

(** ** Addition and subtraction *)

(** scalar.rs:351-360, the carry loop of [add]:
    [chain += a[i] as u64 + b[i] as u64; result[i] = chain as u32; chain >>= 32]. *)
Fixpoint add_loop (a b : list Z) (chain : Z) : res (list Z * Z) :=
  match a, b with
  | x :: a', y :: b' =>
      t <- u64_add x y ;;
      c <- u64_add chain t ;;
      '(r, out) <- add_loop a' b' (shr c 32) ;;
      Ok (as_u32 c :: r, out)
  | _, _ => Ok ([], chain)
  end.

(** scalar.rs:371-379, first loop of [sub_extra] (signed 64-bit borrow chain). *)
Fixpoint sub_loop (a b : list Z) (chain : Z) : res (list Z * Z) :=
  match a, b with
  | x :: a', y :: b' =>
      t <- i64_sub x y ;;
      c <- i64_add chain t ;;
      '(r, out) <- sub_loop a' b' (shr c 32) ;;
      Ok (as_u32 c :: r, out)
  | _, _ => Ok ([], chain)
  end.

(** scalar.rs:388-395, second loop of [sub_extra]: adds [MODULUS[i] & borrow]. *)
Fixpoint addback_loop (a m : list Z) (borrow chain : Z) : res (list Z) :=
  match a, m with
  | x :: a', y :: m' =>
      t <- i64_add x (Z.land y borrow) ;;
      c <- i64_add chain t ;;
      r <- addback_loop a' m' borrow (shr c 32) ;;
      Ok (as_u32 c :: r)
  | _, _ => Ok []
  end.

(** scalar.rs:368-398, [sub_extra]. *)
Definition sub_extra (a b : scalar) (carry : Z) : res scalar :=
  '(result, chain) <- sub_loop a b 0 ;;
  borrow <- i64_add chain carry ;;
  addback_loop result MODULUS borrow 0.

(** scalar.rs:345-364, [add]. *)
Definition scalar_add (a b : scalar) : res scalar :=
  '(result, chain) <- add_loop a b 0 ;;
  sub_extra result MODULUS (as_u32 chain).

(** scalar.rs:73-78, [Sub for Scalar]. *)
Definition scalar_sub (a b : scalar) : res scalar := sub_extra a b 0.

(** ** Montgomery multiplication *)

(** scalar.rs:407, the closure [mul_add]. *)
Definition mul_add (a b c : Z) : res Z :=
  t <- u64_mul a b ;; u64_add t c.

(** scalar.rs:411-415: [chain += mul_add(x_i, y[j], result[j]); result[j] = chain as u32; chain >>= 32]. *)
Fixpoint mac_loop (xi : Z) (y r : list Z) (chain : Z) : res (list Z * Z) :=
  match y, r with
  | yj :: y', rj :: r' =>
      t <- mul_add xi yj rj ;;
      c <- u64_add chain t ;;
      '(out, chain') <- mac_loop xi y' r' (shr c 32) ;;
      Ok (as_u32 c :: out, chain')
  | _, _ => Ok ([], chain)
  end.

(** scalar.rs:409-431, one iteration of the outer loop.  The second inner loop (lines 421-427) writes [result[j-1]], that
    is, it drops the lowest limb: [tl] below. *)
Definition mont_step (xi : Z) (y : list Z) (st : list Z * Z) : res (list Z * Z) :=
  let '(result, carry) := st in
  '(result, chain) <- mac_loop xi y result 0 ;;
  let saved := as_u32 chain in
  let multiplicand := wrap 32 (hd 0 result * 0xae918bc5) in
  '(result, chain) <- mac_loop multiplicand MODULUS result 0 ;;
  t <- u64_add saved carry ;;
  chain <- u64_add chain t ;;
  Ok (tl result ++ [as_u32 chain], as_u32 (shr chain 32)).

Fixpoint mont_loop (x y : list Z) (st : list Z * Z) : res (list Z * Z) :=
  match x with
  | [] => Ok st
  | xi :: x' => st' <- mont_step xi y st ;; mont_loop x' y st'
  end.

(** scalar.rs:400-434, [montgomery_multiply]. *)
Definition montgomery_multiply (x y : scalar) : res scalar :=
  '(result, carry) <- mont_loop x y (scalar_zero, 0) ;;
  sub_extra result MODULUS carry.

(** scalar.rs:66-72, [Mul for Scalar]. *)
Definition scalar_mul (a b : scalar) : res scalar :=
  unreduced <- montgomery_multiply a b ;;
  montgomery_multiply unreduced R2.

(** scalar.rs:178-180, [square]. *)
Definition scalar_square (a : scalar) : res scalar := montgomery_multiply a a.

(** ** Inversion, scalar.rs:181-247 *)

(** Lines 189-197.  [pre_comp[0] = a*R], [pre_comp[7] = pre_comp[0]^2], then for i = 1..=7
    [pre_comp[i] = pre_comp[i-1] * pre_comp[7]]; the last iteration (i = 7) overwrites [pre_comp[7]] itself. *)
Definition inv_precomp (s : scalar) : res (list scalar) :=
  p0 <- montgomery_multiply s R2 ;;
  sq <- montgomery_multiply p0 p0 ;;
  p1 <- montgomery_multiply p0 sq ;;
  p2 <- montgomery_multiply p1 sq ;;
  p3 <- montgomery_multiply p2 sq ;;
  p4 <- montgomery_multiply p3 sq ;;
  p5 <- montgomery_multiply p4 sq ;;
  p6 <- montgomery_multiply p5 sq ;;
  p7 <- montgomery_multiply p6 sq ;;
  Ok [p0; p1; p2; p3; p4; p5; p6; p7].

(** Array indexing with Rust's bounds check. *)
Definition index {A} (l : list A) (i : Z) : res A :=
  if i <? 0 then Panic else
  match nth_error l (Z.to_nat i) with Some a => Ok a | None => Panic end.

(** Lines 212-221: the bit of [MODULUS - 2] looked at in iteration [i] (0 for the three padding iterations i < 0). *)
Definition inv_bit (i : Z) : res Z :=
  w <- (if 0 <=? i then index MODULUS (i / 32) else Ok 0) ;;
  w <- (if (0 <=? i) && (i <? 32) then u32_sub w 2 else Ok w) ;;
  Ok (Z.land (shr w (wrap 32 i mod 32)) 1).

(** Loop state of lines 200-202 and 183. *)
Record inv_state := { iv_result : scalar; iv_residue : Z; iv_trailing : Z; iv_started : bool }.

(** Lines 207-242, one iteration. *)
Definition inv_step (pre : list scalar) (i : Z) (st : inv_state) : res inv_state :=
  result <- (if iv_started st then scalar_square (iv_result st) else Ok (iv_result st)) ;;
  b <- inv_bit i ;;
  let residue := Z.lor (shl_u 32 (iv_residue st) 1) b in
  let '(trailing, residue) :=
    if shr residue 3 =? 0 then (iv_trailing st, residue) else (residue, 0) in
  if (0 <? trailing) && (Z.land trailing 7 =? 0) then
    p <- index pre (shr trailing 4) ;;
    result <- (if iv_started st then montgomery_multiply result p else Ok p) ;;
    Ok {| iv_result := result; iv_residue := residue; iv_trailing := 0; iv_started := true |}
  else
    Ok {| iv_result := result; iv_residue := residue; iv_trailing := shl_u 64 trailing 1; iv_started := iv_started st |}.

(** [for i in (-3..=445).rev()] *)
Fixpoint inv_loop (n : nat) (i : Z) (pre : list scalar) (st : inv_state) : res inv_state :=
  match n with
  | O => Ok st
  | S n' => st' <- inv_step pre i st ;; inv_loop n' (i - 1) pre st'
  end.

Definition scalar_invert (s : scalar) : res scalar :=
  pre <- inv_precomp s ;;
  st <- inv_loop 449 445 pre
          {| iv_result := scalar_zero; iv_residue := 0; iv_trailing := 0; iv_started := false |} ;;
  montgomery_multiply (iv_result st) scalar_one.

(** ** Halving, scalar.rs:250-268 *)

(** Lines 256-260: adds [MODULUS[i] & mask]. *)
Fixpoint halve_add_loop (s m : list Z) (mask chain : Z) : res (list Z * Z) :=
  match s, m with
  | x :: s', y :: m' =>
      t <- u64_add x (Z.land y mask) ;;
      c <- u64_add chain t ;;
      '(r, out) <- halve_add_loop s' m' mask (shr c 32) ;;
      Ok (as_u32 c :: r, out)
  | _, _ => Ok ([], chain)
  end.

(** Lines 262-265: shift right by [k] bits across limbs, the bits shifted into the top limb coming from [top]
    ([k] = 1 here, [k] = 2 with [top] = 0 in [div_by_four]). *)
Fixpoint shift_loop (k : Z) (s : list Z) (top : Z) : list Z :=
  match s with
  | [] => []
  | [x] => [Z.lor (shr x k) (shl_u 32 top (32 - k))]
  | x :: ((y :: _) as s') => Z.lor (shr x k) (shl_u 32 y (32 - k)) :: shift_loop k s' top
  end.

Definition scalar_halve (s : scalar) : res scalar :=
  let mask := wrap 32 (0 - Z.land (hd 0 s) 1) in
  '(r, chain) <- halve_add_loop s MODULUS mask 0 ;;
  Ok (shift_loop 1 r chain).

(** scalar.rs:95-100, [div_by_four].  [(self[i+1] << 30) | (self[i] >> 2)], top limb [self[13] >> 2]. *)
Definition scalar_div_by_four (s : scalar) : scalar := shift_loop 2 s 0.

(** ** Bytes and bits *)

(** scalar.rs:149-165, [from_bytes]: each limb is [b0 | b1 << 8 | b2 << 16 | b3 << 24] as u64, cast to u32. *)
Fixpoint scalar_from_bytes (b : list Z) : scalar :=
  match b with
  | b0 :: b1 :: b2 :: b3 :: b' =>
      as_u32 (Z.lor (Z.lor (Z.lor b0 (shl_u 64 b1 8)) (shl_u 64 b2 16)) (shl_u 64 b3 24)) :: scalar_from_bytes b'
  | _ => []
  end.

(** scalar.rs:166-177, [to_bytes]. *)
Fixpoint scalar_to_bytes (s : scalar) : list Z :=
  match s with
  | [] => []
  | l :: s' =>
      as_u8 l :: as_u8 (shr l 8) :: as_u8 (shr (shr l 8) 8) :: as_u8 (shr (shr (shr l 8) 8) 8) :: scalar_to_bytes s'
  end.

(** scalar.rs:27-38, [ct_eq] and [==]: equality of the byte encodings. *)
Definition scalar_eqb (a b : scalar) : bool := list_eqb (scalar_to_bytes a) (scalar_to_bytes b).

(** scalar.rs:135-148, [bits]: [limb & (1 << j) != 0] for j = 0..31, limb by limb. *)
Definition limb_bits (l : Z) : list bool :=
  map (fun j => negb (Z.land l (shl_u 32 1 (Z.of_nat j)) =? 0)) (seq 0 32).
Definition scalar_bits (s : scalar) : list bool := flat_map limb_bits s.

(** scalar.rs:277-292, [from_canonical_bytes] (57 bytes). *)
Definition scalar_from_canonical_bytes (b : list Z) : res (option scalar) :=
  b56 <- index b 56 ;;
  b55 <- index b 55 ;;
  if negb (b56 =? 0) || negb (shr b55 6 =? 0) then Ok None else
  let candidate := scalar_from_bytes (firstn 56 b) in
  reduced <- sub_extra candidate MODULUS 0 ;;
  if scalar_eqb candidate reduced then Ok (Some candidate) else Ok None.

(** scalar.rs:296-300, [to_bytes_rfc_8032]. *)
Definition scalar_to_bytes_rfc_8032 (s : scalar) : list Z := scalar_to_bytes s ++ [0].

(** scalar.rs:304-326, [from_bytes_mod_order_wide] (114 bytes). *)
Definition scalar_from_bytes_mod_order_wide (b : list Z) : res scalar :=
  lo <- montgomery_multiply (scalar_from_bytes (firstn 56 b)) R1 ;;
  hi <- montgomery_multiply (scalar_from_bytes (firstn 56 (skipn 56 b))) R2 ;;
  top <- montgomery_multiply (scalar_from_bytes (firstn 2 (skipn 112 b) ++ repeat 0 54)) R2 ;;
  top <- montgomery_multiply top R2 ;;
  t <- scalar_add lo hi ;;
  scalar_add t top.

(** scalar.rs:338-342, [random]: the RNG is represented by the 114 bytes it writes. *)
Definition scalar_random (rng_bytes : list Z) : res scalar := scalar_from_bytes_mod_order_wide rng_bytes.

(** ** Signed radix-16 recoding, scalar.rs:105-133 *)

(** Lines 121-124: low and high nibble of every byte. *)
Fixpoint nibbles (b : list Z) : list Z :=
  match b with
  | [] => []
  | x :: b' => Z.land (shr x 0) 15 :: Z.land (shr x 4) 15 :: nibbles b'
  end.

(** Lines 126-130: [carry = (output[i] + 8) >> 4; output[i] -= carry << 4; output[i+1] += carry] in i8 arithmetic
    ([carry << 4] of an i8 in {0, 1} does not lose bits). *)
Fixpoint recenter (l : list Z) (carry_in : Z) : res (list Z) :=
  match l with
  | [] => Ok []
  | [x] => t <- i8_add x carry_in ;; Ok [t]
  | x :: l' =>
      x <- i8_add x carry_in ;;
      t <- i8_add x 8 ;;
      let carry := shr t 4 in
      d <- i8_sub x (Z.shiftl carry 4) ;;
      r <- recenter l' carry ;;
      Ok (d :: r)
  end.

Definition to_radix_16 (s : scalar) : res (list Z) :=
  recenter (nibbles (scalar_to_bytes s) ++ [0]) 0.
