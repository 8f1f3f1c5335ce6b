(** [subtle] 2 (src/lib.rs), the functions the crate calls, on numbers.  It is a dependency (Cargo.toml:18): its source is not in
    the repository and is written here as published.  A [Choice] wraps a u8; unsigned words have w bits; in debug builds
    [Choice::from] and the conversion to bool assert that the byte is 0 or 1.  [black_box] / volatile reads deliver what they are given. *)
Require Import ZArith List Bool.
From Verif Require Import Base.
Import ListNotations.
Open Scope Z_scope.
Open Scope res_scope.

(** impl From<u8> for Choice: [debug_assert!((input == 0u8) | (input == 1u8)); Choice(black_box(input))]. *)
Definition choice_from (input : Z) : res Z := if (input =? 0) || (input =? 1) then Ok input else Panic.
(** impl From<Choice> for bool: [debug_assert!((source.0 == 0u8) | (source.0 == 1u8)); source.0 != 0]. *)
Definition choice_bool (c : Z) : res bool := if (c =? 0) || (c =? 1) then Ok (negb (c =? 0)) else Panic.
(** BitAnd, BitOr, BitXor: [(self.0 & rhs.0).into()] and so on; Not: [(1u8 & (!self.0)).into()]. *)
Definition choice_and (a b : Z) : res Z := choice_from (Z.land a b).
Definition choice_or (a b : Z) : res Z := choice_from (Z.lor a b).
Definition choice_xor (a b : Z) : res Z := choice_from (Z.lxor a b).
Definition choice_not (a : Z) : res Z := choice_from (Z.land 1 (255 - a)).

(** generate_integer_conditional_select: [let mask = -(choice.unwrap_u8() as iN) as uN;] *)
Definition mask_of (w c : Z) : Z := wrap w (- c).
(** [a ^ (mask & (a ^ b))] *)
Definition word_select (w a b c : Z) : Z := Z.lxor a (Z.land (mask_of w c) (Z.lxor a b)).
(** [self ^= mask & (self ^ other);] *)
Definition word_assign (w self other c : Z) : Z := Z.lxor self (Z.land (mask_of w c) (Z.lxor self other)).
(** [let t = mask & (a ^ b); a ^= t; b ^= t;] *)
Definition word_swap (w a b c : Z) : Z * Z :=
  let t := Z.land (mask_of w c) (Z.lxor a b) in (Z.lxor a t, Z.lxor b t).
(** trait ConditionallySelectable, default methods: [self = Self::conditional_select(self, other, choice);] and
    [let t = a; a.conditional_assign(&b, choice); b.conditional_assign(&t, choice);], over any conditional_select. *)
Section Default.
Variable T : Type.
Variable conditional_select : T -> T -> Z -> T.
Definition default_assign (self other : T) (c : Z) : T := conditional_select self other c.
Definition default_swap (a b : T) (c : Z) : T * T :=
  let t := a in
  let a := default_assign a b c in
  let b := default_assign b t c in
  (a, b).
End Default.

(** generate_integer_equal: [let x = (self ^ other) as uN; let y = (x | x.wrapping_neg()) >> (N - 1); ((y ^ 1) as u8).into()]. *)
Definition word_ct_eq (w a b : Z) : res Z :=
  let x := wrap w (Z.lxor a b) in
  let y := shr (Z.lor x (wrap w (- x))) (w - 1) in
  choice_from (as_u8 (Z.lxor y 1)).
(** impl ConstantTimeEq for [T]: [if len != _rhs.len() { return Choice::from(0) }; let mut x = 1u8;
    for (ai, bi) in self.iter().zip(_rhs.iter()) { x &= ai.ct_eq(bi).unwrap_u8(); } x.into()] *)
Fixpoint slice_loop (a b : list Z) (x : Z) : res Z :=
  match a, b with
  | ai :: a', bi :: b' => e <- word_ct_eq 8 ai bi ;; slice_loop a' b' (Z.land x e)
  | _, _ => Ok x
  end.
Definition slice_ct_eq (a b : list Z) : res Z :=
  if negb (Nat.eqb (length a) (length b)) then choice_from 0 else x <- slice_loop a b 1 ;; choice_from x.
