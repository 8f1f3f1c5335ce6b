(** [subtle]'s functions on words and on slices of bytes, as a sequence of steps.  [subtle] is a dependency: its source is not in
    the repository, and what follows is version 2 as published (src/lib.rs).  A [Choice] is a boolean; [Choice::from] of a word
    that is 0 or 1 is [test], [unwrap_u8] is [unwrap].  Three casts that do not change a number here are left out: of the mask
    to u32 (it stays -1 or 0), of the result of [ct_eq] to u8 (it is 0 or 1), and of [a ^ b] to its own type; C74 puts them back. *)
Require Import ZArith List Bool.
From Verif Require Import Base Steps.
Import ListNotations.
Open Scope Z_scope.
Open Scope step_scope.

Section StepSubtle.
Variable M : steps.
Variable W : cpu M.
Local Notation res := (run M).
Local Notation word := (word W).
Local Notation lit := (lit W).

(** u32::conditional_select: [let mask = -(choice.unwrap_u8() as i32) as u32; a ^ (mask & (a ^ b))]. *)
Definition selectS (choice : bool) (a b : word) : res word :=
  c <- unwrap W choice ;;
  mask <- un W UNeg c ;;
  x <- bin W BXor a b ;;
  y <- bin W BAnd mask x ;;
  bin W BXor a y.
(** ct_eq on u8 and u32 (w bits): [let x = self ^ other; let y = (x | x.wrapping_neg()) >> (w - 1); ((y ^ 1) as u8).into()]. *)
Definition ct_eqS (w : Z) (a b : word) : res bool :=
  x <- bin W BXor a b ;;
  n <- bin W (BSub w) (lit 0) x ;;
  y <- bin W BOr x n ;;
  y <- un W (UShr (w - 1)) y ;;
  z <- bin W BXor y (lit 1) ;;
  test W TOne z.
(** ct_eq on slices of bytes: [if len differs { return 0 }; let mut x = 1u8; for (ai, bi) in .. { x &= ai.ct_eq(bi).unwrap_u8() }; x.into()]. *)
Fixpoint ct_eq_loopS (a b : list word) (x : word) : res word :=
  match a, b with
  | ai :: a', bi :: b' =>
      e <- ct_eqS 8 ai bi ;;
      u <- unwrap W e ;;
      x <- bin W BAnd x u ;;
      ct_eq_loopS a' b' x
  | _, _ => ret x
  end.
Definition ct_eq_sliceS (a b : list word) : res bool :=
  if Nat.eqb (length a) (length b) then x <- ct_eq_loopS a b (lit 1) ;; test W TOne x else ret false.
End StepSubtle.
