(** Access to the words of a scalar, src/field/scalar.rs:46-56.  An index out of range panics. *)
Require Import ZArith List.
From Verif Require Import Base ScalarModel.
Import ListNotations.
Open Scope Z_scope.

(** scalar.rs:46-51, [Index<usize>]: [s[i]]. *)
Definition scalar_index (s : scalar) (i : Z) : res Z :=
  match nth_error s (Z.to_nat i) with Some w => Ok w | None => Panic end.

(** scalar.rs:52-56, [IndexMut<usize>]: [s[i] = w]. *)
Fixpoint set_word (s : scalar) (i : nat) (w : Z) : res scalar :=
  match s, i with
  | [], _ => Panic
  | _ :: s', O => Ok (w :: s')
  | x :: s', S i' => match set_word s' i' w with Ok r => Ok (x :: r) | Panic => Panic end
  end.
Definition scalar_index_mut (s : scalar) (i w : Z) : res scalar := set_word s (Z.to_nat i) w.
