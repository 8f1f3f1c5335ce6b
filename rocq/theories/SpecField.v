(** The field of integers modulo p, with ordinary equality: an element is an integer in [0, p). *)
Require Import ZArith.
From Verif Require Import SpecParams.
Open Scope Z_scope.

Record F : Type := mkF { fval : Z; fval_canon : fval mod p = fval }.

Definition of_Z (z : Z) : F := mkF (z mod p) (Zmod_mod z p).

Definition fadd (x y : F) : F := of_Z (fval x + fval y).
Definition fsub (x y : F) : F := of_Z (fval x - fval y).
Definition fmul (x y : F) : F := of_Z (fval x * fval y).
Definition fopp (x : F) : F := of_Z (- fval x).
Definition fpow (x : F) (n : Z) : F := of_Z (fval x ^ n).
(** The inverse (zero for zero); that this is the inverse is proved in FieldTheory.v. *)
Definition finv (x : F) : F := fpow x (p - 2).
Definition fdiv (x y : F) : F := fmul x (finv y).

Declare Scope F_scope.
Delimit Scope F_scope with F.
Bind Scope F_scope with F.
Infix "+" := fadd : F_scope.
Infix "-" := fsub : F_scope.
Infix "*" := fmul : F_scope.
Infix "/" := fdiv : F_scope.
Notation "- x" := (fopp x) : F_scope.
Notation "0" := (of_Z 0) : F_scope.
Notation "1" := (of_Z 1) : F_scope.

Definition is_square (x : F) : Prop := exists y, fmul y y = x.

(** Equality is decidable; [feqb] is the boolean test. *)
Definition feqb (x y : F) : bool := fval x =? fval y.

(** The "sign" of a field element: the low bit of its representative in [0, p). *)
Definition fodd (x : F) : bool := Z.odd (fval x).
