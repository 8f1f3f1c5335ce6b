(** Sequences of field operations as expression trees: what they mean (in the integers) and how the code runs them. *)
Require Import ZArith List Bool.
From Verif Require Import Base FieldBackend FieldModel.
Import ListNotations.
Open Scope Z_scope.
Open Scope res_scope.

Inductive fexp : Type :=
| FBytes (b : list Z)                  (* from_bytes *)
| FZero | FOne
| FAdd (x y : fexp) | FSub (x y : fexp) | FMul (x y : fexp)
| FSquare (x : fexp) | FNeg (x : fexp)
| FReduce (x : fexp)                   (* strong_reduce *)
| FCondNeg (x : fexp) (c : bool)       (* conditional_negate *)
| FSelect (x y : fexp) (c : bool).     (* conditional_select *)

(** All byte leaves are 56-byte arrays. *)
Fixpoint fexp_ok (e : fexp) : Prop :=
  match e with
  | FBytes b => bytes 56 b
  | FZero | FOne => True
  | FAdd x y | FSub x y | FMul x y | FSelect x y _ => fexp_ok x /\ fexp_ok y
  | FSquare x | FNeg x | FReduce x | FCondNeg x _ => fexp_ok x
  end.

(** The exact integer result. *)
Fixpoint fexp_val (e : fexp) : Z :=
  match e with
  | FBytes b => le_val b
  | FZero => 0
  | FOne => 1
  | FAdd x y => fexp_val x + fexp_val y
  | FSub x y => fexp_val x - fexp_val y
  | FMul x y => fexp_val x * fexp_val y
  | FSquare x => fexp_val x * fexp_val x
  | FNeg x => - fexp_val x
  | FReduce x => fexp_val x
  | FCondNeg x c => if c then - fexp_val x else fexp_val x
  | FSelect x y c => if c then fexp_val y else fexp_val x
  end.

(** The code. *)
Fixpoint fexp_run (B : backend) (e : fexp) : res (fe B) :=
  match e with
  | FBytes b => fe_from_bytes B b
  | FZero => Ok (fe_zero B)
  | FOne => Ok (fe_one B)
  | FAdd x y => a <- fexp_run B x ;; b <- fexp_run B y ;; fe_add B a b
  | FSub x y => a <- fexp_run B x ;; b <- fexp_run B y ;; fe_sub B a b
  | FMul x y => a <- fexp_run B x ;; b <- fexp_run B y ;; fe_mul B a b
  | FSquare x => a <- fexp_run B x ;; fe_square B a
  | FNeg x => a <- fexp_run B x ;; fe_negate B a
  | FReduce x => a <- fexp_run B x ;; fe_strong_reduce B a
  | FCondNeg x c => a <- fexp_run B x ;; fe_cond_negate B a c
  | FSelect x y c => a <- fexp_run B x ;; b <- fexp_run B y ;; fe_select B a b c
  end.
