(** Key agreement among several parties (for C94): each multiplies what the one before passed on. *)
Require Import ZArith List.
From Verif Require Import Base FieldBackend ScalarModel MontgomeryModel.
Import ListNotations.
Open Scope Z_scope.
Open Scope res_scope.

Fixpoint chain (B : backend) (u : list Z) (l : list scalar) : res (list Z) :=
  match l with
  | [] => Ok u
  | s :: l' => x <- mp_mul B u s ;; chain B x l'
  end.

(** The product of the scalars, each rounded up to an even number. *)
Definition even_product (l : list scalar) : Z := fold_right (fun s n => (sval s + sval s mod 2) * n) 1 l.
