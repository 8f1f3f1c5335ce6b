(** A secret shared among many parties, as a user of the crate would write it (for C98).  Not in the crate: every step is a call of its
    public API. *)
Require Import ZArith List Bool.
From Verif Require Import Base SpecDecaf ScalarModel ApiExpr SpecExponent.
Import ListNotations.
Open Scope Z_scope.
Open Scope res_scope.

(** The polynomial with these coefficients at x, lowest coefficient first: the share of party x.  The secret is the first coefficient. *)
Fixpoint share (cs : list scalar) (x : scalar) : res scalar :=
  match cs with
  | [] => Ok scalar_zero
  | c :: cs' => r <- share cs' x ;; t <- scalar_mul x r ;; scalar_add c t
  end.
(** The same on integers. *)
Fixpoint poly (cs : list Z) (x : Z) : Z := match cs with [] => 0 | c :: cs' => c + x * poly cs' x end.

(** The factor of party x, given the other parties: the product of the x' over the product of the x' - x. *)
Fixpoint top (others : list scalar) : res scalar :=
  match others with
  | [] => Ok scalar_one
  | x' :: o => r <- top o ;; scalar_mul x' r
  end.
Fixpoint bottom (others : list scalar) (x : scalar) : res scalar :=
  match others with
  | [] => Ok scalar_one
  | x' :: o => d <- scalar_sub x' x ;; r <- bottom o x ;; scalar_mul d r
  end.
Definition factor (others : list scalar) (x : scalar) : res scalar :=
  n <- top others ;; d <- bottom others x ;; i <- scalar_invert d ;; scalar_mul n i.
(** The factors of the parties xs; [before] are the parties already treated. *)
Fixpoint factors_from (before xs : list scalar) : res (list scalar) :=
  match xs with
  | [] => Ok []
  | x :: xs' => f <- factor (before ++ xs') x ;; fs <- factors_from (before ++ [x]) xs' ;; Ok (f :: fs)
  end.
Definition factors (xs : list scalar) : res (list scalar) := factors_from [] xs.

(** The secret: the sum of the shares times their factors. *)
Fixpoint dot (fs ys : list scalar) : res scalar :=
  match fs, ys with
  | f :: fs', y :: ys' => t <- scalar_mul f y ;; r <- dot fs' ys' ;; scalar_add t r
  | _, _ => Ok scalar_zero
  end.
Definition recover (xs ys : list scalar) : res scalar := fs <- factors xs ;; dot fs ys.

(** The same on Decaf strings: what the parties make together of a string that each of them multiplied by the own share. *)
Fixpoint combined (fs : list scalar) (bs : list (list Z)) : api TDc :=
  match fs, bs with
  | f :: fs', b :: bs' => ADcAdd (ADcMul (ADcDecompress b) f) (combined fs' bs')
  | _, _ => ADcIdentity
  end.

(** The check of a share y of party x against the published multiples of the generator by the coefficients. *)
Fixpoint published (bs : list (list Z)) (x : scalar) : api TDc :=
  match bs with
  | [] => ADcIdentity
  | b :: bs' => ADcAdd (ADcDecompress b) (ADcMul (published bs' x) x)
  end.
Definition check_share (bs : list (list Z)) (x y : scalar) : api (TData DBool) := ADcEq (ADcMul ADcGenerator y) (published bs x).
