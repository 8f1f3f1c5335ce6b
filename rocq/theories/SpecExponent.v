(** Programs over Decaf, and the integers modulo l they compute with (for C68). *)
Require Import ZArith List Bool.
From Verif Require Import Base SpecParams SpecField SpecCurve SpecEncoding SpecDecaf ScalarModel ApiExpr.
Import ListNotations.
Open Scope Z_scope.

(** The encoding of n times the generator. *)
Definition string_of (n : Z) : list Z := decaf_encode (pmul tw_a tw_d (n mod ell) D).

(** A group element, made from the generator, the identity and received strings. *)
Inductive element : Type :=
| EBase | EZero
| EReceived (n : Z)                    (** the string of n *)
| EAdd (x y : element) | ESub (x y : element) | ENeg (x : element)
| ETimes (x : element) (s : scalar).
Fixpoint scalars_ok (e : element) : Prop :=
  match e with
  | EBase | EZero | EReceived _ => True
  | EAdd x y | ESub x y => scalars_ok x /\ scalars_ok y
  | ENeg x => scalars_ok x
  | ETimes x s => scalars_ok x /\ is_scalar s
  end.
(** The calls that make it. *)
Fixpoint calls (e : element) : api TDc :=
  match e with
  | EBase => ADcGenerator | EZero => ADcIdentity
  | EReceived n => ADcDecompress (string_of n)
  | EAdd x y => ADcAdd (calls x) (calls y) | ESub x y => ADcSub (calls x) (calls y) | ENeg x => ADcNeg (calls x)
  | ETimes x s => ADcMul (calls x) s
  end.
(** Its multiple of the generator. *)
Fixpoint exponent (e : element) : Z :=
  match e with
  | EBase => 1 | EZero => 0 | EReceived n => n
  | EAdd x y => exponent x + exponent y | ESub x y => exponent x - exponent y | ENeg x => - exponent x
  | ETimes x s => exponent x * eval 32 s
  end.

(** ** Protocols as a user would write them *)
Definition public_key (a : scalar) : api (TData (DBytes 56)) := ADcCompress (ADcMul ADcGenerator a).
Definition shared_secret (b : list Z) (a : scalar) : api (TData (DBytes 56)) := ADcCompress (ADcMul (ADcDecompress b) a).
(** Both steps of a Diffie-Hellman exchange: a's view of it. *)
Definition exchange (a b : scalar) : api (TData (DBytes 56)) := ABind (DBytes 56) _ (public_key b) (fun pk => shared_secret pk a).
(** Schnorr: the response r + c a, and the check s B = R + c A. *)
Definition respond (r c a : scalar) : api (TData DScalar) := ABind DScalar _ (AScMul c a) (fun x => AScAdd r x).
Definition check (A R : list Z) (c s : scalar) : api (TData DBool) :=
  ADcEq (ADcMul ADcGenerator s) (ADcAdd (ADcDecompress R) (ADcMul (ADcDecompress A) c)).
