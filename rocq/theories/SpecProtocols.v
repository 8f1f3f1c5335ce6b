(** Protocols over Decaf as a user of the crate would write them (for C97).  Not in the crate: every step is a call of its public API. *)
Require Import ZArith List Bool.
From Verif Require Import Base SpecDecaf ScalarModel ApiExpr SpecExponent.
Import ListNotations.
Open Scope Z_scope.

(** A commitment to m with the second generator H: m B + r H. *)
Definition commit (H : list Z) (m r : scalar) : api (TData (DBytes 56)) :=
  ADcCompress (ADcAdd (ADcMul ADcGenerator m) (ADcMul (ADcDecompress H) r)).
Definition add_strings (x y : list Z) : api (TData (DBytes 56)) := ADcCompress (ADcAdd (ADcDecompress x) (ADcDecompress y)).
Definition commit_sum (H : list Z) (m m' r r' : scalar) : api (TData (DBytes 56)) :=
  ABind DScalar _ (AScAdd m m') (fun x => ABind DScalar _ (AScAdd r r') (fun y => commit H x y)).

(** Evaluation on a blinded input: the client sends s X, the server answers k (s X), the client multiplies by 1 / s. *)
Definition unblind (y : list Z) (s : scalar) : api (TData (DBytes 56)) := ABind DScalar _ (AScInvert s) (fun i => shared_secret y i).
Definition blind_eval (x : list Z) (s k : scalar) : api (TData (DBytes 56)) :=
  ABind (DBytes 56) _ (shared_secret x s) (fun b => ABind (DBytes 56) _ (shared_secret b k) (fun y => unblind y s)).

(** Encryption to a key A: r B and m + r A; decryption with a. *)
Definition seal (A m : list Z) (r : scalar) : api (TData (DBytes 56)) := ADcCompress (ADcAdd (ADcDecompress m) (ADcMul (ADcDecompress A) r)).
Definition unseal (c1 c2 : list Z) (a : scalar) : api (TData (DBytes 56)) := ADcCompress (ADcSub (ADcDecompress c2) (ADcMul (ADcDecompress c1) a)).
Definition seal_unseal (A m : list Z) (r a : scalar) : api (TData (DBytes 56)) :=
  ABind (DBytes 56) _ (public_key r) (fun c1 => ABind (DBytes 56) _ (seal A m r) (fun c2 => unseal c1 c2 a)).

(** A check that A and A' have the same logarithm, one to B and the other to B': s B = R + c A and s B' = R' + c A'. *)
Definition check_to (base A R : list Z) (c s : scalar) : api (TData DBool) :=
  ADcEq (ADcMul (ADcDecompress base) s) (ADcAdd (ADcDecompress R) (ADcMul (ADcDecompress A) c)).
Definition check_both (base' A A' R R' : list Z) (c s : scalar) : api (TData DBool) :=
  ABind DBool _ (check A R c s) (fun x => ABind DBool _ (check_to base' A' R' c s) (fun y => ARet DBool (x && y))).
