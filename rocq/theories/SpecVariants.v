(** How many strings of 57 bytes the crate decodes to a point (C88). *)
Require Import ZArith.
From Verif Require Import SpecParams SpecField SpecCurve.
Open Scope Z_scope.

Definition readings (Q : point) : Z := (if fval (snd Q) <=? 2 ^ 224 then 2 else 1) * (if feqb (fst Q) (of_Z 0) then 256 else 128).
(** The four points that are the same up to a point of order 1, 2 or 4. *)
Definition turn (Q : point) : point := (snd Q, fopp (fst Q)).
Definition coset_readings (Q : point) : Z := readings Q + readings (turn Q) + readings (turn (turn Q)) + readings (turn (turn (turn Q))).
