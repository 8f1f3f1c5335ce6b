(** Discrete logarithms on the Edwards curve, up to points of order dividing 4 (for C86). *)
Require Import ZArith.
From Verif Require Import SpecParams SpecField SpecCurve.
Open Scope Z_scope.

(** Q is a times the base point plus a point that four times itself is zero. *)
Definition log_is (Q : point) (a : Z) : Prop :=
  0 <= a < ell /\ exists T, on_curve ed_a ed_d T /\ pmul ed_a ed_d 4 T = pzero /\ Q = padd ed_a ed_d (pmul ed_a ed_d a G) T.
