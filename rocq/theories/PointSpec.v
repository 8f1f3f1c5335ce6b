(** What the point representations stand for: the affine point, and the invariant the arithmetic maintains. *)
Require Import ZArith List Bool.
From Verif Require Import Base SpecParams SpecField SpecCurve FieldBackend TwistedModel.
Open Scope F_scope.

Section PointSpec.
Variable B : backend.
Let fv := fv B.
Let tight := fe_tight B.

(** Extended coordinates (X : Y : Z : T) of the affine point (X/Z, Y/Z), with T = XY/Z. *)
Definition ed_affine (P : EdPoint B) : point := (fv (edX P) / fv (edZ P), fv (edY P) / fv (edZ P)).
Definition ed_valid (P : EdPoint B) : Prop :=
  (tight (edX P) /\ tight (edY P) /\ tight (edZ P) /\ tight (edT P)) /\
  fv (edZ P) <> 0 /\
  fv (edT P) * fv (edZ P) = fv (edX P) * fv (edY P) /\
  on_curve ed_a ed_d (ed_affine P).

Definition tw_affine (P : TwPoint B) : point := (fv (twX P) / fv (twZ P), fv (twY P) / fv (twZ P)).
(** On the twisted curve the addition law is complete on the points with 1 + x^2 a square, which form a subgroup
    (CurveTheory.v); this is part of the invariant. *)
Definition tw_valid (P : TwPoint B) : Prop :=
  (tight (twX P) /\ tight (twY P) /\ tight (twZ P) /\ tight (twT P)) /\
  fv (twZ P) <> 0 /\
  fv (twT P) * fv (twZ P) = fv (twX P) * fv (twY P) /\
  on_curve tw_a tw_d (tw_affine P) /\
  is_square (1 + fst (tw_affine P) * fst (tw_affine P)).

(** Extensible coordinates: T1 T2 in place of T. *)
Definition xt_affine (P : XtPoint B) : point := (fv (xtX P) / fv (xtZ P), fv (xtY P) / fv (xtZ P)).
Definition xt_valid (P : XtPoint B) : Prop :=
  (tight (xtX P) /\ tight (xtY P) /\ tight (xtZ P) /\ tight (xtT1 P) /\ tight (xtT2 P)) /\
  fv (xtZ P) <> 0 /\
  fv (xtT1 P) * fv (xtT2 P) * fv (xtZ P) = fv (xtX P) * fv (xtY P) /\
  on_curve tw_a tw_d (xt_affine P) /\
  is_square (1 + fst (xt_affine P) * fst (xt_affine P)).

(** Affine twisted points, and the point with both coordinates doubled. *)
Definition twa_affine (A : TwAffine B) : point := (fv (twAx A), fv (twAy A)).
Definition twa_valid (A : TwAffine B) : Prop :=
  (tight (twAx A) /\ tight (twAy A)) /\ on_curve tw_a tw_d (twa_affine A) /\ is_square (1 + fst (twa_affine A) * fst (twa_affine A)).
Definition pdbl_coords (Q : point) : point := (of_Z 2 * fst Q, of_Z 2 * snd Q).

(** The cached form ((Y+X), (Y-X), 2dT, 2Z) of a twisted point. *)
Definition pn_rep (N : PNiels B) (Q : point) : Prop :=
  (tight (pnYpX N) /\ tight (pnYmX N) /\ tight (pnTd N) /\ tight (pnZ N)) /\
  (on_curve tw_a tw_d Q /\ is_square (1 + fst Q * fst Q)) /\
  exists z, z <> 0 /\
    fv (pnYpX N) = (snd Q + fst Q) * z /\
    fv (pnYmX N) = (snd Q - fst Q) * z /\
    fv (pnTd N) = of_Z 2 * tw_d * (fst Q * snd Q) * z /\
    fv (pnZ N) = of_Z 2 * z.
End PointSpec.
