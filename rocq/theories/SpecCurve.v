(** The curves, as sets of affine points over the field F, with the Edwards addition law.

    [edw a d]: the curve a x^2 + y^2 = 1 + d x^2 y^2.  The crate uses two of them:
    Ed448-Goldilocks is [edw 1 (-39081)] and its twist in Decaf is [edw (-1) (-39082)]. *)
Require Import ZArith.
From Verif Require Import SpecParams SpecField.
Open Scope F_scope.

Definition point : Type := F * F.

Definition on_curve (a d : F) (P : point) : Prop :=
  let (x, y) := P in a * (x * x) + y * y = 1 + d * (x * x) * (y * y).

Definition pzero : point := (0, 1).
Definition pneg (P : point) : point := let (x, y) := P in (- x, y).
Definition padd (a d : F) (P Q : point) : point :=
  let (x1, y1) := P in
  let (x2, y2) := Q in
  ((x1 * y2 + y1 * x2) / (1 + d * x1 * x2 * y1 * y2),
   (y1 * y2 - a * x1 * x2) / (1 - d * x1 * x2 * y1 * y2)).

(** P added to itself n times. *)
Fixpoint pmul_nat (a d : F) (n : nat) (P : point) : point :=
  match n with
  | O => pzero
  | S n' => padd a d P (pmul_nat a d n' P)
  end.
Definition pmul (a d : F) (n : Z) (P : point) : point := pmul_nat a d (Z.to_nat n) P.

(** Ed448-Goldilocks. *)
Definition ed_a : F := 1.
Definition ed_d : F := of_Z (-39081).
(** The twisted curve. *)
Definition tw_a : F := - (1).
Definition tw_d : F := of_Z (-39082).

(** The base point of RFC 8032, section 5.2. *)
Definition Gx : F := of_Z
  0x4f1970c66bed0ded221d15a622bf36da9e146570470f1767ea6de324a3d3a46412ae1af72ab66511433b80e18b00938e2626a82bc70cc05e.
Definition Gy : F := of_Z
  0x693f46716eb6bc248876203756c9c7624bea73736ca3984087789c1e05a0c2d73ad3ff1ce67c39c4fdbd132c4ed7c8ad9808795bf230fa14.
Definition G : point := (Gx, Gy).

(** The base point of the twisted curve. *)
Definition Dx : F := of_Z
  0x7ffffffffffffffffffffffffffffffffffffffffffffffffffffffe80000000000000000000000000000000000000000000000000000000.
Definition Dy : F := of_Z
  0x8508de14f04286d48d06c13078ca240805264370504c74c393d5242c5045271414181844d73f48e5199b0c1e3ab470a1c86079b4dfdd4a64.
Definition D : point := (Dx, Dy).
