(** The Decaf group and its encoding, independent of the code; and decaf448 as RFC 9496 writes it.

    A group element is a class {P, P + (0, -1)} of points of the twisted curve with 1 + x^2 a square.  Its encoding s comes
    from the parametrisation x = 2 s / (1 - s^2), for which 1 + x^2 = t^2 with t = (1 + s^2) / (1 - s^2). *)
Require Import ZArith List Bool.
From Verif Require Import Base SpecParams SpecField SpecCurve SpecEncoding.
Import ListNotations.
Open Scope F_scope.

(** The two points of a class. *)
Definition same_class (P Q : point) : Prop := P = Q \/ P = padd tw_a tw_d Q (0, - (1)).

(** The even one of x and -x. *)
Definition fabs (x : F) : F := if fodd x then - x else x.
(** The even square root of 39081. *)
Definition sqrt_39081 : F := fabs (fsqrt (of_Z 39081)).

(** Of the two roots t of 1 + x^2, the one that makes sqrt(39081) x y / t even. *)
Definition decaf_root (Q : point) : F :=
  let (x, y) := Q in
  let t := fsqrt (1 + x * x) in
  if fodd (sqrt_39081 * (x * y) / t) then - t else t.
(** s = sqrt((t - 1) / (t + 1)), even. *)
Definition decaf_s (Q : point) : F := let t := decaf_root Q in fabs (fsqrt ((t - 1) / (t + 1))).
Definition decaf_encode (Q : point) : list Z := le_bytes 56 (fval (decaf_s Q)).

(** The conditions on an acceptable s. *)
Definition decaf_v (s : F) : F := (1 - s * s) * (1 - s * s) + of_Z 156328 * (s * s).
Definition decaf_ok (b : list Z) : Prop :=
  (le_val b < p)%Z /\ Z.odd (le_val b) = false /\
  let s := of_Z (le_val b) in
  s * s <> 1 /\ is_square (decaf_v s) /\ decaf_v s <> 0.
(** The point with x = 2 s / (1 - s^2), y^2 = (1 + s^2)^2 / v and sqrt(39081) x y / t even. *)
Definition decaf_point (s : F) : point :=
  let x := of_Z 2 * s / (1 - s * s) in
  let t := (1 + s * s) / (1 - s * s) in
  let y := (1 + s * s) / fsqrt (decaf_v s) in
  (x, if fodd (sqrt_39081 * (x * y) / t) then - y else y).
Definition decaf_decode (b : list Z) : option point :=
  let s := of_Z (le_val b) in
  if (le_val b <? p)%Z && negb (Z.odd (le_val b)) && negb (feqb (s * s) 1) &&
     feqb (fsqrt (decaf_v s) * fsqrt (decaf_v s)) (decaf_v s) && negb (feqb (decaf_v s) 0)
  then Some (decaf_point s) else None.

(** ** RFC 9496, section 5: decaf448 on the untwisted curve (affine points, z0 = 1) *)

Definition rfc_D : F := ed_d.
Definition rfc_ONE_MINUS_D : F := of_Z 39082.
Definition rfc_SQRT_MINUS_D : F := of_Z 98944233647732219769177004876929019128417576295529901074099889598043702116001257856802131563896515373927712232092845883226922417596214.
Definition rfc_INVSQRT_MINUS_D : F := finv rfc_SQRT_MINUS_D.
Definition rfc_CT_ABS (x : F) : F := if fodd x then - x else x.
(** 5.2, SQRT_RATIO_M1 (the name is the RFC's). *)
Definition rfc_SQRT_RATIO_M1 (u v : F) : bool * F :=
  let r := u * fpow (u * v) ((p - 3) / 4)%Z in
  let check := v * (r * r) in
  (feqb check u, rfc_CT_ABS r).
(** 5.3.1 *)
Definition rfc_decode (b : list Z) : option point :=
  if (p <=? le_val b)%Z then None else
  let s := of_Z (le_val b) in
  if fodd s then None else
  let ss := s * s in
  let u1 := 1 + ss in
  let u2 := u1 * u1 - of_Z 4 * rfc_D * ss in
  let (was_square, invsqrt) := rfc_SQRT_RATIO_M1 1 (u2 * (u1 * u1)) in
  let u3 := rfc_CT_ABS (of_Z 2 * s * invsqrt * u1 * rfc_SQRT_MINUS_D) in
  let x := u3 * invsqrt * u2 * rfc_INVSQRT_MINUS_D in
  let y := (1 - ss) * invsqrt * u1 in
  if was_square then Some (x, y) else None.
(** 5.3.2 *)
Definition rfc_encode (Q : point) : list Z :=
  let (x0, y0) := Q in
  let z0 := 1 in
  let t0 := x0 * y0 in
  let u1 := (x0 + t0) * (x0 - t0) in
  let (_, invsqrt) := rfc_SQRT_RATIO_M1 1 (u1 * rfc_ONE_MINUS_D * (x0 * x0)) in
  let ratio := rfc_CT_ABS (invsqrt * u1 * rfc_SQRT_MINUS_D) in
  let u2 := rfc_INVSQRT_MINUS_D * ratio * z0 - t0 in
  let s := rfc_CT_ABS (rfc_ONE_MINUS_D * invsqrt * x0 * u2) in
  le_bytes 56 (fval s).
(** 5.3.3 *)
Definition rfc_equal (Q R : point) : Prop := fst Q * snd R = snd Q * fst R.
(** The encoding of the generator. *)
Definition rfc_generator : list Z := repeat 0x66%Z 28 ++ repeat 0x33%Z 28.
