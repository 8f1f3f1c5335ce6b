(** Point encodings, independent of the code. *)
Require Import ZArith List Bool.
From Verif Require Import Base SpecParams SpecField SpecCurve.
Import ListNotations.
Open Scope F_scope.

(** A square root of every square (p = 3 modulo 4). *)
Definition fsqrt (x : F) : F := fpow x ((p + 1) / 4)%Z.

(** RFC 8032, section 5.2.2: 56 bytes of y, then one byte whose top bit is the parity of x. *)
Definition ed_encode (Q : point) : list Z := le_bytes 56 (fval (snd Q)) ++ [if fodd (fst Q) then 128%Z else 0%Z].

(** The point with y the first 56 bytes modulo p and x of the parity given by the top bit of the last byte, if the curve
    has such a y. *)
Definition ed_decode (b : list Z) : option point :=
  let y := of_Z (le_val (firstn 56 b)) in
  let xx := (1 - y * y) / (1 - ed_d * (y * y)) in
  let r := fsqrt xx in
  if feqb (r * r) xx then Some (if Bool.eqb (fodd r) (128 <=? nth 56 b 0%Z)%Z then r else - r, y) else None.
