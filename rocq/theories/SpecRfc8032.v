(** Encoding and decoding of Ed448 points, and signatures, as written in RFC 8032, section 5.2. *)
Require Import ZArith List Bool.
From Verif Require Import Base SpecParams SpecField SpecCurve.
Import ListNotations.
Open Scope F_scope.

(** 57 bytes of y, with the low bit of x as bit 455. *)
Definition rfc8032_encode (Q : point) : list Z := le_bytes 57 (fval (snd Q) + 2 ^ 455 * (fval (fst Q) mod 2)).

Definition rfc8032_decode (b : list Z) : option point :=
  let n := le_val b in
  (* 1 *)
  let x_0 := (n / 2 ^ 455)%Z in
  let y := (n mod 2 ^ 455)%Z in
  if (p <=? y)%Z then None else
  let y := of_Z y in
  (* 2 *)
  let u := y * y - 1 in
  let v := ed_d * (y * y) - 1 in
  let x := fpow u 3 * v * fpow (fpow u 5 * fpow v 3) ((p - 3) / 4) in
  (* 3 *)
  if negb (feqb (v * (x * x)) u) then None else
  (* 4 *)
  if feqb x 0 && (x_0 =? 1)%Z then None else
  if (x_0 =? fval x mod 2)%Z then Some (x, y) else Some (- x, y).

(** Section 5.2.7.  A: the public key; R and S: the two halves of the signature; h: the 114-byte hash of the rest, whatever the
    hash function. *)
Definition same_point (P Q : point) : bool := feqb (fst P) (fst Q) && feqb (snd P) (snd Q).
Definition rfc8032_verify (A R S h : list Z) : bool :=
  match rfc8032_decode A, rfc8032_decode R with
  | Some A', Some R' =>
      (le_val S <? ell)%Z &&
      same_point (pmul ed_a ed_d 4 (pmul ed_a ed_d (le_val S) G))
        (padd ed_a ed_d (pmul ed_a ed_d 4 R') (pmul ed_a ed_d 4 (pmul ed_a ed_d (le_val h) A')))
  | _, _ => false
  end.

(** Sections 5.2.5 and 5.2.6, for a secret integer s, and the integers r and k that the two hashes stand for. *)
Definition rfc8032_public (s : Z) : list Z := rfc8032_encode (pmul ed_a ed_d s G).
Definition rfc8032_sign (s r k : Z) : list Z * list Z := (rfc8032_encode (pmul ed_a ed_d r G), le_bytes 57 ((r + k * s) mod ell)).
