(** Programs over the Decaf API with the meaning RFC 9496 (section 5) gives them: on points of Ed448, decoding with
    [rfc_decode], the group operations being those of the curve. *)
Require Import ZArith List Bool.
From Verif Require Import Base SpecParams SpecField SpecCurve SpecEncoding SpecDecaf ScalarModel EdwardsExpr DecafExpr.
Import ListNotations.
Open Scope F_scope.

(** The points that decaf448 works with: the doubles of points of Ed448. *)
Definition rfc_internal (R : point) : Prop := exists S, on_curve ed_a ed_d S /\ R = padd ed_a ed_d S S.

(** The 4-isogeny from Ed448 to the twisted curve. *)
Definition to_twisted (R : point) : point :=
  let (x, y) := R in (of_Z 2 * x * y / (y * y - x * x), (y * y + x * x) / (of_Z 2 - (y * y + x * x))).

Fixpoint rfc_val (e : dcexp) : option point :=
  let add := padd ed_a ed_d in
  match e with
  | DIdentity => Some pzero
  | DGenerator => rfc_decode rfc_generator
  | DDecompress b => rfc_decode b
  | DAdd x y => omap2 add (rfc_val x) (rfc_val y)
  | DSub x y => omap2 (fun P Q => add P (pneg Q)) (rfc_val x) (rfc_val y)
  | DNeg x => omap pneg (rfc_val x)
  | DMul x s => omap (pmul ed_a ed_d (sval s)) (rfc_val x)
  end.
