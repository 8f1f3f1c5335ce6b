(** What a program over the public API means, in terms of affine points, field elements, integers and byte strings only.
    No function of the model is used here; the syntax of programs is that of ApiExpr.v. *)
Require Import ZArith List Bool.
From Verif Require Import Base SpecParams SpecField SpecCurve SpecEncoding SpecDecaf SpecMontgomery FieldBackend ScalarModel
  TwistedModel EdwardsModel MontgomeryModel PointSpec ApiExpr.
Import ListNotations.
Open Scope F_scope.

(** Data mean themselves; a point type means an affine point; a projective u-coordinate its numerator and denominator. *)
Definition aval (s : sort) : Type :=
  match s with
  | TData d => dval d | TEdList => list point | TPm => (F * F)%type
  | TEd | TEdAffine | TTw | TXt | TPn | TDc | TRs => point
  end.
Definition ob {A C} (x : option A) (f : A -> option C) : option C := match x with Some a => f a | None => None end.

(** ** Scalars: 14 words of 32 bits *)
Definition words_of (v : Z) : list Z := digits 32 14 v.
Definition value (s : list Z) : Z := eval 32 s.
(** The lowest bit of each word of l. *)
Definition ell_low_bits : Z := eval 32 (map (fun w => (w mod 2)%Z) (words_of ell)).
(** One subtraction of l.  From 2^448 + l on the result is off by [ell_low_bits] (C05). *)
Definition sum_scalars (a b : Z) : Z :=
  (if a + b <? ell then a + b
   else if a + b <? 2 ^ 448 + ell then a + b - ell
   else a + b - 2 ^ 448 - ell + ell_low_bits)%Z.
(** One addition of l, and the result modulo 2^448 (C06). *)
Definition diff_scalars (a b : Z) : Z := (if b <=? a then a - b else (a - b + ell) mod 2 ^ 448)%Z.
(** The inverse modulo the prime l, with 0 for multiples of l. *)
Definition inverse_scalar (a : Z) : Z := (a ^ (ell - 2) mod ell)%Z.
Definition half_scalar (a : Z) : Z := ((if Z.even a then a else a + ell) / 2)%Z.

(** ** Points *)
Definition peq (P Q : point) : bool := feqb (fst P) (fst Q) && feqb (snd P) (snd Q).
Definition order_two : point := (0, - (1)).
Definition class_eq (P Q : point) : bool := peq P Q || peq P (padd tw_a tw_d Q order_two).
(** The isogeny from Ed448 to the twisted curve, and its dual. *)
Definition twist (P : point) : point :=
  let (x, y) := P in (of_Z 2 * x * y / (y * y - x * x), (y * y + x * x) / (of_Z 2 - (y * y + x * x))).
Definition untwist (P : point) : point :=
  let (x, y) := P in (of_Z 2 * x * y / (y * y + x * x), (y * y - x * x) / (of_Z 2 - (y * y - x * x))).
(** u = y^2 / x^2 (0 when x = 0). *)
Definition u_of (P : point) : F := snd P * snd P / (fst P * fst P).
Definition encode_u (u : F) : list Z := le_bytes 56 (fval u).

(** A point of Curve448, or of its twist, with the given u; which of the two, and the point. *)
Definition lift_u (u : F) : F * mpoint :=
  let w := u * u * u + mont_A * (u * u) + u in
  let v := fsqrt w in
  if feqb (v * v) w then (1, Some (u, v)) else (- (1), Some (u, fsqrt (- w))).
(** The multiple that the ladder computes is even: s for an even scalar, s + 1 for an odd one (C37). *)
Definition ladder_u (u : F) (s : Z) : F := let (b, P) := lift_u u in ucoord (mont_mul mont_A b (s + s mod 2) P).

(** [None]: some decompression, or the canonical decoding of a scalar, fails. *)
Fixpoint meaning {s} (e : api s) : option (aval s) :=
  let add := padd ed_a ed_d in
  let add' := padd tw_a tw_d in
  match e in api s return option (aval s) with
  | ARet d v => Some v
  | ABind d s x k => ob (meaning x) (fun v => meaning (k v))
  | AIsSome s x => Some (match meaning x with Some _ => true | None => false end)
  | AScAdd a b => Some (words_of (sum_scalars (value a) (value b)))
  | AScSub a b => Some (words_of (diff_scalars (value a) (value b)))
  | AScMul a b => Some (words_of (value a * value b mod ell))
  | AScInvert a => Some (words_of (inverse_scalar (value a)))
  | AScHalve a => Some (words_of (half_scalar (value a)))
  | AScCanonical b => if (le_val b <? ell)%Z then Some (words_of (le_val b)) else None
  | AScWide b => Some (words_of (le_val b mod ell))
  | AEdIdentity => Some pzero
  | AEdGenerator => Some G
  | AEdDecompress b => ed_decode b
  | AEdAdd x y => ob (meaning x) (fun P => ob (meaning y) (fun Q => Some (add P Q)))
  | AEdSub x y => ob (meaning x) (fun P => ob (meaning y) (fun Q => Some (add P (pneg Q))))
  | AEdNeg x => ob (meaning x) (fun P => Some (pneg P))
  | AEdDouble x => ob (meaning x) (fun P => Some (add P P))
  | AEdTorque x => ob (meaning x) (fun P => Some (add P order_two))
  | AEdMul x t => ob (meaning x) (fun P => Some (pmul ed_a ed_d (value t) P))
  | AEdModFour x t => ob (meaning x) (fun P => Some (pmul ed_a ed_d (value t mod 4)%Z P))
  | AEdSelect x y c => ob (meaning x) (fun P => ob (meaning y) (fun Q => Some (if c then Q else P)))
  | ANil => Some []
  | ACons x l => ob (meaning x) (fun P => ob (meaning l) (fun ps => Some (P :: ps)))
  | AEdSum l => ob (meaning l) (fun ps => Some (fold_left add ps pzero))
  | AEdUntwist x => ob (meaning x) (fun P => Some (untwist P))
  | AEdOfAffine x => ob (meaning x) (fun P => Some P)
  | AEdAffineIdentity => Some pzero
  | AEdToAffine x => ob (meaning x) (fun P => Some P)
  | AEdCompress x => ob (meaning x) (fun P => Some (ed_encode P))
  | AEdEq x y => ob (meaning x) (fun P => ob (meaning y) (fun Q => Some (peq P Q)))
  | AEdTorsionFree x => ob (meaning x) (fun P => Some (peq (pmul ed_a ed_d ell P) pzero))
  | AEdToMontgomery x => ob (meaning x) (fun P => Some (encode_u (u_of P)))
  | ATwIdentity => Some pzero
  | ATwGenerator => Some D
  | ATwist x => ob (meaning x) (fun P => Some (twist P))
  | ATwNeg x => ob (meaning x) (fun P => Some (pneg P))
  | ATwTorque x => ob (meaning x) (fun P => Some (add' P order_two))
  | ATwSelect x y c => ob (meaning x) (fun P => ob (meaning y) (fun Q => Some (if c then Q else P)))
  | ATwOfXt x => ob (meaning x) (fun P => Some P)
  | ATwOfPn x => ob (meaning x) (fun P => Some P)
  | ATwEq x y => ob (meaning x) (fun P => ob (meaning y) (fun Q => Some (peq P Q)))
  | AXtIdentity => Some pzero
  | AXtOfTw x => ob (meaning x) (fun P => Some P)
  | AXtDouble x => ob (meaning x) (fun P => Some (add' P P))
  | AXtAddXt x y => ob (meaning x) (fun P => ob (meaning y) (fun Q => Some (add' P Q)))
  | AXtAddTw x y => ob (meaning x) (fun P => ob (meaning y) (fun Q => Some (add' P Q)))
  | AXtSubTw x y => ob (meaning x) (fun P => ob (meaning y) (fun Q => Some (add' P (pneg Q))))
  | AXtAddPn x y => ob (meaning x) (fun P => ob (meaning y) (fun Q => Some (add' P Q)))
  | AXtEq x y => ob (meaning x) (fun P => ob (meaning y) (fun Q => Some (peq P Q)))
  | APnIdentity => Some pzero
  | APnOfXt x => ob (meaning x) (fun P => Some P)
  | APnSelect x y c => ob (meaning x) (fun P => ob (meaning y) (fun Q => Some (if c then Q else P)))
  | APnNegate x c => ob (meaning x) (fun P => Some (if c then pneg P else P))
  | APnEq x y => ob (meaning x) (fun P => ob (meaning y) (fun Q => Some (peq P Q)))
  | AMpMul b t => Some (encode_u (ladder_u (of_Z (le_val b)) (value t)))
  | APmOf b => Some (of_Z (le_val b), 1)
  | APmIdentity => Some (1, 0)
  | APmSelect x y c => ob (meaning x) (fun P => ob (meaning y) (fun Q => Some (if c then Q else P)))
  | APmToAffine x => ob (meaning x) (fun u => Some (encode_u (fst u / snd u)))
  | ADcIdentity => Some pzero
  | ADcGenerator => Some D
  | ADcDecompress b => decaf_decode b
  | ADcAdd x y => ob (meaning x) (fun P => ob (meaning y) (fun Q => Some (add' P Q)))
  | ADcSub x y => ob (meaning x) (fun P => ob (meaning y) (fun Q => Some (add' P (pneg Q))))
  | ADcNeg x => ob (meaning x) (fun P => Some (pneg P))
  | ADcMul x t => ob (meaning x) (fun P => Some (pmul tw_a tw_d (value t) P))
  | ADcCompress x => ob (meaning x) (fun P => Some (decaf_encode P))
  | ADcEq x y => ob (meaning x) (fun P => ob (meaning y) (fun Q => Some (class_eq P Q)))
  | ARsIdentity => Some pzero
  | ARsEq x y => ob (meaning x) (fun P => ob (meaning y) (fun Q => Some (class_eq P Q)))
  end.

(** When a value of the code stands for a meaning: valid coordinates of that affine point (PointSpec.v).  A Decaf point is
    only determined up to [order_two]. *)
Section Stands.
Variable B : backend.
Definition stands_for (s : sort) : val B s -> aval s -> Prop :=
  match s return val B s -> aval s -> Prop with
  | TData d => fun v a => v = a /\ dok d a
  | TEd => fun P Q => ed_valid B P /\ ed_affine B P = Q
  | TEdAffine => fun A Q => (fv B (edAx A), fv B (edAy A)) = Q /\ on_curve ed_a ed_d Q
  | TEdList => Forall2 (fun P Q => ed_valid B P /\ ed_affine B P = Q)
  | TTw => fun P Q => tw_valid B P /\ tw_affine B P = Q
  | TXt => fun P Q => xt_valid B P /\ xt_affine B P = Q
  | TPn => pn_rep B
  | TPm => fun P u => (fv B (pmU P), fv B (pmW P)) = u
  | TDc | TRs => fun P Q => tw_valid B P /\ same_class (tw_affine B P) Q
  end.
Definition returns {s} (o : option (val B s)) (q : option (aval s)) : Prop :=
  match o, q with Some v, Some a => stands_for s v a | None, None => True | _, _ => False end.
End Stands.
