(** Programs over the whole public API, with integers for the points (for C100).  Edwards points are integers modulo 4 l, points of the
    twisted curve integers modulo 2 l, Decaf and Ristretto points integers modulo l.  Everything else is as in SpecApi.v. *)
Require Import ZArith List Bool.
From Verif Require Import Base SpecParams SpecField SpecCurve SpecEncoding SpecDecaf ScalarModel ApiExpr SpecApi SpecExponent SpecExponentEd.
Import ListNotations.
Open Scope Z_scope.

Definition ival (s : sort) : Type :=
  match s with
  | TData d => dval d | TEdList => list Z | TPm => (F * F)%type
  | TEd | TEdAffine | TTw | TXt | TPn | TDc | TRs => Z
  end.

(** The multiples of D + (0, -1), which has order 2 l on the twisted curve. *)
Definition tw_multiple (n : Z) : point := pmul tw_a tw_d (n mod (2 * ell)) (padd tw_a tw_d D order_two).

(** The first n below N with f n. *)
Definition search (N : Z) (f : Z -> bool) : option Z := find f (map Z.of_nat (seq 0 (Z.to_nat N))).
(** The integer behind a string; [None] if there is none. *)
Definition log_ed (b : list Z) : option Z := search (4 * ell) (fun n => match ed_decode b with Some P => peq P (multiple n) | None => false end).
Definition log_dc (b : list Z) : option Z := search ell (fun n => if list_eq_dec Z.eq_dec (string_of n) b then true else false).

Fixpoint integers {s} (e : api s) : option (ival s) :=
  match e in api s return option (ival s) with
  | ARet d v => Some v
  | ABind d s x k => ob (integers x) (fun v => integers (k v))
  | AIsSome s x => Some (match integers x with Some _ => true | None => false end)
  | AScAdd a b => Some (words_of (sum_scalars (value a) (value b)))
  | AScSub a b => Some (words_of (diff_scalars (value a) (value b)))
  | AScMul a b => Some (words_of (value a * value b mod ell))
  | AScInvert a => Some (words_of (inverse_scalar (value a)))
  | AScHalve a => Some (words_of (half_scalar (value a)))
  | AScCanonical b => if le_val b <? ell then Some (words_of (le_val b)) else None
  | AScWide b => Some (words_of (le_val b mod ell))
  | AEdIdentity => Some 0
  | AEdGenerator => Some (ell + 1)
  | AEdDecompress b => log_ed b
  | AEdAdd x y => ob (integers x) (fun m => ob (integers y) (fun n => Some (m + n)))
  | AEdSub x y => ob (integers x) (fun m => ob (integers y) (fun n => Some (m - n)))
  | AEdNeg x => ob (integers x) (fun m => Some (- m))
  | AEdDouble x => ob (integers x) (fun m => Some (2 * m))
  | AEdTorque x => ob (integers x) (fun m => Some (m + 2 * ell))
  | AEdMul x t => ob (integers x) (fun m => Some (m * value t))
  | AEdModFour x t => ob (integers x) (fun m => Some (m * (value t mod 4)))
  | AEdSelect x y c => ob (integers x) (fun m => ob (integers y) (fun n => Some (if c then n else m)))
  | ANil => Some []
  | ACons x l => ob (integers x) (fun m => ob (integers l) (fun ps => Some (m :: ps)))
  | AEdSum l => ob (integers l) (fun ps => Some (fold_left Z.add ps 0))
  | AEdUntwist x => ob (integers x) (fun m => Some (4 * m))
  | AEdOfAffine x => ob (integers x) (fun m => Some m)
  | AEdAffineIdentity => Some 0
  | AEdToAffine x => ob (integers x) (fun m => Some m)
  | AEdCompress x => ob (integers x) (fun m => Some (string_ed m))
  | AEdEq x y => ob (integers x) (fun m => ob (integers y) (fun n => Some (m mod (4 * ell) =? n mod (4 * ell))))
  | AEdTorsionFree x => ob (integers x) (fun m => Some (m mod 4 =? 0))
  | AEdToMontgomery x => ob (integers x) (fun m => Some (encode_u (u_of (multiple m))))
  | ATwIdentity => Some 0
  | ATwGenerator => Some (ell + 1)
  | ATwist x => ob (integers x) (fun m => Some (m * (ell + 1)))
  | ATwNeg x => ob (integers x) (fun m => Some (- m))
  | ATwTorque x => ob (integers x) (fun m => Some (m + ell))
  | ATwSelect x y c => ob (integers x) (fun m => ob (integers y) (fun n => Some (if c then n else m)))
  | ATwOfXt x => ob (integers x) (fun m => Some m)
  | ATwOfPn x => ob (integers x) (fun m => Some m)
  | ATwEq x y => ob (integers x) (fun m => ob (integers y) (fun n => Some (m mod (2 * ell) =? n mod (2 * ell))))
  | AXtIdentity => Some 0
  | AXtOfTw x => ob (integers x) (fun m => Some m)
  | AXtDouble x => ob (integers x) (fun m => Some (2 * m))
  | AXtAddXt x y => ob (integers x) (fun m => ob (integers y) (fun n => Some (m + n)))
  | AXtAddTw x y => ob (integers x) (fun m => ob (integers y) (fun n => Some (m + n)))
  | AXtSubTw x y => ob (integers x) (fun m => ob (integers y) (fun n => Some (m - n)))
  | AXtAddPn x y => ob (integers x) (fun m => ob (integers y) (fun n => Some (m + n)))
  | AXtEq x y => ob (integers x) (fun m => ob (integers y) (fun n => Some (m mod (2 * ell) =? n mod (2 * ell))))
  | APnIdentity => Some 0
  | APnOfXt x => ob (integers x) (fun m => Some m)
  | APnSelect x y c => ob (integers x) (fun m => ob (integers y) (fun n => Some (if c then n else m)))
  | APnNegate x c => ob (integers x) (fun m => Some (if c then - m else m))
  | APnEq x y => ob (integers x) (fun m => ob (integers y) (fun n => Some (m mod (2 * ell) =? n mod (2 * ell))))
  | AMpMul b t => Some (encode_u (ladder_u (of_Z (le_val b)) (value t)))
  | APmOf b => Some (of_Z (le_val b), (1)%F)
  | APmIdentity => Some ((1)%F, (0)%F)
  | APmSelect x y c => ob (integers x) (fun m => ob (integers y) (fun n => Some (if c then n else m)))
  | APmToAffine x => ob (integers x) (fun u => Some (encode_u (fst u / snd u)%F))
  | ADcIdentity => Some 0
  | ADcGenerator => Some 1
  | ADcDecompress b => log_dc b
  | ADcAdd x y => ob (integers x) (fun m => ob (integers y) (fun n => Some (m + n)))
  | ADcSub x y => ob (integers x) (fun m => ob (integers y) (fun n => Some (m - n)))
  | ADcNeg x => ob (integers x) (fun m => Some (- m))
  | ADcMul x t => ob (integers x) (fun m => Some (m * value t))
  | ADcCompress x => ob (integers x) (fun m => Some (string_of m))
  | ADcEq x y => ob (integers x) (fun m => ob (integers y) (fun n => Some (m mod ell =? n mod ell)))
  | ARsIdentity => Some 0
  | ARsEq x y => ob (integers x) (fun m => ob (integers y) (fun n => Some (m mod ell =? n mod ell)))
  end.

(** ** Two programs that branch *)
(** Compare 2 G with G + G; then go through the twisted curve, or ask for the torsion. *)
Definition branching : api (TData DBool) :=
  ABind DBool (TData DBool) (AEdEq (AEdDouble AEdGenerator) (AEdAdd AEdGenerator AEdGenerator)) (fun c =>
    if c then AEdEq (AEdUntwist (ATwist (AEdTorque AEdGenerator))) (AEdDouble (AEdDouble AEdGenerator)) else AEdTorsionFree (AEdTorque AEdGenerator)).
(** Compare a received element with the generator; then return it plus twice the generator, or its negative. *)
Definition branching_received (b : list Z) : api (TData (DBytes 56)) :=
  ABind DBool (TData (DBytes 56)) (ADcEq (ADcDecompress b) ADcGenerator) (fun c =>
    if c then ADcCompress (ADcAdd (ADcDecompress b) (ADcAdd ADcGenerator ADcGenerator)) else ADcCompress (ADcNeg (ADcDecompress b))).
