(** Programs over Edwards points, and the integers modulo 4 l they compute with (for C99). *)
Require Import ZArith List Bool.
From Verif Require Import Base SpecParams SpecField SpecCurve SpecEncoding ScalarModel ApiExpr.
Import ListNotations.
Open Scope Z_scope.

(** The base point plus the point (1, 0) of order 4, its multiples, and their encodings. *)
Definition curve_gen : point := padd ed_a ed_d G ((1)%F, (0)%F).
Definition multiple (n : Z) : point := pmul ed_a ed_d (n mod (4 * ell)) curve_gen.
Definition string_ed (n : Z) : list Z := ed_encode (multiple n).

(** A point, made from the generator, the identity and received strings. *)
Inductive ed_element : Type :=
| GBase | GZero
| GReceived (b : list Z) (n : Z)       (** the string b, which is decoded to the multiple n *)
| GAdd (x y : ed_element) | GSub (x y : ed_element) | GNeg (x : ed_element) | GDouble (x : ed_element)
| GTorque (x : ed_element)             (** plus the point of order 2 *)
| GTimes (x : ed_element) (s : scalar)
| GModFour (x : ed_element) (s : scalar)  (** times s modulo 4 *)
| GRound (x : ed_element)              (** to the twisted curve and back *)
| GAffine (x : ed_element)             (** to affine coordinates and back *)
| GSelect (x y : ed_element) (c : bool).
Fixpoint ed_inputs_ok (e : ed_element) : Prop :=
  match e with
  | GBase | GZero => True
  | GReceived b n => bytes 57 b /\ ed_decode b = Some (multiple n)
  | GAdd x y | GSub x y | GSelect x y _ => ed_inputs_ok x /\ ed_inputs_ok y
  | GNeg x | GDouble x | GTorque x | GRound x | GAffine x => ed_inputs_ok x
  | GTimes x s | GModFour x s => ed_inputs_ok x /\ is_scalar s
  end.
(** The calls that make it. *)
Fixpoint ed_calls (e : ed_element) : api TEd :=
  match e with
  | GBase => AEdGenerator | GZero => AEdIdentity
  | GReceived b _ => AEdDecompress b
  | GAdd x y => AEdAdd (ed_calls x) (ed_calls y) | GSub x y => AEdSub (ed_calls x) (ed_calls y)
  | GNeg x => AEdNeg (ed_calls x) | GDouble x => AEdDouble (ed_calls x) | GTorque x => AEdTorque (ed_calls x)
  | GTimes x s => AEdMul (ed_calls x) s | GModFour x s => AEdModFour (ed_calls x) s
  | GRound x => AEdUntwist (ATwist (ed_calls x))
  | GAffine x => AEdOfAffine (AEdToAffine (ed_calls x))
  | GSelect x y c => AEdSelect (ed_calls x) (ed_calls y) c
  end.
(** Its multiple. *)
Fixpoint ed_exponent (e : ed_element) : Z :=
  match e with
  | GBase => ell + 1 | GZero => 0 | GReceived _ n => n
  | GAdd x y => ed_exponent x + ed_exponent y | GSub x y => ed_exponent x - ed_exponent y
  | GNeg x => - ed_exponent x | GDouble x => 2 * ed_exponent x
  | GTorque x => ed_exponent x + 2 * ell
  | GTimes x s => ed_exponent x * eval 32 s
  | GModFour x s => ed_exponent x * (eval 32 s mod 4)
  | GRound x => 4 * ed_exponent x
  | GAffine x => ed_exponent x
  | GSelect x y c => if c then ed_exponent y else ed_exponent x
  end.

(** ** Key agreement on the Edwards curve as a user would write it *)
Definition ed_public (a : scalar) : api (TData (DBytes 57)) := AEdCompress (AEdMul AEdGenerator a).
Definition ed_shared (b : list Z) (a : scalar) : api (TData (DBytes 57)) := AEdCompress (AEdMul (AEdDecompress b) a).
(** With the part of order 4 removed, by doubling twice. *)
Definition ed_shared_clear (b : list Z) (a : scalar) : api (TData (DBytes 57)) := AEdCompress (AEdMul (AEdDouble (AEdDouble (AEdDecompress b))) a).
