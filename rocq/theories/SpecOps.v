(** What an expression of operators means, however its operands are passed: points of the curves, scalars and u-coordinates. *)
Require Import ZArith List Bool.
From Verif Require Import Base SpecParams SpecField SpecCurve SpecDecaf FieldBackend ScalarModel TwistedModel EdwardsModel PointSpec SpecApi OpModel.
Import ListNotations.

(** A point of Ed448; the 14 words of a scalar; a point of the twisted curve (a DecafPoint); the bytes of a u-coordinate. *)
Inductive thing : Type := SEd (P : point) | SSc (s : list Z) | SDc (P : point) | SMt (u : list Z).

Definition sum_of (a b : thing) : option thing :=
  match a, b with
  | SEd P, SEd Q => Some (SEd (padd ed_a ed_d P Q))
  | SDc P, SDc Q => Some (SDc (padd tw_a tw_d P Q))
  | SSc s, SSc t => Some (SSc (words_of (sum_scalars (value s) (value t))))
  | _, _ => None
  end.
Definition difference_of (a b : thing) : option thing :=
  match a, b with
  | SEd P, SEd Q => Some (SEd (padd ed_a ed_d P (pneg Q)))
  | SDc P, SDc Q => Some (SDc (padd tw_a tw_d P (pneg Q)))
  | SSc s, SSc t => Some (SSc (words_of (diff_scalars (value s) (value t))))
  | _, _ => None
  end.
(** Multiples of points can be written in either order. *)
Definition product_of (a b : thing) : option thing :=
  match a, b with
  | SEd P, SSc s | SSc s, SEd P => Some (SEd (pmul ed_a ed_d (value s) P))
  | SDc P, SSc s | SSc s, SDc P => Some (SDc (pmul tw_a tw_d (value s) P))
  | SMt u, SSc s | SSc s, SMt u => Some (SMt (encode_u (ladder_u (of_Z (le_val u)) (value s))))
  | SSc s, SSc t => Some (SSc (words_of (value s * value t mod ell)))
  | _, _ => None
  end.
Definition opposite_of (a : thing) : option thing :=
  match a with SEd P => Some (SEd (pneg P)) | SDc P => Some (SDc (pneg P)) | _ => None end.
Definition op_of (o : op) : thing -> thing -> option thing :=
  match o with Add | AddAssign => sum_of | Sub | SubAssign => difference_of | Mul | MulAssign => product_of end.

(** References make no difference; [None]: the expression makes no sense. *)
Fixpoint sense (env : list thing) (e : exp) : option thing :=
  match e with
  | Var i => nth_error env i
  | Ref a | Deref a => sense env a
  | Bin o a b => ob (sense env a) (fun x => ob (sense env b) (fun y => op_of o x y))
  | Neg a | Call m_neg a | Call m_negate a => ob (sense env a) opposite_of
  | Call2 m_add a b => ob (sense env a) (fun x => ob (sense env b) (fun y => sum_of x y))
  | Call2 m_sub a b => ob (sense env a) (fun x => ob (sense env b) (fun y => difference_of x y))
  | Call2 m_scalar_mul a b => ob (sense env a) (fun x => ob (sense env b) (fun y => product_of x y))
  | _ => None
  end.

(** What a caller can write: anything but the code behind the operators. *)
Fixpoint callers (e : exp) : Prop :=
  match e with
  | Var _ => True
  | Ref a | Deref a | Neg a | Call _ a => callers a
  | Bin _ a b | Call2 _ a b => callers a /\ callers b
  | Do1 _ _ | Do2 _ _ _ => False
  end.

(** A value of the code and the thing it stands for. *)
Definition denotes (B : backend) (v : operand B) (x : thing) : Prop :=
  match v, x with
  | VEd P, SEd Q => ed_valid B P /\ ed_affine B P = Q
  | VSc s, SSc t => s = t /\ is_scalar s
  | VDc P, SDc Q => tw_valid B P /\ tw_affine B P = Q
  | VMt u, SMt w => u = w /\ bytes 56 u
  | _, _ => False
  end.
(** Variables of these types. *)
Definition typed {B} (G : list ty) (env : list (operand B)) : Prop := Forall2 (fun t v => kind v = nom_of t) G env.

(** The forms in which each operator is offered. *)
Definition owned (t : ty) : bool := match t with Own _ => true | Bor _ => false end.
Definition offered (o : op) (l r : ty) : bool :=
  match o, nom_of l, nom_of r with
  | (Add | Sub), EdT, EdT | Mul, EdT, ScT | Mul, ScT, EdT => true
  | (AddAssign | SubAssign), EdT, EdT | MulAssign, EdT, ScT => owned l
  | (Add | Sub | Mul), ScT, ScT => owned l && owned r
  | (Add | Sub), DcT, DcT | Mul, DcT, ScT | Mul, ScT, DcT => eqb (owned l) (owned r)
  | Mul, MtT, ScT | Mul, ScT, MtT => negb (owned l) && negb (owned r)
  | _, _, _ => false
  end.

(** The same expression without references, assignments and methods. *)
Fixpoint bare (e : exp) : exp :=
  match e with
  | Ref a | Deref a => bare a
  | Bin AddAssign a b | Bin Add a b | Call2 m_add a b => Bin Add (bare a) (bare b)
  | Bin SubAssign a b | Bin Sub a b | Call2 m_sub a b => Bin Sub (bare a) (bare b)
  | Bin MulAssign a b | Bin Mul a b | Call2 m_scalar_mul a b => Bin Mul (bare a) (bare b)
  | Neg a | Call m_neg a | Call m_negate a => Neg (bare a)
  | _ => e
  end.
