(** Programs over the public API of Edwards points: expression trees whose nodes are the public constructors and
    operators of [ExtendedPoint], with their meaning on the affine curve and their execution by the model. *)
Require Import ZArith List Bool.
From Verif Require Import Base SpecParams SpecField SpecCurve SpecEncoding FieldBackend ScalarModel TwistedModel EdwardsModel.
Import ListNotations.
Open Scope Z_scope.
Open Scope res_scope.

Inductive edexp : Type :=
| EIdentity
| EGenerator
| EDecompress (b : list Z)
| EAdd (x y : edexp)
| ESub (x y : edexp)
| ENeg (x : edexp)
| EDouble (x : edexp)
| ETorque (x : edexp)
| EMul (x : edexp) (s : scalar)
| ESum (l : list edexp)
| ESelect (x y : edexp) (c : bool).

(** Inputs have the type they have in Rust: 57 bytes, 14 words of 32 bits. *)
Fixpoint edexp_ok (e : edexp) : Prop :=
  match e with
  | EIdentity | EGenerator => True
  | EDecompress b => bytes 57 b
  | EAdd x y | ESub x y | ESelect x y _ => edexp_ok x /\ edexp_ok y
  | ENeg x | EDouble x | ETorque x => edexp_ok x
  | EMul x s => edexp_ok x /\ is_scalar s
  | ESum l => (fix all l := match l with [] => True | x :: l' => edexp_ok x /\ all l' end) l
  end.

(** [None]: some decompression in the program fails. *)
Definition omap {A B} (f : A -> B) (x : option A) : option B := match x with Some a => Some (f a) | None => None end.
Definition omap2 {A B C} (f : A -> B -> C) (x : option A) (y : option B) : option C :=
  match x, y with Some a, Some b => Some (f a b) | _, _ => None end.
Fixpoint edexp_val (e : edexp) : option point :=
  let add := padd ed_a ed_d in
  match e with
  | EIdentity => Some pzero
  | EGenerator => Some G
  | EDecompress b => ed_decode b
  | EAdd x y => omap2 add (edexp_val x) (edexp_val y)
  | ESub x y => omap2 (fun P Q => add P (pneg Q)) (edexp_val x) (edexp_val y)
  | ENeg x => omap pneg (edexp_val x)
  | EDouble x => omap (fun P => add P P) (edexp_val x)
  | ETorque x => omap (fun P => add P (of_Z 0, fopp (of_Z 1))) (edexp_val x)
  | EMul x s => omap (pmul ed_a ed_d (sval s)) (edexp_val x)
  | ESum l => (fix sum l := match l with [] => Some pzero | x :: l' => omap2 add (edexp_val x) (sum l') end) l
  | ESelect x y c => omap2 (fun P Q => if c then Q else P) (edexp_val x) (edexp_val y)
  end.

Section Run.
Variable B : backend.
(** A failed decompression stops the program with [None]; [Panic] propagates. *)
Definition obind {A C} (x : res (option A)) (f : A -> res (option C)) : res (option C) :=
  match x with Ok (Some a) => f a | Ok None => Ok None | Panic => Panic end.
Definition osome {A} (x : res A) : res (option A) := a <- x ;; Ok (Some a).
Definition oseq (run : edexp -> res (option (EdPoint B))) : list edexp -> res (option (list (EdPoint B))) :=
  fix seq l := match l with
  | [] => Ok (Some [])
  | x :: l' => obind (run x) (fun a => obind (seq l') (fun r => Ok (Some (a :: r))))
  end.
Fixpoint edexp_run (e : edexp) : res (option (EdPoint B)) :=
  match e with
  | EIdentity => Ok (Some (ed_identity B))
  | EGenerator => Ok (Some (ed_generator B))
  | EDecompress b => ed_decompress B b
  | EAdd x y => obind (edexp_run x) (fun P => obind (edexp_run y) (fun Q => osome (ed_add B P Q)))
  | ESub x y => obind (edexp_run x) (fun P => obind (edexp_run y) (fun Q => osome (ed_sub B P Q)))
  | ENeg x => obind (edexp_run x) (fun P => osome (ed_negate B P))
  | EDouble x => obind (edexp_run x) (fun P => osome (ed_double B P))
  | ETorque x => obind (edexp_run x) (fun P => osome (ed_torque B P))
  | EMul x s => obind (edexp_run x) (fun P => osome (ed_scalar_mul B P s))
  | ESum l => obind (oseq edexp_run l) (fun ps => osome (ed_sum B ps))
  | ESelect x y c => obind (edexp_run x) (fun P => obind (edexp_run y) (fun Q => osome (ed_select B P Q c)))
  end.
End Run.
