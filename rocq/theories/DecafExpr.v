(** Programs over the public API of [DecafPoint]: expression trees whose nodes are the public constructors and operators,
    with their meaning as classes of points of the twisted curve and their execution by the model. *)
Require Import ZArith List Bool.
From Verif Require Import Base SpecParams SpecField SpecCurve SpecEncoding SpecDecaf FieldBackend ScalarModel TwistedModel EdwardsExpr DecafModel.
Import ListNotations.
Open Scope res_scope.

Inductive dcexp : Type :=
| DIdentity
| DGenerator
| DDecompress (b : list Z)
| DAdd (x y : dcexp)
| DSub (x y : dcexp)
| DNeg (x : dcexp)
| DMul (x : dcexp) (s : scalar).

(** Inputs have the type they have in Rust: 56 bytes, 14 words of 32 bits. *)
Fixpoint dcexp_ok (e : dcexp) : Prop :=
  match e with
  | DIdentity | DGenerator => True
  | DDecompress b => bytes 56 b
  | DAdd x y | DSub x y => dcexp_ok x /\ dcexp_ok y
  | DNeg x => dcexp_ok x
  | DMul x s => dcexp_ok x /\ is_scalar s
  end.

(** One point of the class; [None]: some decompression in the program fails. *)
Fixpoint dcexp_val (e : dcexp) : option point :=
  let add := padd tw_a tw_d in
  match e with
  | DIdentity => Some pzero
  | DGenerator => Some D
  | DDecompress b => decaf_decode b
  | DAdd x y => omap2 add (dcexp_val x) (dcexp_val y)
  | DSub x y => omap2 (fun P Q => add P (pneg Q)) (dcexp_val x) (dcexp_val y)
  | DNeg x => omap pneg (dcexp_val x)
  | DMul x s => omap (pmul tw_a tw_d (sval s)) (dcexp_val x)
  end.

Section Run.
Variable B : backend.
Fixpoint dcexp_run (e : dcexp) : res (option (TwPoint B)) :=
  match e with
  | DIdentity => Ok (Some (dc_identity B))
  | DGenerator => Ok (Some (dc_generator B))
  | DDecompress b => dc_decompress B b
  | DAdd x y => obind (dcexp_run x) (fun P => obind (dcexp_run y) (fun Q => osome (dc_add B P Q)))
  | DSub x y => obind (dcexp_run x) (fun P => obind (dcexp_run y) (fun Q => osome (dc_sub B P Q)))
  | DNeg x => obind (dcexp_run x) (fun P => osome (dc_neg B P))
  | DMul x s => obind (dcexp_run x) (fun P => osome (dc_mul B P s))
  end.
End Run.
