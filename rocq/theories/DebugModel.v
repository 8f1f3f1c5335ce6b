(** [Debug] output: the text printed for a value by {:?} and by {:#?}.

    The layout is that of the standard library's DebugList, DebugTuple and DebugStruct (core::fmt::builders), which the derived and the
    hand-written implementations use.  Simplified: other format flags (width, hexadecimal) are not modelled. *)
Require Import ZArith List Bool String Ascii.
From Verif Require Import Base FieldBackend ScalarModel TwistedModel EdwardsModel.
Import ListNotations.
Open Scope Z_scope.

(** A text is put together from constant pieces and numbers. *)
Inductive piece : Type := T (s : list ascii) | N (z : Z).
Definition lit (s : string) : piece := T (list_ascii_of_string s).

(** Decimal digits of an unsigned integer below 2^64; the last digit first, as in core::fmt::num. *)
Definition digit (d : Z) : ascii := ascii_of_nat (48 + Z.to_nat d).
Fixpoint decimal (fuel : nat) (n : Z) (acc : list ascii) : list ascii :=
  match fuel with
  | O => acc
  | S f => let acc := digit (n mod 10) :: acc in if n <? 10 then acc else decimal f (n / 10) acc
  end.
Definition piece_text (p : piece) : list ascii := match p with T s => s | N z => decimal 20 z [] end.
Definition text (l : list piece) : list ascii := flat_map piece_text l.

(** Something to print: given the flag of {:#?} and the depth of indentation. *)
Definition doc : Type := bool -> nat -> list piece.
Definition number (z : Z) : doc := fun _ _ => [N z].
Definition nl : piece := T [ascii_of_nat 10].
Definition indent (i : nat) : piece := T (repeat " "%char (4 * i)).
(** Entries separated by a comma, or each on its own line. *)
Fixpoint entries (alt : bool) (i : nat) (l : list doc) : list piece :=
  match l with
  | [] => []
  | d :: l' =>
      if alt then [indent (S i)] ++ d alt (S i) ++ [lit ","; nl] ++ entries alt i l'
      else d alt i ++ match l' with [] => [] | _ => [lit ", "] ++ entries alt i l' end
  end.
Definition seq (l : list doc) : doc := fun alt i =>
  match l with
  | [] => [lit "[]"]
  | _ => if alt then [lit "["; nl] ++ entries alt i l ++ [indent i; lit "]"] else [lit "["] ++ entries alt i l ++ [lit "]"]
  end.
Definition tuple (name : string) (l : list doc) : doc := fun alt i =>
  if alt then [lit name; lit "("; nl] ++ entries alt i l ++ [indent i; lit ")"] else [lit name; lit "("] ++ entries alt i l ++ [lit ")"].
Definition field (name : string) (d : doc) : doc := fun alt i => [lit name; lit ": "] ++ d alt i.
Definition struct (name : string) (l : list doc) : doc := fun alt i =>
  if alt then [lit name; lit " {"; nl] ++ entries alt i l ++ [indent i; lit "}"] else [lit name; lit " { "] ++ entries alt i l ++ [lit " }"].
(** format!("{:?}", x) and format!("{:#?}", x). *)
Definition debug (alt : bool) (d : doc) : list ascii := text (d alt O).

(** ** The types that have it *)
(** decaf/decaf.rs:15-19, ristretto/ristretto.rs:12-16, curve/montgomery/montgomery.rs:47-51: `self.0[..].fmt(formatter)`. *)
Definition bytes_doc (b : list Z) : doc := seq (map number b).
(** field/scalar.rs:12-13, derived. *)
Definition scalar_doc (s : scalar) : doc := tuple "Scalar" [seq (map number s)].
(** field/u32/prime_field.rs:10-11, derived. *)
Definition fe28_doc (a : list Z) : doc := tuple "FieldElement28" [seq (map number a)].
(** field/fiat_u64/prime_field.rs:16-20: `f.debug_tuple("FieldElement56").field(&self.0 .0).finish()`. *)
Definition fe56_doc (a : list Z) : doc := tuple "FieldElement56" [seq (map number a)].
Section Points.
Variable B : backend.
Variable fe_doc : fe B -> doc.
Definition xyzt_doc (X Y Z T : fe B) : doc :=
  struct "ExtendedPoint" [field "X" (fe_doc X); field "Y" (fe_doc Y); field "Z" (fe_doc Z); field "T" (fe_doc T)].
(** curve/edwards/extended.rs:19-25 and curve/twedwards/extended.rs:10-16, derived. *)
Definition ed_doc (P : EdPoint B) : doc := xyzt_doc (edX P) (edY P) (edZ P) (edT P).
Definition tw_doc (P : TwPoint B) : doc := xyzt_doc (twX P) (twY P) (twZ P) (twT P).
(** decaf/decaf.rs:9-10, derived. *)
Definition dc_doc (P : TwPoint B) : doc := tuple "DecafPoint" [tw_doc P].
End Points.
