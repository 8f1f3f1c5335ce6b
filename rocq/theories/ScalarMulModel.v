(** Model of src/curve/scalar_mul: the three multiplication routines on the twisted curve. *)
Require Import ZArith List Bool.
From Verif Require Import Base FieldBackend FieldModel ScalarModel TwistedModel.
Import ListNotations.
Open Scope Z_scope.
Open Scope res_scope.

Section ScalarMulModel.
Variable B : backend.

(** double_and_add.rs:6-20.  The loop runs over the bits from the most significant one. *)
Fixpoint daa_loop (point : TwPoint B) (bits : list bool) (result : TwPoint B) : res (TwPoint B) :=
  match bits with
  | [] => Ok result
  | bit :: bits' =>
      result <- tw_double B result ;;
      p <- tw_select B (tw_identity B) point bit ;;
      result <- tw_add B result p ;;
      daa_loop point bits' result
  end.
Definition double_and_add (point : TwPoint B) (s : scalar) : res (TwPoint B) :=
  daa_loop point (rev (scalar_bits s)) (tw_identity B).

(** double_base.rs:10-14. *)
Definition double_base_scalar_mul (a : scalar) (A : TwPoint B) (b : scalar) : res (TwPoint B) :=
  part_a <- double_and_add A a ;;
  part_b <- double_and_add (tw_generator B) b ;;
  tw_add B part_a part_b.

(** window/wnaf/mod.rs:10-22.  The array is filled left to right; [n] entries follow [prev]. *)
Fixpoint table_loop (n : nat) (P : XtPoint B) (prev : PNiels B) : res (list (PNiels B)) :=
  match n with
  | O => Ok [prev]
  | S n' =>
      s <- xt_add_projective_niels B P prev ;;
      next <- xt_to_projective_niels B s ;;
      rest <- table_loop n' P next ;;
      Ok (prev :: rest)
  end.
Definition lookup_from (point : TwPoint B) : res (list (PNiels B)) :=
  let P := tw_to_extensible B point in
  first <- xt_to_projective_niels B P ;;
  table_loop 7 P first.

(** wnaf/mod.rs:26-34: [for i in 1..9 { result.conditional_assign(&self.0[i - 1], index.ct_eq(&i)) }]. *)
Fixpoint select_loop (table : list (PNiels B)) (i index : Z) (result : PNiels B) : res (PNiels B) :=
  match table with
  | [] => Ok result
  | e :: table' =>
      result <- pn_select B result e (index =? i) ;;
      select_loop table' (i + 1) index result
  end.
Definition lookup_select (table : list (PNiels B)) (index : Z) : res (PNiels B) :=
  result <- pn_identity B ;;
  select_loop table 1 index result.

(** variable_base.rs:8-35.  [mask], [sign] and [abs_value] in i8 arithmetic. *)
Fixpoint vb_loop (table : list (PNiels B)) (digits : list Z) (result : XtPoint B) : res (XtPoint B) :=
  match digits with
  | [] => Ok result
  | d :: digits' =>
      result <- xt_double B result ;;
      result <- xt_double B result ;;
      result <- xt_double B result ;;
      result <- xt_double B result ;;
      let mask := shr d 7 in
      let sign := Z.land mask 1 in
      t <- i8_add d mask ;;
      let abs_value := as_u32 (Z.lxor t mask) in
      neg_P <- lookup_select table abs_value ;;
      neg_P <- pn_cond_negate B neg_P (as_u8 sign =? 1) ;;
      result <- xt_add_projective_niels B result neg_P ;;
      vb_loop table digits' result
  end.
Definition variable_base (point : TwPoint B) (s : scalar) : res (TwPoint B) :=
  scalar <- to_radix_16 s ;;
  lookup <- lookup_from point ;;
  result <- vb_loop lookup (rev scalar) (xt_identity B) ;;
  xt_to_extended B result.
End ScalarMulModel.
