(** The interface the curve code uses: src/field/mod.rs:11-15 picks one of two types as [FieldElement]; both offer the
    operations below.  Curve-specific constants live next to each backend (constants.rs:3-7).

    The last three fields are not Rust code: they say how to read the limbs ([fe_val]) and which limb bounds hold
    ([fe_tight] for values the arithmetic produces, [fe_loose] for the weaker bound a multiplication operand needs). *)
Require Import ZArith List.
From Verif Require Import Base SpecField.
Import ListNotations.

Record backend : Type := mkBackend {
  fe : Type;
  fe_zero : fe;
  fe_one : fe;
  fe_minus_one : fe;
  fe_add : fe -> fe -> res fe;
  fe_sub : fe -> fe -> res fe;
  fe_mul : fe -> fe -> res fe;
  fe_square : fe -> res fe;
  fe_negate : fe -> res fe;
  fe_strong_reduce : fe -> res fe;
  fe_select : fe -> fe -> bool -> res fe;
  fe_cond_negate : fe -> bool -> res fe;
  fe_is_negative : fe -> res bool;
  fe_from_bytes : list Z -> res fe;
  fe_to_bytes : fe -> res (list Z);
  NEG_FOUR_TIMES_TWISTED_D : fe;
  EDWARDS_D : fe;
  NEG_EDWARDS_D : fe;
  TWISTED_D : fe;
  TWO_TIMES_TWISTED_D : fe;
  DECAF_FACTOR : fe;
  A_PLUS_TWO_OVER_FOUR : fe;
  BASE_X : fe; BASE_Y : fe; BASE_Z : fe; BASE_T : fe;         (* GOLDILOCKS_BASE_POINT *)
  TWBASE_X : fe; TWBASE_Y : fe; TWBASE_Z : fe; TWBASE_T : fe; (* TWISTED_EDWARDS_BASE_POINT *)
  fe_val : fe -> Z;
  fe_tight : fe -> Prop;
  fe_loose : fe -> Prop
}.

(** The field element that limbs stand for. *)
Definition fv (B : backend) (a : fe B) : F := of_Z (fe_val B a).
