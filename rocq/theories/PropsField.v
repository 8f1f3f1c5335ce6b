(** Properties C15, C16, C18 and C54: field arithmetic and constants.

    Reading guide. [shipped B]: B is the 32-bit backend, or the fiat backend over functions meeting the documented
    contract. [fexp]: a tree of field operations with 56-byte leaves; [fexp_val]: its exact integer value; [fexp_run B]:
    the code (FieldExpr.v). [fe_tight B a]: a is a field element as the arithmetic produces them; [fv B a]: its value in
    the field. [Ok r]: returns r without panicking (overflow, failed assert!). *)
Require Import ZArith List Lia.
From Verif Require Import Base SpecParams SpecField SpecCurve FieldBackend FieldModel FieldU32Model FieldFiatModel
  Backends BackendLaws FieldProofs FieldExpr FieldMain ValueMain.
Import ListNotations.
Open Scope Z_scope.

(** ** C15 *)
Theorem C15_field_expressions : forall B, shipped B -> forall e, fexp_ok e ->
  exists r, fexp_run B e = Ok r /\ fe_to_bytes B r = Ok (le_bytes 56 (fexp_val e mod p)).
Proof. exact field_expressions. Qed.
Print Assumptions C15_field_expressions.

Example C15_case :
  let b := repeat 255 56 in
  let e := FSub (FMul (FBytes b) (FNeg (FBytes b))) (FCondNeg (FSquare (FAdd (FBytes b) FOne)) true) in
  shipped u32_backend /\ fexp_ok e /\ fexp_val e mod p = 2 ^ 225 + 1 /\
  (match fexp_run u32_backend e with Ok r => fe_to_bytes u32_backend r | Panic => Panic end) = Ok (le_bytes 56 (2 ^ 225 + 1)) /\
  (match fexp_run (fiat_backend fiat_reference) e with Ok r => fe_to_bytes (fiat_backend fiat_reference) r | Panic => Panic end)
    = Ok (le_bytes 56 (2 ^ 225 + 1)).
Proof.
  split; [exact shipped_u32|]. split; [|split; [|split]]; [|vm_compute; reflexivity..].
  repeat split; repeat constructor; vm_compute; congruence.
Qed.
Example C15_fiat_contract : shipped (fiat_backend fiat_reference).
Proof. exact (shipped_fiat fiat_reference fiat_reference_contract). Qed.

(** ** C16 *)
Theorem C16_field_serialisation : forall B, shipped B -> forall e e', fexp_ok e -> fexp_ok e' ->
  exists r r' b, fexp_run B e = Ok r /\ fexp_run B e' = Ok r' /\ fe_to_bytes B r = Ok b /\
    bytes 56 b /\ le_val b = fexp_val e mod p /\ 0 <= le_val b < p /\
    fe_is_negative B r = Ok (Z.odd (fexp_val e mod p)) /\
    exists q, fe_ct_eq B r r' = Ok q /\ (q = true <-> fexp_val e mod p = fexp_val e' mod p).
Proof. exact field_serialisation. Qed.
Print Assumptions C16_field_serialisation.

Theorem C16_field_decode_encode : forall B, shipped B -> forall b, bytes 56 b ->
  exists r, fe_from_bytes B b = Ok r /\ fe_to_bytes B r = Ok (le_bytes 56 (le_val b mod p)) /\
    (fe_to_bytes B r = Ok b <-> le_val b < p).
Proof. exact field_decode_encode. Qed.
Print Assumptions C16_field_decode_encode.

Theorem C16_is_zero : forall B, shipped B -> forall a, fe_tight B a -> fe_is_zero B a = Ok (feqb (fv B a) (of_Z 0)).
Proof. exact (fun B S => is_zero_ok B (shipped_laws B S)). Qed.
Print Assumptions C16_is_zero.

Example C16_case :
  (match fe_from_bytes u32_backend (le_bytes 56 (p + 5)) with Ok r => fe_to_bytes u32_backend r | Panic => Panic end)
    = Ok (le_bytes 56 5) /\
  (match fe_from_bytes u32_backend (le_bytes 56 (p - 1)) with Ok r => fe_to_bytes u32_backend r | Panic => Panic end)
    = Ok (le_bytes 56 (p - 1)) /\
  (match fexp_run u32_backend (FBytes (le_bytes 56 (p + 5))), fexp_run u32_backend (FNeg (FBytes (le_bytes 56 (p - 5)))) with
   | Ok r, Ok r' => fe_ct_eq u32_backend r r' | _, _ => Panic end) = Ok true /\
  (match fexp_run u32_backend (FSub (FBytes (le_bytes 56 (p + 5))) (FBytes (le_bytes 56 5))) with
   | Ok r => fe_is_zero u32_backend r | Panic => Panic end) = Ok true.
Proof. repeat split; vm_compute; reflexivity. Qed.

(** ** C18 *)
Theorem C18_invert : forall B, shipped B -> forall a, fe_tight B a ->
  exists r, fe_invert B a = Ok r /\ fe_tight B r /\
    (fv B a <> of_Z 0 -> fv B a * fv B r = of_Z 1)%F /\ (fv B a = of_Z 0 -> fv B r = of_Z 0).
Proof. exact field_invert. Qed.
Print Assumptions C18_invert.

Theorem C18_inverse_square_root : forall B, shipped B -> forall a, fe_tight B a ->
  exists r b, fe_inverse_square_root B a = Ok (r, b) /\ fe_tight B r /\
    (b = true <-> fv B a <> of_Z 0 /\ is_square (fv B a)) /\
    (b = true -> fv B r * fv B r * fv B a = of_Z 1)%F /\
    (b = false -> fv B a <> of_Z 0 -> fv B r * fv B r * fv B a = - (of_Z 1))%F.
Proof. exact field_inverse_square_root. Qed.
Print Assumptions C18_inverse_square_root.

Theorem C18_sqrt_ratio : forall B, shipped B -> forall u v, fe_tight B u -> fe_tight B v -> fv B v <> of_Z 0 ->
  exists r b, fe_sqrt_ratio B u v = Ok (r, b) /\ fe_tight B r /\
    (b = true <-> is_square (fv B u / fv B v)%F) /\
    (b = true -> fv B v * (fv B r * fv B r) = fv B u)%F.
Proof. exact field_sqrt_ratio. Qed.
Print Assumptions C18_sqrt_ratio.

(** Which of the two roots is returned, and what comes out in the cases the two theorems above leave open. *)
Theorem C18_inverse_square_root_which : forall B, shipped B -> forall a, fe_tight B a ->
  exists r b, fe_inverse_square_root B a = Ok (r, b) /\
    (is_square (fv B r) <-> is_square (fv B a)) /\ (fv B a = of_Z 0 -> fv B r = of_Z 0 /\ b = false).
Proof. exact field_inverse_square_root_root. Qed.
Print Assumptions C18_inverse_square_root_which.

Theorem C18_sqrt_ratio_which : forall B, shipped B -> forall u v, fe_tight B u -> fe_tight B v ->
  exists r b, fe_sqrt_ratio B u v = Ok (r, b) /\
    (b = false -> fv B v <> of_Z 0 -> fv B v * (fv B r * fv B r) = - fv B u)%F /\
    (fv B v = of_Z 0 -> fv B r = of_Z 0 /\ (b = true <-> fv B u = of_Z 0)) /\
    (fv B u = of_Z 0 -> fv B r = of_Z 0 /\ b = true) /\
    (is_square (fv B r) <-> fv B u = of_Z 0 \/ fv B v = of_Z 0 \/ is_square (fv B v)).
Proof. exact field_sqrt_ratio_root. Qed.
Print Assumptions C18_sqrt_ratio_which.

(** Non-zero squares and non-squares exist among valid elements: 4 is a square, minus one is not (FieldTheory.v). *)
Example C18_case : let a := [4; 0; 0; 0; 0; 0; 0; 0; 0; 0; 0; 0; 0; 0; 0; 0] in
  fe_tight u32_backend a /\ fv u32_backend a = of_Z 4 /\ is_square (fv u32_backend a) /\
  exists r b, fe_inverse_square_root u32_backend a = Ok (r, b) /\ b = true.
Proof.
  intro a. assert (T : fe_tight u32_backend a) by (split; [reflexivity|subst a; forall_num]).
  assert (V : fv u32_backend a = of_Z 4) by reflexivity.
  assert (Sq : is_square (fv u32_backend a)) by (exists (of_Z 2); rewrite V, <- FieldTheory.of_Z_mul; reflexivity).
  split; [exact T|]. split; [exact V|]. split; [exact Sq|].
  destruct (C18_inverse_square_root u32_backend shipped_u32 a T) as (r & b & E & _ & I & _). exists r, b.
  split; [exact E|]. apply I. split; [|exact Sq]. rewrite V. exact FieldTheory.F_4_neq_0.
Qed.

(** ** C54 *)
Theorem C54_curve_constants : forall B, shipped B ->
  let v := fv B in
  v (fe_zero B) = of_Z 0 /\ v (fe_one B) = of_Z 1 /\ v (fe_minus_one B) = of_Z (-1) /\
  v (EDWARDS_D B) = of_Z (-39081) /\ v (NEG_EDWARDS_D B) = of_Z 39081 /\
  v (TWISTED_D B) = of_Z (-39081 - 1) /\ v (TWO_TIMES_TWISTED_D B) = of_Z (2 * -39082) /\
  v (NEG_FOUR_TIMES_TWISTED_D B) = of_Z (-4 * -39082) /\
  v (A_PLUS_TWO_OVER_FOUR B) = of_Z ((156326 + 2) / 4) /\
  (v (DECAF_FACTOR B) * v (DECAF_FACTOR B) = of_Z 39081)%F /\ fodd (v (DECAF_FACTOR B)) = false /\
  v (BASE_X B) = Gx /\ v (BASE_Y B) = Gy /\ v (BASE_Z B) = of_Z 1 /\ v (BASE_T B) = (Gx * Gy)%F /\
  v (TWBASE_X B) = Dx /\ v (TWBASE_Y B) = Dy /\ v (TWBASE_Z B) = of_Z 1 /\ v (TWBASE_T B) = (Dx * Dy)%F.
Proof. exact curve_constants. Qed.
Print Assumptions C54_curve_constants.

Theorem C54_base_points_on_curve : on_curve ed_a ed_d G /\ on_curve tw_a tw_d D.
Proof. exact (conj G_on_curve D_on_curve). Qed.
Print Assumptions C54_base_points_on_curve.

Theorem C54_constant_bounds : forall B, shipped B ->
  Forall (fe_loose B) [fe_zero B; fe_one B; fe_minus_one B; EDWARDS_D B; NEG_EDWARDS_D B; TWISTED_D B;
    TWO_TIMES_TWISTED_D B; NEG_FOUR_TIMES_TWISTED_D B; A_PLUS_TWO_OVER_FOUR B; DECAF_FACTOR B] /\
  Forall (fe_tight B) [fe_zero B; fe_one B; BASE_X B; BASE_Y B; BASE_Z B; BASE_T B; TWBASE_X B; TWBASE_Y B; TWBASE_Z B;
    TWBASE_T B].
Proof. exact constant_bounds. Qed.
Print Assumptions C54_constant_bounds.

(** Some fiat constants exceed the tight bound (they are only ever multiplication operands). *)
Example C54_case : shipped u32_backend /\ ~ fe_tight (fiat_backend fiat_reference) (EDWARDS_D (fiat_backend fiat_reference)).
Proof.
  split; [exact shipped_u32|]. intros [_ H]. apply Forall_inv in H. cbn in H. lia.
Qed.
