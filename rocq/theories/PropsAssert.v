(** Property C80: no [Choice] is ever made of a byte other than 0 and 1, so [subtle]'s debug assertion never fails.

    Reading guide (definitions in AssertSpec.v).  [choice_from] is [Choice::from(u8)] of a debug build: it panics unless the
    byte is 0 or 1.  [strict] runs the code word by word with that check and with overflow checks.  [strict32_run],
    [strict64_run]: a program over the public API (ApiExpr.v) run so, with 32-bit and with 64-bit field elements;
    [strict32_value], [strict64_value] only change the type of the result.  The functions named f..S are the code in steps, of
    which the model's f is one reading (StepPlain.v, C53_steps_plain). *)
Require Import ZArith List Bool.
From Verif Require Import Base FieldBackend FieldU32Model FieldFiatModel FiatCode Backends ScalarModel EdwardsModel ApiExpr
  Steps StepSubtle StepU32 StepFiat StepScalar StepCurve StepPlain AssertSpec AssertMain.
Import ListNotations.
Open Scope Z_scope.

Theorem C80_choice : forall x c, choice_from x = Ok c <-> (x = 0 /\ c = false) \/ (x = 1 /\ c = true).
Proof. exact choice_only. Qed.
Print Assumptions C80_choice.

(** ** Programs: none of them panics, and the result is that of the model, which does not check *)
Theorem C80_programs32 : forall s (e : api s), api_ok e ->
  exists o, strict32_run e = Ok o /\ api_run u32_backend e = Ok (option_map strict32_value o).
Proof. exact strict32_result. Qed.
Print Assumptions C80_programs32.

Theorem C80_programs64 : forall s (e : api s), api_ok e ->
  exists o, strict64_run e = Ok o /\ api_run (fiat_backend fiat_code) e = Ok (option_map strict64_value o).
Proof. exact strict64_result. Qed.
Print Assumptions C80_programs64.

(** ** Functions: comparisons, and signs of field elements, of encodings and of digits *)
Theorem C80_comparisons :
  (forall a b, 0 <= a < 2 ^ 32 -> 0 <= b < 2 ^ 32 -> ct_eqS panics strict 32 a b = Ok (a =? b)) /\
  (forall a b, Forall (fun x => 0 <= x < 2 ^ 8) a -> Forall (fun x => 0 <= x < 2 ^ 8) b -> ct_eq_sliceS panics strict a b = Ok (list_eqb a b)) /\
  (forall a b, scalar_eqbS panics strict a b = Ok (scalar_eqb a b)) /\
  (forall b, length b = 57%nat -> scalar_from_canonical_bytesS panics strict b = scalar_from_canonical_bytes b).
Proof. exact strict_comparisons. Qed.
Print Assumptions C80_comparisons.

Theorem C80_signs :
  (forall a, is_negative28S panics strict a = is_negative28 a) /\
  (forall a, is_negative56S panics strict a = is_negative56 fiat_code a) /\
  (forall x, 0 <= x < 2 ^ 8 -> sign_bitS panics strict x = Ok (shr x 7 =? 1)) /\
  (forall d a s, digit_absS panics strict d = Ok (a, s) -> digit_choiceS panics strict s = Ok (s =? 1)).
Proof. exact strict_signs. Qed.
Print Assumptions C80_signs.

(** Comparing a byte with a wider word would fail: the ranges above are needed. *)
Theorem C80_wide_refuted : exists a b, 0 <= a < 2 ^ 8 /\ 0 <= b < 2 ^ 32 /\ ct_eqS panics strict 8 a b = Panic.
Proof. exact strict_wide. Qed.
Print Assumptions C80_wide_refuted.

(** ** Cases *)
(** The digit -3: its sign is a choice; its mask (variable_base.rs:22, before [& 1]) is not, which the unchecked model does not see. *)
Example C80_case_digit : digit_absS panics strict (-3) = Ok (3, 1) /\ digit_choiceS panics strict 1 = Ok true /\
  digit_choiceS panics strict (shr (-3) 7) = Panic /\ digit_choiceS panics plain (shr (-3) 7) = Ok false.
Proof. exact strict_stops. Qed.
(** Decompressing 57 bytes of 255, times the largest scalar there is. *)
Example C80_case_program : api_ok (AEdCompress (AEdMul (AEdDecompress (repeat 255 57)) (repeat (2 ^ 32 - 1) 14))).
Proof. exact strict_program. Qed.
