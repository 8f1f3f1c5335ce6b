(** Property C79: a release build computes what the debug build computes.

    Reading guide (definitions in ReleaseSpec.v).  The models panic on overflow of [+], [-] and [*], as a debug build does.
    [release] runs the same code with arithmetic that wraps instead ([unchecked]); assertions and bounds checks stay.
    [kept d r]: where d returns, r returns the same.  [release32_run], [release64_run]: a program over the public API
    (ApiExpr.v), word by word without overflow checks, with 32-bit and with 64-bit field elements; [release32_value],
    [release64_value] only change the type of the result.  The functions named f..S are the code in steps, of which the model's f
    is one reading (StepPlain.v, C53_steps_plain). *)
Require Import ZArith List Bool.
From Verif Require Import Base SpecParams FieldBackend FieldU32Model FieldFiatModel FiatCode Backends ScalarModel EdwardsModel ApiExpr
  Steps StepU32 StepFiat StepScalar StepCurve StepPlain TraceSpec TraceSpec64 ReleaseSpec ReleaseLogic ReleaseMain.
Import ListNotations.
Open Scope Z_scope.

(** ** Programs: the release build never panics, and its result is that of the model *)
Theorem C79_programs32 : forall s (e : api s), api_ok e ->
  exists o, release32_run e = Ok o /\ api_run u32_backend e = Ok (option_map release32_value o).
Proof. exact release32_result. Qed.
Print Assumptions C79_programs32.

Theorem C79_programs64 : forall s (e : api s), api_ok e ->
  exists o, release64_run e = Ok o /\ api_run (fiat_backend fiat_code) e = Ok (option_map release64_value o).
Proof. exact release64_result. Qed.
Print Assumptions C79_programs64.

(** ** Operations and functions, on any input whatever *)
Theorem C79_operations : forall o x y v, chk_z o x y = Ok v -> unchecked o x y = v.
Proof. exact unchecked_kept. Qed.
Print Assumptions C79_operations.

Theorem C79_field32 : forall a b c,
  kept (add28 a b) (add28S panics release a b) /\ kept (sub28 a b) (sub28S panics release a b) /\
  kept (negate28 a) (negate28S panics release a) /\ kept (mul28 a b) (mul28S panics release a b) /\
  kept (square28 a) (square28S panics release a) /\ kept (weak_reduce28 a) (weak_reduce28S panics release a) /\
  kept (strong_reduce28 a) (strong_reduce28S panics release a) /\ kept (from_bytes28 a) (from_bytes28S panics release a) /\
  kept (to_bytes28 a) (to_bytes28S panics release a) /\ kept (is_negative28 a) (is_negative28S panics release a) /\
  kept (Ok (conditional_select28 a b c)) (conditional_select28S panics release a b c) /\
  kept (conditional_negate28 a c) (conditional_negate28S panics release a c).
Proof. exact field32_kept. Qed.
Print Assumptions C79_field32.

Theorem C79_field64 : forall a b c,
  kept (add56 fiat_code a b) (add56S panics release a b) /\ kept (sub56 fiat_code a b) (sub56S panics release a b) /\
  kept (negate56 fiat_code a) (negate56S panics release a) /\ kept (mul56 fiat_code a b) (mul56S panics release a b) /\
  kept (square56 fiat_code a) (square56S panics release a) /\ kept (strong_reduce56 fiat_code a) (strong_reduce56S panics release a) /\
  kept (from_bytes56 fiat_code a) (from_bytes56S panics release a) /\ kept (to_bytes56 fiat_code a) (to_bytes56S panics release a) /\
  kept (is_negative56 fiat_code a) (is_negative56S panics release a) /\
  kept (conditional_select56 fiat_code a b c) (conditional_select56S panics release a b c) /\
  kept (conditional_negate56 fiat_code a c) (conditional_negate56S panics release a c).
Proof. exact field64_kept. Qed.
Print Assumptions C79_field64.

Theorem C79_scalars : forall a b,
  kept (scalar_add a b) (scalar_addS panics release a b) /\ kept (scalar_sub a b) (scalar_subS panics release a b) /\
  kept (scalar_mul a b) (scalar_mulS panics release a b) /\ kept (montgomery_multiply a b) (montgomery_multiplyS panics release a b) /\
  kept (scalar_invert a) (scalar_invertS panics release a) /\ kept (scalar_halve a) (scalar_halveS panics release a) /\
  kept (Ok (scalar_div_by_four a)) (scalar_div_by_fourS panics release a) /\
  kept (scalar_from_bytes_mod_order_wide a) (scalar_from_bytes_mod_order_wideS panics release a) /\
  kept (Ok (scalar_to_bytes a)) (scalar_to_bytesS panics release a) /\ kept (to_radix_16 a) (to_radix_16S panics release a).
Proof. exact scalar_kept. Qed.
Print Assumptions C79_scalars.

(** ** Without the bounds on limbs it is false: the debug build stops, the release build goes on with a wrong number *)
Theorem C79_unreduced_refuted : exists a b c, length a = 16%nat /\ length b = 16%nat /\ Forall (fun x => 0 <= x < 2 ^ 32) (a ++ b) /\
  add28 a b = Panic /\ add28S panics release a b = Ok c /\ wf28 c /\ val28 c mod p <> (val28 a + val28 b) mod p.
Proof. exact unreduced_words. Qed.
Print Assumptions C79_unreduced_refuted.

Theorem C79_unreduced64_refuted : exists a b c, length a = 8%nat /\ length b = 8%nat /\ Forall (fun x => 0 <= x < 2 ^ 64) (a ++ b) /\
  add56 fiat_code a b = Panic /\ add56S panics release a b = Ok c /\ val56 c mod p <> (val56 a + val56 b) mod p.
Proof. exact unreduced64_words. Qed.
Print Assumptions C79_unreduced64_refuted.

(** ** Cases *)
(** A field element with limbs of 29 bits; the largest scalar there is, times the generator; a sum that wraps. *)
Example C79_case_field : wf28 near28 /\ (exists v, mul28 near28 near28 = Ok v) /\ mul28S panics release near28 near28 = mul28 near28 near28.
Proof. exact near_case. Qed.
Example C79_case_program : api_ok (AEdCompress (AEdMul AEdGenerator (repeat (2 ^ 32 - 1) 14))).
Proof. exact program_case. Qed.
Example C79_case_wraps : unchecked CU32Add (2 ^ 32 - 1) 2 = 1 /\ chk_z CU32Add (2 ^ 32 - 1) 2 = Panic /\ unchecked CI8Add 127 1 = -128 /\ unchecked CI64Sub (- 2 ^ 63) 1 = 2 ^ 63 - 1.
Proof. repeat split. Qed.
