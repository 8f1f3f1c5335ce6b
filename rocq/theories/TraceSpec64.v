(** As TraceSpec.v, with the 64-bit backend: field elements are eight words, the field functions are those of StepFiat.v; scalars,
    digits and [subtle]'s comparisons are the same code as with the 32-bit backend. *)
Require Import ZArith List Bool.
From Verif Require Import Base FieldBackend FieldFiatModel FiatCode Backends ApiExpr Steps StepFiat StepCurve TraceSpec.
Import ListNotations.
Open Scope Z_scope.

Section Words.
Variable M : steps.
Variable W : cpu M.
Variable enter : nat -> nat -> list Z -> list (word W).
Definition limbs64 : backend := carrier (list (word W)) (fun i => map (lit W) (constant (fiat_backend fiat_code) i)).
Local Notation K := (word_machine M W enter).
Definition word_machine64 : machine M limbs64 := mkMachine M limbs64
  (add56S M W) (sub56S M W) (mul56S M W) (square56S M W) (negate56S M W) (strong_reduce56S M W)
  (conditional_select56S M W) (conditional_negate56S M W) (is_negative56S M W)
  (fun b => from_bytes56S M W (enter 0%nat 56%nat b))
  (fun a => out M W (to_bytes56S M W a))
  (m_branch K) (m_sign K) (m_sign_byte K)
  (m_sc_add K) (m_sc_sub K) (m_sc_mul K) (m_sc_invert K) (m_sc_halve K) (m_sc_canonical K) (m_sc_wide K) (m_div4 K) (m_bits K)
  (digit K) (m_radix16 K) (m_mod_four K) (m_digit_abs K) (m_digit_choice K) (m_digit_ct_eq K) (m_digit_eq K) (m_bytes_eq K).
End Words.
Definition words64 : backend := limbs64 (tracing word_op) watched.
Definition words64_machine : machine (tracing word_op) words64 := word_machine64 (tracing word_op) watched inputs.
Definition word64_run {s} (e : api s) : list (event word_op) * res (option (val words64 s)) := api_runS (tracing word_op) words64 words64_machine e.
Definition word64_shapes {s} (v : val words64 s) : list (list wshape) := map (map snd) (coords (O := words64) s v).
Definition word64_values {s} : val words64 s -> val (fiat_backend fiat_code) s := map_val (O := words64) (B := fiat_backend fiat_code) (map fst) s.
