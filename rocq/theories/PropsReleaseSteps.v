(** Property C81: a release build does, step by step, what the debug build does.

    Reading guide (definitions in TraceSpec.v, TraceSpec64.v, ReleaseSpec.v and ReleaseStepsSpec.v).  C53 is about the steps of a debug build: [word_run] and
    [word64_run] write down every word operation, every number handed out and every branch of a program over the public API,
    with 32-bit and with 64-bit field elements.  [release_steps] and [release_steps64] write down the same of a release build,
    whose [+], [-] and [*] wrap ([watched_release]).  [rwords_out], [rwords64_out] only change the type of a result: words with
    what they were made of.  [decisions], [same_calls], [alike]: as in C53.  [kept_steps d r]: where d returns, r is d, with all its steps. *)
Require Import ZArith List Bool.
From Verif Require Import Base FieldBackend FieldU32Model FieldFiatModel FiatCode Backends ScalarModel ApiExpr
  Steps StepU32 StepFiat StepScalar StepCurve TraceSpec TraceSpec64 ReleaseSpec ReleaseStepsSpec ReleaseSteps.
Import ListNotations.
Open Scope Z_scope.
Local Notation T := (tracing word_op).
Local Notation W := watched.
Local Notation R := watched_release.

(** ** Programs: the same steps, the same words *)
Theorem C81_programs32 : forall s (e : api s), api_ok e ->
  exists t o, release_steps e = (t, Ok o) /\ word_run e = (t, Ok (option_map rwords_out o)).
Proof. exact steps32. Qed.
Print Assumptions C81_programs32.

Theorem C81_programs64 : forall s (e : api s), api_ok e ->
  exists t o, release_steps64 e = (t, Ok o) /\ word64_run e = (t, Ok (option_map rwords64_out o)).
Proof. exact steps64. Qed.
Print Assumptions C81_programs64.

(** ** So they depend on secrets no more than those of the debug build *)
Theorem C81_branches32 : forall s (e : api s), api_ok e -> branches (fst (release_steps e)) = decisions u32_backend e.
Proof. exact steps32_branches. Qed.
Print Assumptions C81_branches32.

Theorem C81_branches64 : forall s (e : api s), api_ok e -> branches (fst (release_steps64 e)) = decisions (fiat_backend fiat_code) e.
Proof. exact steps64_branches. Qed.
Print Assumptions C81_branches64.

Theorem C81_decisions32 : forall s (e e' : api s), api_ok e -> api_ok e' -> same_calls any s e e' ->
  (fst (release_steps e) = fst (release_steps e') <-> decisions u32_backend e = decisions u32_backend e').
Proof. exact steps32_decisions. Qed.
Print Assumptions C81_decisions32.

Theorem C81_decisions64 : forall s (e e' : api s), api_ok e -> api_ok e' -> same_calls any s e e' ->
  (fst (release_steps64 e) = fst (release_steps64 e') <-> decisions (fiat_backend fiat_code) e = decisions (fiat_backend fiat_code) e').
Proof. exact steps64_decisions. Qed.
Print Assumptions C81_decisions64.

Theorem C81_secrets32 : forall s (e e' : api s), api_ok e -> api_ok e' -> same_calls (alike u32_backend) s e e' ->
  exists t o o', release_steps e = (t, Ok o) /\ release_steps e' = (t, Ok o').
Proof. exact steps32_alike. Qed.
Print Assumptions C81_secrets32.

Theorem C81_secrets64 : forall s (e e' : api s), api_ok e -> api_ok e' -> same_calls (alike (fiat_backend fiat_code)) s e e' ->
  exists t o o', release_steps64 e = (t, Ok o) /\ release_steps64 e' = (t, Ok o').
Proof. exact steps64_alike. Qed.
Print Assumptions C81_secrets64.

(** ** Functions, on any words whatever *)
Theorem C81_field32 : forall a b c,
  kept_steps (add28S T W a b) (add28S T R a b) /\ kept_steps (sub28S T W a b) (sub28S T R a b) /\
  kept_steps (negate28S T W a) (negate28S T R a) /\ kept_steps (mul28S T W a b) (mul28S T R a b) /\
  kept_steps (square28S T W a) (square28S T R a) /\ kept_steps (weak_reduce28S T W a) (weak_reduce28S T R a) /\
  kept_steps (strong_reduce28S T W a) (strong_reduce28S T R a) /\ kept_steps (from_bytes28S T W a) (from_bytes28S T R a) /\
  kept_steps (to_bytes28S T W a) (to_bytes28S T R a) /\ kept_steps (is_negative28S T W a) (is_negative28S T R a) /\
  kept_steps (conditional_select28S T W a b c) (conditional_select28S T R a b c) /\
  kept_steps (conditional_negate28S T W a c) (conditional_negate28S T R a c).
Proof. exact field32_steps. Qed.
Print Assumptions C81_field32.

Theorem C81_field64 : forall a b c,
  kept_steps (add56S T W a b) (add56S T R a b) /\ kept_steps (sub56S T W a b) (sub56S T R a b) /\
  kept_steps (negate56S T W a) (negate56S T R a) /\ kept_steps (mul56S T W a b) (mul56S T R a b) /\
  kept_steps (square56S T W a) (square56S T R a) /\ kept_steps (strong_reduce56S T W a) (strong_reduce56S T R a) /\
  kept_steps (from_bytes56S T W a) (from_bytes56S T R a) /\ kept_steps (to_bytes56S T W a) (to_bytes56S T R a) /\
  kept_steps (is_negative56S T W a) (is_negative56S T R a) /\
  kept_steps (conditional_select56S T W a b c) (conditional_select56S T R a b c) /\
  kept_steps (conditional_negate56S T W a c) (conditional_negate56S T R a c).
Proof. exact field64_steps. Qed.
Print Assumptions C81_field64.

Theorem C81_scalars : forall a b,
  kept_steps (scalar_addS T W a b) (scalar_addS T R a b) /\ kept_steps (scalar_subS T W a b) (scalar_subS T R a b) /\
  kept_steps (scalar_mulS T W a b) (scalar_mulS T R a b) /\ kept_steps (montgomery_multiplyS T W a b) (montgomery_multiplyS T R a b) /\
  kept_steps (scalar_invertS T W a) (scalar_invertS T R a) /\ kept_steps (scalar_halveS T W a) (scalar_halveS T R a) /\
  kept_steps (scalar_div_by_fourS T W a) (scalar_div_by_fourS T R a) /\
  kept_steps (scalar_from_bytes_mod_order_wideS T W a) (scalar_from_bytes_mod_order_wideS T R a) /\
  kept_steps (scalar_to_bytesS T W a) (scalar_to_bytesS T R a) /\ kept_steps (to_radix_16S T W a) (to_radix_16S T R a).
Proof. exact scalar_steps. Qed.
Print Assumptions C81_scalars.

(** ** Where the debug build stops, the release build does more *)
Theorem C81_unreduced_refuted : exists a b, Forall (fun x => 0 <= fst x < 2 ^ 32) (a ++ b) /\ length a = 16%nat /\ length b = 16%nat /\
  snd (add28S T W a b) = Panic /\
  exists v, snd (add28S T R a b) = Ok v /\ (length (fst (add28S T W a b)) < length (fst (add28S T R a b)))%nat.
Proof. exact long_steps. Qed.
Print Assumptions C81_unreduced_refuted.

(** ** Cases *)
(** Limbs of 29 bits; two scalars times the generator. *)
Example C81_case_field : add28S T R near near = add28S T W near near /\ (exists v, snd (add28S T W near near) = Ok v) /\
  (50 <= length (fst (add28S T R near near)))%nat.
Proof. exact near_steps. Qed.
Example C81_case_secrets : api_ok (secret_call 1) /\ api_ok (secret_call (2 ^ 32 - 1)) /\
  same_calls (alike u32_backend) _ (secret_call 1) (secret_call (2 ^ 32 - 1)) /\
  exists t o o', release_steps (secret_call 1) = (t, Ok o) /\ release_steps (secret_call (2 ^ 32 - 1)) = (t, Ok o').
Proof. exact secret_case. Qed.
