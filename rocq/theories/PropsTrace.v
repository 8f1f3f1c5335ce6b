(** Property C53: what the code does, step by step, does not depend on secrets.

    Reading guide (definitions in TraceSpec.v).  A run leaves the list of its steps, in order: [Does e], an operation e with
    the expressions of its operands down to inputs and constants, and [Goes b], a branch on data and the way taken.
    [field_run B e]: the program e over the public API (ApiExpr.v), run over backend B with operations of the field interface
    as steps.  [word_run e]: the same over the 32-bit backend with operations on machine words as steps, in the field, in the
    scalars and in the digits of scalars; [word64_run e] (TraceSpec64.v): over the 64-bit backend, the fiat-crypto functions
    being those of FiatCode.v.  [decisions B e]: the branches of e; only decoders branch.  [same_calls D s e e']: e and e'
    make the same calls, with any scalars, choices and byte strings, strings given to decoders being related by D ([any]: no
    matter how; [alike B]: the decoder takes the same branches).  [same_steps sh x y]: neither run branches, and if both return
    they took the same steps and results are made by the same expressions.

    Full statement (C53): timing and memory accesses do not depend on secrets.  Missing: what a compiler and a processor make
    of the code.  (Nothing is left closed: [subtle] is expanded into operations on words in StepSubtle.v, fiat-crypto in StepFiat.v.
    Both are other crates, written out here as published and not part of the repository.) *)
Require Import ZArith List Bool.
From Verif Require Import Base SpecParams SpecField SpecEncoding SpecDecaf FieldBackend FieldU32Model FieldFiatModel FiatCode Backends ScalarModel TwistedModel ScalarMulModel EdwardsModel MontgomeryModel DecafModel ApiExpr
  Steps StepSubtle StepU32 StepFiat StepScalar StepCurve StepPlain TraceSpec TraceSpec64 TraceMain TraceWords TraceCases TraceFiat TraceFiatCases.
Import ListNotations.
Open Scope Z_scope.

(** ** The code in steps is the code of the models, and writing steps down does not change results *)
Theorem C53_steps_plain : forall B s (e : api s), api_runS panics B (plain_machine B) e = api_run B e.
Proof. exact e_api_run. Qed.
Print Assumptions C53_steps_plain.

Theorem C53_field_result : forall B, shipped B -> forall s (e : api s), api_ok e ->
  exists o, snd (field_run B e) = Ok o /\ api_run B e = Ok (option_map field_values o).
Proof. exact field_result. Qed.
Print Assumptions C53_field_result.

Theorem C53_word_result : forall s (e : api s), api_ok e ->
  exists o, snd (word_run e) = Ok o /\ api_run u32_backend e = Ok (option_map word_values o).
Proof. exact word_result. Qed.
Print Assumptions C53_word_result.

Theorem C53_word64_result : forall s (e : api s), api_ok e ->
  exists o, snd (word64_run e) = Ok o /\ api_run (fiat_backend fiat_code) e = Ok (option_map word64_values o).
Proof. exact word64_result. Qed.
Print Assumptions C53_word64_result.

(** ** Programs over the API *)
(** All branches on data are those of the decoders. *)
Theorem C53_field_branches : forall B, shipped B -> forall s (e : api s), api_ok e -> branches (fst (field_run B e)) = decisions B e.
Proof. exact field_branches. Qed.
Print Assumptions C53_field_branches.

Theorem C53_word_branches : forall s (e : api s), api_ok e -> branches (fst (word_run e)) = decisions u32_backend e.
Proof. exact word_branches. Qed.
Print Assumptions C53_word_branches.

Theorem C53_word64_branches : forall s (e : api s), api_ok e -> branches (fst (word64_run e)) = decisions (fiat_backend fiat_code) e.
Proof. exact word64_branches. Qed.
Print Assumptions C53_word64_branches.

(** Programs with the same calls take the same steps exactly if decoders branch the same way. *)
Theorem C53_field_steps_partial : forall B, shipped B -> forall s (e e' : api s), api_ok e -> api_ok e' -> same_calls any s e e' ->
  (fst (field_run B e) = fst (field_run B e') <-> decisions B e = decisions B e') /\
  (decisions B e = decisions B e' ->
   exists o o', snd (field_run B e) = Ok o /\ snd (field_run B e') = Ok o' /\ option_map field_shapes o = option_map field_shapes o').
Proof. exact field_traces. Qed.
Print Assumptions C53_field_steps_partial.

Theorem C53_word_steps_partial : forall s (e e' : api s), api_ok e -> api_ok e' -> same_calls any s e e' ->
  (fst (word_run e) = fst (word_run e') <-> decisions u32_backend e = decisions u32_backend e') /\
  (decisions u32_backend e = decisions u32_backend e' ->
   exists o o', snd (word_run e) = Ok o /\ snd (word_run e') = Ok o' /\ option_map word_shapes o = option_map word_shapes o').
Proof. exact word_traces. Qed.
Print Assumptions C53_word_steps_partial.

Theorem C53_word64_steps_partial : forall s (e e' : api s), api_ok e -> api_ok e' -> same_calls any s e e' ->
  (fst (word64_run e) = fst (word64_run e') <-> decisions (fiat_backend fiat_code) e = decisions (fiat_backend fiat_code) e') /\
  (decisions (fiat_backend fiat_code) e = decisions (fiat_backend fiat_code) e' ->
   exists o o', snd (word64_run e) = Ok o /\ snd (word64_run e') = Ok o' /\ option_map word64_shapes o = option_map word64_shapes o').
Proof. exact word64_traces. Qed.
Print Assumptions C53_word64_steps_partial.

(** In particular: decoders given strings they treat alike, everything else secret. *)
Theorem C53_field_secrets_partial : forall B, shipped B -> forall s (e e' : api s), api_ok e -> api_ok e' -> same_calls (alike B) s e e' ->
  exists t o o', field_run B e = (t, Ok o) /\ field_run B e' = (t, Ok o') /\ option_map field_shapes o = option_map field_shapes o'.
Proof. exact field_alike. Qed.
Print Assumptions C53_field_secrets_partial.

Theorem C53_word_secrets_partial : forall s (e e' : api s), api_ok e -> api_ok e' -> same_calls (alike u32_backend) s e e' ->
  exists t o o', word_run e = (t, Ok o) /\ word_run e' = (t, Ok o') /\ option_map word_shapes o = option_map word_shapes o'.
Proof. exact word_alike. Qed.
Print Assumptions C53_word_secrets_partial.

Theorem C53_word64_secrets_partial : forall s (e e' : api s), api_ok e -> api_ok e' -> same_calls (alike (fiat_backend fiat_code)) s e e' ->
  exists t o o', word64_run e = (t, Ok o) /\ word64_run e' = (t, Ok o') /\ option_map word64_shapes o = option_map word64_shapes o'.
Proof. exact word64_alike. Qed.
Print Assumptions C53_word64_secrets_partial.

(** ** Functions that take secrets, on any field elements as coordinates, over any backend *)
Theorem C53_edwards_mul_partial : forall B (P P' : EdPoint (tagged B)) t t', field_shapes (s := TEd) P = field_shapes (s := TEd) P' -> is_scalar t -> is_scalar t' ->
  same_steps (field_shapes (s := TEd)) (ed_scalar_mulS _ _ (field_machine B) P t) (ed_scalar_mulS _ _ (field_machine B) P' t').
Proof. exact field_ed_mul. Qed.
Print Assumptions C53_edwards_mul_partial.

Theorem C53_window_mul_partial : forall B (P P' : TwPoint (tagged B)) t t', field_shapes (s := TTw) P = field_shapes (s := TTw) P' -> is_scalar t -> is_scalar t' ->
  same_steps (field_shapes (s := TTw)) (variable_baseS _ _ (field_machine B) P t) (variable_baseS _ _ (field_machine B) P' t').
Proof. exact field_window_mul. Qed.
Print Assumptions C53_window_mul_partial.

Theorem C53_decaf_mul_partial : forall B (P P' : TwPoint (tagged B)) t t', field_shapes (s := TDc) P = field_shapes (s := TDc) P' -> is_scalar t -> is_scalar t' ->
  same_steps (field_shapes (s := TDc)) (dc_mulS _ _ (field_machine B) P t) (dc_mulS _ _ (field_machine B) P' t').
Proof. exact field_dc_mul. Qed.
Print Assumptions C53_decaf_mul_partial.

Theorem C53_double_base_partial : forall B (P P' : TwPoint (tagged B)) t t' u u', field_shapes (s := TTw) P = field_shapes (s := TTw) P' ->
  is_scalar t -> is_scalar t' -> is_scalar u -> is_scalar u' ->
  same_steps (field_shapes (s := TTw)) (double_base_scalar_mulS _ _ (field_machine B) t P u) (double_base_scalar_mulS _ _ (field_machine B) t' P' u').
Proof. exact field_double_base. Qed.
Print Assumptions C53_double_base_partial.

Theorem C53_ladder_partial : forall B b b' t t', bytes 56 b -> bytes 56 b' -> is_scalar t -> is_scalar t' ->
  same_steps (fun _ => tt) (mp_mulS _ _ (field_machine B) b t) (mp_mulS _ _ (field_machine B) b' t').
Proof. exact field_ladder. Qed.
Print Assumptions C53_ladder_partial.

(** ** Functions on words ([vals], [exprs]: the integers and the expressions of a list of words), on any words *)
Theorem C53_word_field_partial : forall a a' b b' c c', exprs a = exprs a' -> exprs b = exprs b' ->
  same_steps exprs (add28S T watched a b) (add28S T watched a' b') /\
  same_steps exprs (sub28S T watched a b) (sub28S T watched a' b') /\
  same_steps exprs (mul28S T watched a b) (mul28S T watched a' b') /\
  same_steps exprs (square28S T watched a) (square28S T watched a') /\
  same_steps exprs (negate28S T watched a) (negate28S T watched a') /\
  same_steps exprs (strong_reduce28S T watched a) (strong_reduce28S T watched a') /\
  same_steps exprs (conditional_select28S T watched a b c) (conditional_select28S T watched a' b' c') /\
  same_steps exprs (conditional_negate28S T watched a c) (conditional_negate28S T watched a' c') /\
  same_steps (fun _ => tt) (is_negative28S T watched a) (is_negative28S T watched a') /\
  same_steps exprs (from_bytes28S T watched a) (from_bytes28S T watched a') /\
  same_steps exprs (to_bytes28S T watched a) (to_bytes28S T watched a').
Proof. exact words_field. Qed.
Print Assumptions C53_word_field_partial.

Theorem C53_word64_field_partial : forall a a' b b' c c', exprs a = exprs a' -> exprs b = exprs b' ->
  same_steps exprs (add56S T watched a b) (add56S T watched a' b') /\
  same_steps exprs (sub56S T watched a b) (sub56S T watched a' b') /\
  same_steps exprs (mul56S T watched a b) (mul56S T watched a' b') /\
  same_steps exprs (square56S T watched a) (square56S T watched a') /\
  same_steps exprs (negate56S T watched a) (negate56S T watched a') /\
  same_steps exprs (strong_reduce56S T watched a) (strong_reduce56S T watched a') /\
  same_steps exprs (conditional_select56S T watched a b c) (conditional_select56S T watched a' b' c') /\
  same_steps exprs (conditional_negate56S T watched a c) (conditional_negate56S T watched a' c') /\
  same_steps (fun _ => tt) (is_negative56S T watched a) (is_negative56S T watched a') /\
  same_steps exprs (from_bytes56S T watched a) (from_bytes56S T watched a') /\
  same_steps exprs (to_bytes56S T watched a) (to_bytes56S T watched a').
Proof. exact words64_field. Qed.
Print Assumptions C53_word64_field_partial.
Example C53_word64_field_case : forall c x y,
  let mask := WUn (UCast 64) (WBin BAnd (WChk CI8Sub (WLit 0) WUnwrap) (WLit mask64)) in
  fst (conditional_select56S T watched [x] [y] c) =
  [Does (OWord WUnwrap);
   Does (OWord (WChk CI8Sub (WLit 0) WUnwrap)); Does (OWord (WBin BAnd (WChk CI8Sub (WLit 0) WUnwrap) (WLit mask64))); Does (OWord mask);
   Does (OWord (WBin BAnd mask (snd y))); Does (OWord (WBin BXor mask (WLit mask64))); Does (OWord (WBin BAnd (WBin BXor mask (WLit mask64)) (snd x)));
   Does (OWord (WBin BOr (WBin BAnd mask (snd y)) (WBin BAnd (WBin BXor mask (WLit mask64)) (snd x))))].
Proof. exact cmov_steps. Qed.

Theorem C53_word_scalars_partial : forall a a' b b', exprs a = exprs a' -> exprs b = exprs b' ->
  same_steps exprs (scalar_addS T watched a b) (scalar_addS T watched a' b') /\
  same_steps exprs (scalar_subS T watched a b) (scalar_subS T watched a' b') /\
  same_steps exprs (scalar_mulS T watched a b) (scalar_mulS T watched a' b') /\
  same_steps exprs (scalar_invertS T watched a) (scalar_invertS T watched a') /\
  same_steps exprs (scalar_halveS T watched a) (scalar_halveS T watched a') /\
  same_steps exprs (scalar_div_by_fourS T watched a) (scalar_div_by_fourS T watched a') /\
  same_steps exprs (to_radix_16S T watched a) (to_radix_16S T watched a') /\
  same_steps (fun _ => tt) (scalar_bitsS T watched a) (scalar_bitsS T watched a') /\
  same_steps (fun _ => tt) (scalar_eqbS T watched a b) (scalar_eqbS T watched a' b') /\
  same_steps exprs (scalar_to_bytesS T watched a) (scalar_to_bytesS T watched a') /\
  same_steps exprs (scalar_from_bytesS T watched a) (scalar_from_bytesS T watched a') /\
  same_steps exprs (scalar_from_bytes_mod_order_wideS T watched a) (scalar_from_bytes_mod_order_wideS T watched a').
Proof. exact words_scalars. Qed.
Print Assumptions C53_word_scalars_partial.

(** [subtle]'s selection and comparisons, on any words, choices and slices. *)
Theorem C53_word_subtle_partial : forall w x x' y y' c c' a a' b b', snd x = snd x' -> snd y = snd y' -> exprs a = exprs a' -> exprs b = exprs b' ->
  same_steps snd (selectS T watched c x y) (selectS T watched c' x' y') /\
  same_steps (fun _ => tt) (ct_eqS T watched w x y) (ct_eqS T watched w x' y') /\
  same_steps (fun _ => tt) (ct_eq_sliceS T watched a b) (ct_eq_sliceS T watched a' b').
Proof. exact words_subtle. Qed.
Print Assumptions C53_word_subtle_partial.
Example C53_word_subtle_case : forall c x y, fst (selectS T watched c x y) =
  [Does (OWord WUnwrap); Does (OWord (WUn UNeg WUnwrap)); Does (OWord (WBin BXor (snd x) (snd y)));
   Does (OWord (WBin BAnd (WUn UNeg WUnwrap) (WBin BXor (snd x) (snd y))));
   Does (OWord (WBin BXor (snd x) (WBin BAnd (WUn UNeg WUnwrap) (WBin BXor (snd x) (snd y)))))].
Proof. exact select_steps. Qed.

Theorem C53_word_subtle_results : forall w x y c a b, 0 < w ->
  computes fst (selectS T watched c x y) (Ok (if c then fst y else fst x)) /\
  computes (fun r => r) (ct_eqS T watched w x y) (Ok (fst x =? fst y)) /\
  computes (fun r => r) (ct_eq_sliceS T watched a b) (Ok (list_eqb (vals a) (vals b))).
Proof. exact words_subtle_results. Qed.
Print Assumptions C53_word_subtle_results.

Theorem C53_word_field_results : forall a b c,
  computes vals (add28S T watched a b) (add28 (vals a) (vals b)) /\
  computes vals (sub28S T watched a b) (sub28 (vals a) (vals b)) /\
  computes vals (mul28S T watched a b) (mul28 (vals a) (vals b)) /\
  computes vals (square28S T watched a) (square28 (vals a)) /\
  computes vals (negate28S T watched a) (negate28 (vals a)) /\
  computes vals (strong_reduce28S T watched a) (strong_reduce28 (vals a)) /\
  computes vals (conditional_select28S T watched a b c) (Ok (conditional_select28 (vals a) (vals b) c)) /\
  computes vals (conditional_negate28S T watched a c) (conditional_negate28 (vals a) c) /\
  computes (fun x => x) (is_negative28S T watched a) (is_negative28 (vals a)) /\
  computes vals (from_bytes28S T watched a) (from_bytes28 (vals a)) /\
  computes vals (to_bytes28S T watched a) (to_bytes28 (vals a)).
Proof. exact words_field_results. Qed.
Print Assumptions C53_word_field_results.

Theorem C53_word64_field_results : forall a b c,
  computes vals (add56S T watched a b) (add56 fiat_code (vals a) (vals b)) /\
  computes vals (sub56S T watched a b) (sub56 fiat_code (vals a) (vals b)) /\
  computes vals (mul56S T watched a b) (mul56 fiat_code (vals a) (vals b)) /\
  computes vals (square56S T watched a) (square56 fiat_code (vals a)) /\
  computes vals (negate56S T watched a) (negate56 fiat_code (vals a)) /\
  computes vals (strong_reduce56S T watched a) (strong_reduce56 fiat_code (vals a)) /\
  computes vals (conditional_select56S T watched a b c) (conditional_select56 fiat_code (vals a) (vals b) c) /\
  computes vals (conditional_negate56S T watched a c) (conditional_negate56 fiat_code (vals a) c) /\
  computes (fun x => x) (is_negative56S T watched a) (is_negative56 fiat_code (vals a)) /\
  computes vals (from_bytes56S T watched a) (from_bytes56 fiat_code (vals a)) /\
  computes vals (to_bytes56S T watched a) (to_bytes56 fiat_code (vals a)).
Proof. exact words64_field_results. Qed.
Print Assumptions C53_word64_field_results.

Theorem C53_word_scalars_results : forall a b,
  computes vals (scalar_addS T watched a b) (scalar_add (vals a) (vals b)) /\
  computes vals (scalar_subS T watched a b) (scalar_sub (vals a) (vals b)) /\
  computes vals (scalar_mulS T watched a b) (scalar_mul (vals a) (vals b)) /\
  computes vals (scalar_invertS T watched a) (scalar_invert (vals a)) /\
  computes vals (scalar_halveS T watched a) (scalar_halve (vals a)) /\
  computes vals (scalar_div_by_fourS T watched a) (Ok (scalar_div_by_four (vals a))) /\
  computes vals (to_radix_16S T watched a) (to_radix_16 (vals a)) /\
  computes (fun x => x) (scalar_bitsS T watched a) (Ok (scalar_bits (vals a))) /\
  computes (fun x => x) (scalar_eqbS T watched a b) (Ok (scalar_eqb (vals a) (vals b))) /\
  computes vals (scalar_to_bytesS T watched a) (Ok (scalar_to_bytes (vals a))) /\
  computes vals (scalar_from_bytesS T watched a) (Ok (scalar_from_bytes (vals a))) /\
  computes vals (scalar_from_bytes_mod_order_wideS T watched a) (scalar_from_bytes_mod_order_wide (vals a)).
Proof. exact words_scalars_results. Qed.
Print Assumptions C53_word_scalars_results.

(** ** What decoders show, exactly *)
(** Edwards: whether the string is accepted. *)
Theorem C53_edwards_decoding : forall B, shipped B -> forall b b', bytes 57 b -> bytes 57 b' ->
  (fst (field_run B (AEdDecompress b)) = fst (field_run B (AEdDecompress b')) <-> edwards_branches B b = edwards_branches B b').
Proof. exact see_edwards. Qed.
Print Assumptions C53_edwards_decoding.

(** Decaf: not below p, odd, no such point, or accepted. *)
Theorem C53_decaf_decoding : forall B, shipped B -> forall b b', bytes 56 b -> bytes 56 b' ->
  (fst (field_run B (ADcDecompress b)) = fst (field_run B (ADcDecompress b')) <-> dc_verdict B b = dc_verdict B b').
Proof. exact see_decaf. Qed.
Print Assumptions C53_decaf_decoding.

Example C53_decaf_decoding_case : forall B, shipped B ->
  dc_verdict B (le_bytes 56 p) = TooLarge /\ dc_verdict B (le_bytes 56 1) = IsOdd /\ dc_verdict B (le_bytes 56 4) = NoPoint /\ dc_verdict B rfc_generator = Accepted.
Proof. exact verdicts. Qed.

(** Scalars: below l, below 2^446, below 2^448, or not. *)
Theorem C53_scalar_decoding : forall b b', bytes 57 b -> bytes 57 b' ->
  (fst (word_run (AScCanonical b)) = fst (word_run (AScCanonical b')) <-> scalar_branches b = scalar_branches b').
Proof. exact see_scalar. Qed.
Print Assumptions C53_scalar_decoding.

Example C53_scalar_decoding_case :
  map (fun n => scalar_branches (le_bytes 57 n)) [ell - 1; ell; 2 ^ 446; 2 ^ 448] = [[false; false; true]; [false; false; false]; [false; true]; [true]].
Proof. exact scalar_cases. Qed.

(** So a failed decoding does not hide which check failed (src/decaf/decaf.rs:91-128 returns early). *)
Theorem C53_rejected_encodings_refuted : forall B, shipped B -> exists b b', bytes 56 b /\ bytes 56 b' /\
  dc_decompress B b = Ok None /\ dc_decompress B b' = Ok None /\
  fst (field_run B (ADcDecompress b)) <> fst (field_run B (ADcDecompress b')).
Proof. exact rejected_seen. Qed.
Print Assumptions C53_rejected_encodings_refuted.

(** ** Cases *)
(** A shared secret, from different points and with different keys. *)
Example C53_case : forall B, shipped B -> forall t t', is_scalar t -> is_scalar t' ->
  let shared b t := ADcCompress (ADcMul (ADcDecompress b) t) in
  api_ok (shared rfc_generator t) /\ api_ok (shared (repeat 0 56) t') /\ same_calls (alike B) _ (shared rfc_generator t) (shared (repeat 0 56) t') /\
  (exists v, snd (field_run B (shared rfc_generator t)) = Ok (Some v)) /\
  fst (field_run B (shared rfc_generator t)) = fst (field_run B (shared (repeat 0 56) t')) /\
  branches (fst (field_run B (shared rfc_generator t))) = [false; false; false].
Proof. exact shared_case. Qed.

(** The same word for word, over the 64-bit backend. *)
Example C53_case_words : forall t t', is_scalar t -> is_scalar t' ->
  let shared b t := ADcCompress (ADcMul (ADcDecompress b) t) in
  api_ok (shared rfc_generator t) /\ api_ok (shared (repeat 0 56) t') /\
  fst (word64_run (shared rfc_generator t)) = fst (word64_run (shared (repeat 0 56) t')) /\
  branches (fst (word64_run (shared rfc_generator t))) = [false; false; false].
Proof. exact shared64. Qed.

(** Wrong code is found out: a caller who chooses calls by secret data; an addition left out for zero; a selection by a branch; a table read at a secret place. *)
Example C53_case_caller : forall B, let prog c := ABind DBool TEd (ARet DBool c) (fun c : dval DBool => if c : bool then AEdDouble AEdGenerator else AEdGenerator) in
  fst (field_run B (prog true)) <> fst (field_run B (prog false)).
Proof. exact caller_seen. Qed.

Example C53_case_branch :
  let add_unless_zero x y := andthen (test watched TNonZero y) (fun t => andthen (branch watched t) (fun b : bool => if b then chk watched CU32Add x y else @ret (tracing word_op) _ x)) in
  ~ same_steps snd (add_unless_zero (5, WIn 0) (0, WIn 1)) (add_unless_zero (5, WIn 0) (1, WIn 1)).
Proof. exact skip_seen. Qed.

Example C53_case_select : let select (c : bool) (a b : list (Z * wshape)) := andthen (branch watched c) (fun c : bool => @ret (tracing word_op) _ (if c then b else a)) in
  ~ same_steps exprs (select true [(1, WIn 0)] [(2, WIn 1)]) (select false [(1, WIn 0)] [(2, WIn 1)]).
Proof. exact select_branch_seen. Qed.

Example C53_case_lookup : let look_up (table : list (Z * wshape)) (i : Z) := indexS (M := tracing word_op) table i in
  ~ same_steps snd (look_up [(7, WIn 0); (9, WIn 1)] 0) (look_up [(7, WIn 0); (9, WIn 1)] 1).
Proof. exact lookup_seen. Qed.
