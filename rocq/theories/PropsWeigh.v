(** Property C78: how many operations on machine words whole functions perform, on both backends.

    Reading guide (definitions in CostSpec.v, TraceSpec.v and TraceSpec64.v).  A run on [words_machine] is a run of the curve code over the 32-bit field and scalar code,
    [words64_machine] over the 64-bit field with fiat-crypto as in FiatCode.v; it writes down every step on a machine word: an arithmetic operation, shift or cast, an
    assertion, a word turned into a boolean, a word handed out.  [word_costs x n m]: the run x returns, does not branch on data, and takes n steps, m of them multiplications.
    [word_spends x n m]: the same for a run that may branch.  [word_values], [word64_values]: a point without the expressions that runs attach to its words. *)
Require Import ZArith List Bool.
From Verif Require Import Base SpecParams FieldBackend FieldU32Model FieldFiatModel FiatCode Backends ScalarModel TwistedModel ScalarMulModel EdwardsModel MontgomeryModel DecafModel ApiExpr PointSpec
  Steps StepScalar StepCurve TraceSpec TraceSpec64 TraceWords CostSpec WeighScalar WeighInst WeighCases.
Import ListNotations.
Open Scope N_scope.

(** ** 32 bits *)

(** Inversion and inverse square root in the field. *)
Theorem C78_words32_invert : forall (a : fe words), fe_tight u32_backend (map fst a) -> word_costs (fe_invertS _ _ words_machine a) 184580 50772.
Proof. exact words32_invert. Qed.
Print Assumptions C78_words32_invert.
Theorem C78_words32_isr : forall (a : fe words), fe_tight u32_backend (map fst a) -> word_costs (fe_inverse_square_rootS _ _ words_machine a) 185508 50748.
Proof. exact words32_isr. Qed.
Print Assumptions C78_words32_isr.

(** Addition and doubling. *)
Theorem C78_words32_ed_add : forall (P R : EdPoint words), ed_valid u32_backend (word_values (s := TEd) P) -> ed_valid u32_backend (word_values (s := TEd) R) -> word_costs (ed_addS _ _ words_machine P R) 6819 2500.
Proof. exact words32_ed_add. Qed.
Print Assumptions C78_words32_ed_add.
Theorem C78_words32_tw_add : forall (P R : TwPoint words), tw_valid u32_backend (word_values (s := TTw) P) -> tw_valid u32_backend (word_values (s := TTw) R) -> word_costs (tw_addS _ _ words_machine P R) 5778 2115.
Proof. exact words32_tw_add. Qed.
Print Assumptions C78_words32_tw_add.
Theorem C78_words32_tw_double : forall (P : TwPoint words), tw_valid u32_backend (word_values (s := TTw) P) -> word_costs (tw_doubleS _ _ words_machine P) 4521 1313.
Proof. exact words32_tw_double. Qed.
Print Assumptions C78_words32_tw_double.

(** Scalar multiplication: of Edwards points, by windows and bit by bit on the twisted curve, of two points, and by the ladder; by the two low bits. *)
Theorem C78_words32_ed_mul : forall (P : EdPoint words) t, ed_valid u32_backend (word_values (s := TEd) P) -> is_scalar t -> word_costs (ed_scalar_mulS _ _ words_machine P t) 3959598 1055152.
Proof. exact words32_ed_mul. Qed.
Print Assumptions C78_words32_ed_mul.
Theorem C78_words32_window : forall (P : TwPoint words) t, tw_valid u32_backend (word_values (s := TTw) P) -> is_scalar t -> word_costs (variable_baseS _ _ words_machine P t) 2815164 738262.
Proof. exact words32_window. Qed.
Print Assumptions C78_words32_window.
Theorem C78_words32_bitwise : forall (P : TwPoint words) t, tw_valid u32_backend (word_values (s := TTw) P) -> is_scalar t -> word_costs (double_and_addS _ _ words_machine P t) 4758208 1535744.
Proof. exact words32_bitwise. Qed.
Print Assumptions C78_words32_bitwise.
Theorem C78_words32_double_base : forall (P : TwPoint words) t u, tw_valid u32_backend (word_values (s := TTw) P) -> is_scalar t -> is_scalar u -> word_costs (double_base_scalar_mulS _ _ words_machine t P u) 9522194 3073603.
Proof. exact words32_double_base. Qed.
Print Assumptions C78_words32_double_base.
Theorem C78_words32_ladder : forall b t, bytes 56 b -> is_scalar t -> word_costs (mp_mulS _ _ words_machine b t) 2597618 762388.
Proof. exact words32_ladder. Qed.
Print Assumptions C78_words32_ladder.
Theorem C78_words32_mod_four : forall (P : EdPoint words) t, ed_valid u32_backend (word_values (s := TEd) P) -> is_scalar t -> word_costs (ed_scalar_mod_fourS _ _ words_machine P t) 14923 5000.
Proof. exact words32_mod_four. Qed.
Print Assumptions C78_words32_mod_four.

(** Encoding, the torsion check, the Montgomery form. *)
Theorem C78_words32_ed_compress : forall (P : EdPoint words), ed_valid u32_backend (word_values (s := TEd) P) -> word_costs (ed_compressS _ _ words_machine P) 186715 51156.
Proof. exact words32_ed_compress. Qed.
Print Assumptions C78_words32_ed_compress.
Theorem C78_words32_dc_compress : forall (P : TwPoint words), tw_valid u32_backend (word_values (s := TTw) P) -> word_costs (dc_compressS _ _ words_machine P) 191864 52588.
Proof. exact words32_dc_compress. Qed.
Print Assumptions C78_words32_dc_compress.
Theorem C78_words32_torsion_free : forall (P : EdPoint words), ed_valid u32_backend (word_values (s := TEd) P) -> word_costs (ed_is_torsion_freeS _ _ words_machine P) 3964008 1055920.
Proof. exact words32_torsion_free. Qed.
Print Assumptions C78_words32_torsion_free.
Theorem C78_words32_to_montgomery : forall (P : EdPoint words), ed_valid u32_backend (word_values (s := TEd) P) -> word_costs (ed_to_montgomeryS _ _ words_machine P) 372949 102614.
Proof. exact words32_to_montgomery. Qed.
Print Assumptions C78_words32_to_montgomery.

(** Decoding: the number depends on the string only through the outcome. *)
Theorem C78_words32_ed_decompress : forall b, bytes 57 b ->
  let accepted := match ed_decompress u32_backend b with Ok (Some _) => true | _ => false end in
  word_spends (ed_decompressS _ _ words_machine b) (if accepted then 189875 else 188886) (if accepted then 51627 else 51434).
Proof. exact words32_ed_decompress. Qed.
Print Assumptions C78_words32_ed_decompress.
Theorem C78_words32_dc_decompress : forall b, bytes 56 b ->
  word_spends (dc_decompressS _ _ words_machine b)
    (match dc_verdict u32_backend b with TooLarge => 1322 | IsOdd => 1668 | NoPoint => 189146 | Accepted => 193072 end)
    (match dc_verdict u32_backend b with TooLarge => 0 | IsOdd => 0 | NoPoint => 51349 | Accepted => 52694 end).
Proof. exact words32_dc_decompress. Qed.
Print Assumptions C78_words32_dc_decompress.

(** ** 64 bits *)

(** Inversion and inverse square root in the field. *)
Theorem C78_words64_invert : forall (a : fe words64), fe_tight (fiat_backend fiat_code) (map fst a) -> word_costs (fe_invertS _ _ words64_machine a) 77821 29435.
Proof. exact words64_invert. Qed.
Print Assumptions C78_words64_invert.
Theorem C78_words64_isr : forall (a : fe words64), fe_tight (fiat_backend fiat_code) (map fst a) -> word_costs (fe_inverse_square_rootS _ _ words64_machine a) 78866 29407.
Proof. exact words64_isr. Qed.
Print Assumptions C78_words64_isr.

(** Addition and doubling. *)
Theorem C78_words64_ed_add : forall (P R : EdPoint words64), ed_valid (fiat_backend fiat_code) (word64_values (s := TEd) P) -> ed_valid (fiat_backend fiat_code) (word64_values (s := TEd) R) -> word_costs (ed_addS _ _ words64_machine P R) 3604 1274.
Proof. exact words64_ed_add. Qed.
Print Assumptions C78_words64_ed_add.
Theorem C78_words64_tw_add : forall (P R : TwPoint words64), tw_valid (fiat_backend fiat_code) (word64_values (s := TTw) P) -> tw_valid (fiat_backend fiat_code) (word64_values (s := TTw) R) -> word_costs (tw_addS _ _ words64_machine P R) 3058 1078.
Proof. exact words64_tw_add. Qed.
Print Assumptions C78_words64_tw_add.
Theorem C78_words64_tw_double : forall (P : TwPoint words64), tw_valid (fiat_backend fiat_code) (word64_values (s := TTw) P) -> word_costs (tw_doubleS _ _ words64_machine P) 2243 707.
Proof. exact words64_tw_double. Qed.
Print Assumptions C78_words64_tw_double.

(** Scalar multiplication: of Edwards points, by windows and bit by bit on the twisted curve, of two points, and by the ladder; by the two low bits. *)
Theorem C78_words64_ed_mul : forall (P : EdPoint words64) t, ed_valid (fiat_backend fiat_code) (word64_values (s := TEd) P) -> is_scalar t -> word_costs (ed_scalar_mulS _ _ words64_machine P t) 1979195 576114.
Proof. exact words64_ed_mul. Qed.
Print Assumptions C78_words64_ed_mul.
Theorem C78_words64_window : forall (P : TwPoint words64) t, tw_valid (fiat_backend fiat_code) (word64_values (s := TTw) P) -> is_scalar t -> word_costs (variable_baseS _ _ words64_machine P t) 1493274 393162.
Proof. exact words64_window. Qed.
Print Assumptions C78_words64_window.
Theorem C78_words64_bitwise : forall (P : TwPoint words64) t, tw_valid (fiat_backend fiat_code) (word64_values (s := TTw) P) -> is_scalar t -> word_costs (double_and_addS _ _ words64_machine P t) 2477888 799680.
Proof. exact words64_bitwise. Qed.
Print Assumptions C78_words64_bitwise.
Theorem C78_words64_double_base : forall (P : TwPoint words64) t u, tw_valid (fiat_backend fiat_code) (word64_values (s := TTw) P) -> is_scalar t -> is_scalar u -> word_costs (double_base_scalar_mulS _ _ words64_machine t P u) 4958834 1600438.
Proof. exact words64_double_base. Qed.
Print Assumptions C78_words64_double_base.
Theorem C78_words64_ladder : forall b t, bytes 56 b -> is_scalar t -> word_costs (mp_mulS _ _ words64_machine b t) 1330216 405853.
Proof. exact words64_ladder. Qed.
Print Assumptions C78_words64_ladder.
Theorem C78_words64_mod_four : forall (P : EdPoint words64) t, ed_valid (fiat_backend fiat_code) (word64_values (s := TEd) P) -> is_scalar t -> word_costs (ed_scalar_mod_fourS _ _ words64_machine P t) 8125 2548.
Proof. exact words64_mod_four. Qed.
Print Assumptions C78_words64_mod_four.

(** Encoding, the torsion check, the Montgomery form. *)
Theorem C78_words64_ed_compress : forall (P : EdPoint words64), ed_valid (fiat_backend fiat_code) (word64_values (s := TEd) P) -> word_costs (ed_compressS _ _ words64_machine P) 79028 29631.
Proof. exact words64_ed_compress. Qed.
Print Assumptions C78_words64_ed_compress.
Theorem C78_words64_dc_compress : forall (P : TwPoint words64), tw_valid (fiat_backend fiat_code) (word64_values (s := TTw) P) -> word_costs (dc_compressS _ _ words64_machine P) 82530 30352.
Proof. exact words64_dc_compress. Qed.
Print Assumptions C78_words64_dc_compress.
Theorem C78_words64_torsion_free : forall (P : EdPoint words64), ed_valid (fiat_backend fiat_code) (word64_values (s := TEd) P) -> word_costs (ed_is_torsion_freeS _ _ words64_machine P) 1982441 576506.
Proof. exact words64_torsion_free. Qed.
Print Assumptions C78_words64_torsion_free.
Theorem C78_words64_to_montgomery : forall (P : EdPoint words64), ed_valid (fiat_backend fiat_code) (word64_values (s := TEd) P) -> word_costs (ed_to_montgomeryS _ _ words64_machine P) 157572 59423.
Proof. exact words64_to_montgomery. Qed.
Print Assumptions C78_words64_to_montgomery.

(** Decoding: the number depends on the string only through the outcome. *)
Theorem C78_words64_ed_decompress : forall b, bytes 57 b ->
  let accepted := match ed_decompress (fiat_backend fiat_code) b with Ok (Some _) => true | _ => false end in
  word_spends (ed_decompressS _ _ words64_machine b) (if accepted then 81755 else 81113) (if accepted then 29862 else 29764).
Proof. exact words64_ed_decompress. Qed.
Print Assumptions C78_words64_ed_decompress.
Theorem C78_words64_dc_decompress : forall b, bytes 56 b ->
  word_spends (dc_decompressS _ _ words64_machine b)
    (match dc_verdict (fiat_backend fiat_code) b with TooLarge => 1178 | IsOdd => 1468 | NoPoint => 81315 | Accepted => 83469 end)
    (match dc_verdict (fiat_backend fiat_code) b with TooLarge => 0 | IsOdd => 0 | NoPoint => 29729 | Accepted => 30415 end).
Proof. exact words64_dc_decompress. Qed.
Print Assumptions C78_words64_dc_decompress.

(** ** Scalars *)
Theorem C78_scalar_invert : forall a, is_scalar (vals a) -> word_costs (scalar_invertS _ watched a) 1208305 224518.
Proof. exact weigh_scalar_invert. Qed.
Print Assumptions C78_scalar_invert.

(** Decoding: 57 bytes at least 2^448, at least 2^446, below. *)
Theorem C78_scalar_decode : forall b, bytes 57 b ->
  word_spends (scalar_from_canonical_bytesS _ watched (inputs 0 57 b)) (if (2 ^ 448 <=? le_val b)%Z then 2 else if (2 ^ 446 <=? le_val b)%Z then 5 else 904) 0.
Proof. exact weigh_canonical. Qed.
Print Assumptions C78_scalar_decode.

(** ** Cases *)
(** The generator, with inputs as its words, times any scalar. *)
Example C78_case_32 : forall t, is_scalar t ->
  let x i l := map (fun j => (nth j l 0%Z, WIn (16 * i + j))) (seq 0 16) in
  let P : EdPoint words := @mkEd words (x 0%nat (BASE_X u32_backend)) (x 1%nat (BASE_Y u32_backend)) (x 2%nat (BASE_Z u32_backend)) (x 3%nat (BASE_T u32_backend)) in
  ed_valid u32_backend (word_values (s := TEd) P) /\ N.of_nat (length (fst (ed_scalar_mulS _ _ words_machine P t))) = 3959598.
Proof. exact generator_32. Qed.
Example C78_case_64 : forall t, is_scalar t ->
  let B := fiat_backend fiat_code in
  let x i l := map (fun j => (nth j l 0%Z, WIn (8 * i + j))) (seq 0 8) in
  let P : EdPoint words64 := @mkEd words64 (x 0%nat (BASE_X B)) (x 1%nat (BASE_Y B)) (x 2%nat (BASE_Z B)) (x 3%nat (BASE_T B)) in
  ed_valid B (word64_values (s := TEd) P) /\ N.of_nat (length (fst (ed_scalar_mulS _ _ words64_machine P t))) = 1979195.
Proof. exact generator_64. Qed.
(** l - 1 is accepted, l is not; both take 904 steps, and a string that is too long 2. *)
Example C78_case_decode :
  word_spends (scalar_from_canonical_bytesS _ watched (inputs 0 57 (le_bytes 57 (ell - 1)))) 904 0 /\
  word_spends (scalar_from_canonical_bytesS _ watched (inputs 0 57 (le_bytes 57 ell))) 904 0 /\
  word_spends (scalar_from_canonical_bytesS _ watched (inputs 0 57 (le_bytes 57 (2 ^ 448)))) 2 0.
Proof. exact decode_cases. Qed.
