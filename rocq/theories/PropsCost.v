(** Property C67: the number of operations does not depend on the data, and what it is.

    Reading guide (definitions in CostSpec.v and TraceSpec.v).  [costs x c]: the run x returns, does not branch on data, and performs
    c field operations, in the order of [mkCost]: multiplications, squarings, additions, subtractions, negations, selections (conditional_select and
    conditional_negate), reductions.  [word_costs x n m]: the same for operations on machine words, n in all and m of them multiplications.
    [field_values]: a point without the expressions that runs attach to its coordinates.  The second half is about words:
    the field in 32 bits, the field in 64 bits with fiat-crypto as in FiatCode.v (additions of a sum count, whatever their order), and scalars. *)
Require Import ZArith List Bool.
From Verif Require Import Base SpecParams SpecField FieldBackend FieldU32Model FieldFiatModel Backends ScalarModel TwistedModel ScalarMulModel EdwardsModel MontgomeryModel DecafModel ApiExpr PointSpec
  Steps StepU32 StepFiat StepScalar StepCurve TraceSpec TraceWords CostSpec CostMain CostFiat CostCases.
Import ListNotations.
Open Scope Z_scope.

(** Inversion in the field. *)
Theorem C67_invert : forall B, shipped B -> forall (a : fe (tagged B)), fe_tight B (fst a) ->
  costs (fe_invertS _ _ (field_machine B) a) (mkCost 13 447 0 0 0 0 0).
Proof. exact cost_invert. Qed.
Print Assumptions C67_invert.

(** Inverse square root in the field. *)
Theorem C67_isr : forall B, shipped B -> forall (a : fe (tagged B)), fe_tight B (fst a) ->
  costs (fe_inverse_square_rootS _ _ (field_machine B) a) (mkCost 14 445 0 0 0 0 0).
Proof. exact cost_isr. Qed.
Print Assumptions C67_isr.

(** Points of the Edwards curve. *)
Theorem C67_ed_add : forall B, shipped B -> forall (P : EdPoint (tagged B)) (Q : EdPoint (tagged B)), ed_valid B (field_values (s := TEd) P) -> ed_valid B (field_values (s := TEd) Q) ->
  costs (ed_addS _ _ (field_machine B) P Q) (mkCost 13 0 4 4 0 0 0).
Proof. exact cost_ed_add. Qed.
Print Assumptions C67_ed_add.

(** Points of the twisted curve. *)
Theorem C67_tw_add : forall B, shipped B -> forall (P : TwPoint (tagged B)) (Q : TwPoint (tagged B)), tw_valid B (field_values (s := TTw) P) -> tw_valid B (field_values (s := TTw) Q) ->
  costs (tw_addS _ _ (field_machine B) P Q) (mkCost 11 0 4 3 0 0 0).
Proof. exact cost_tw_add. Qed.
Print Assumptions C67_tw_add.

Theorem C67_tw_double : forall B, shipped B -> forall (P : TwPoint (tagged B)), tw_valid B (field_values (s := TTw) P) ->
  costs (tw_doubleS _ _ (field_machine B) P) (mkCost 4 5 3 4 1 0 0).
Proof. exact cost_tw_double. Qed.
Print Assumptions C67_tw_double.

(** Scalar multiplication of Edwards points, of points of the twisted curve by windows and bit by bit (Decaf), of two points, and by the ladder. *)
Theorem C67_ed_mul : forall B, shipped B -> forall (P : EdPoint (tagged B)) t, ed_valid B (field_values (s := TEd) P) -> is_scalar t ->
  costs (ed_scalar_mulS _ _ (field_machine B) P t) (mkCost 2694 4954 1976 2307 452 3971 4).
Proof. exact cost_ed_mul. Qed.
Print Assumptions C67_ed_mul.

Theorem C67_window : forall B, shipped B -> forall (P : TwPoint (tagged B)) t, tw_valid B (field_values (s := TTw) P) -> is_scalar t ->
  costs (variable_baseS _ _ (field_machine B) P t) (mkCost 2559 2260 1958 2289 452 3955 0).
Proof. exact cost_window. Qed.
Print Assumptions C67_window.

Theorem C67_bitwise : forall B, shipped B -> forall (P : TwPoint (tagged B)) t, tw_valid B (field_values (s := TTw) P) -> is_scalar t ->
  costs (double_and_addS _ _ (field_machine B) P t) (mkCost 6720 2240 3136 3136 448 1792 0).
Proof. exact cost_bitwise. Qed.
Print Assumptions C67_bitwise.

Theorem C67_double_base : forall B, shipped B -> forall (P : TwPoint (tagged B)) t u, tw_valid B (field_values (s := TTw) P) -> is_scalar t -> is_scalar u ->
  costs (double_base_scalar_mulS _ _ (field_machine B) t P u) (mkCost 13451 4480 6276 6275 896 3584 0).
Proof. exact cost_double_base. Qed.
Print Assumptions C67_double_base.

Theorem C67_ladder : forall B, shipped B -> forall b t, bytes 56 b -> is_scalar t ->
  costs (mp_mulS _ _ (field_machine B) b t) (mkCost 2702 2239 1792 1792 0 1792 0).
Proof. exact cost_ladder. Qed.
Print Assumptions C67_ladder.

(** Encoding. *)
Theorem C67_ed_compress : forall B, shipped B -> forall (P : EdPoint (tagged B)), ed_valid B (field_values (s := TEd) P) ->
  costs (ed_compressS _ _ (field_machine B) P) (mkCost 15 447 0 0 0 0 2).
Proof. exact cost_ed_compress. Qed.
Print Assumptions C67_ed_compress.

Theorem C67_dc_compress : forall B, shipped B -> forall (P : TwPoint (tagged B)), tw_valid B (field_values (s := TTw) P) ->
  costs (dc_compressS _ _ (field_machine B) P) (mkCost 23 446 1 2 0 2 0).
Proof. exact cost_dc_compress. Qed.
Print Assumptions C67_dc_compress.

(** Torsion check, and the Montgomery form. *)
Theorem C67_torsion_free : forall B, shipped B -> forall (P : EdPoint (tagged B)), ed_valid B (field_values (s := TEd) P) ->
  costs (ed_is_torsion_freeS _ _ (field_machine B) P) (mkCost 2698 4954 1976 2307 452 3971 4).
Proof. exact cost_torsion_free. Qed.
Print Assumptions C67_torsion_free.

Theorem C67_to_montgomery : forall B, shipped B -> forall (P : EdPoint (tagged B)), ed_valid B (field_values (s := TEd) P) ->
  costs (ed_to_montgomeryS _ _ (field_machine B) P) (mkCost 31 895 0 2 0 0 2).
Proof. exact cost_to_montgomery. Qed.
Print Assumptions C67_to_montgomery.

(** Decoding: it depends on the string only through the outcome ([dc_verdict]: not below p, odd, no such point, accepted). *)
Theorem C67_ed_decompress : forall B, shipped B -> forall b, bytes 57 b -> let x := ed_decompressS _ _ (field_machine B) b in
  (exists r, snd x = Ok r) /\ field_cost (fst x) = match ed_decompress B b with Ok (Some _) => mkCost 18 446 0 2 0 1 0 | _ => mkCost 17 446 0 2 0 0 0 end.
Proof. exact cost_ed_decompress. Qed.
Print Assumptions C67_ed_decompress.

Theorem C67_dc_decompress : forall B, shipped B -> forall b, bytes 56 b -> let x := dc_decompressS _ _ (field_machine B) b in
  (exists r, snd x = Ok r) /\
  field_cost (fst x) = match dc_verdict B b with Accepted => mkCost 23 447 3 1 0 1 0 | NoPoint => mkCost 16 447 2 1 0 0 0 | TooLarge | IsOdd => mkCost 0 0 0 0 0 0 0 end.
Proof. exact cost_dc_decompress. Qed.
Print Assumptions C67_dc_decompress.

(** ** Words *)
(** The field ([wf28]: 16 limbs within the bounds that the arithmetic keeps). *)
Theorem C67_word_field :
  (forall a b, wf28 (vals a) -> wf28 (vals b) -> word_costs (add28S _ watched a b) 65 0) /\
  (forall a b, wf28 (vals a) -> wf28 (vals b) -> word_costs (sub28S _ watched a b) 83 1) /\
  (forall a b, wf28 (vals a) -> wf28 (vals b) -> word_costs (mul28S _ watched a b) 479 192) /\
  (forall a, wf28 (vals a) -> word_costs (square28S _ watched a) 399 108) /\
  (forall a, wf28 (vals a) -> word_costs (negate28S _ watched a) 83 1) /\
  (forall a, wf28 (vals a) -> word_costs (strong_reduce28S _ watched a) 215 0) /\
  (forall a b c, wf28 (vals a) -> wf28 (vals b) -> word_costs (conditional_select28S _ watched a b c) 80 0) /\
  (forall a c, wf28 (vals a) -> word_costs (conditional_negate28S _ watched a c) 163 1) /\
  (forall a, wf28 (vals a) -> word_costs (is_negative28S _ watched a) 345 0) /\
  (forall a, bytes 56 (vals a) -> word_costs (from_bytes28S _ watched a) 128 0) /\
  (forall a, wf28 (vals a) -> word_costs (to_bytes28S _ watched a) 343 0).
Proof. exact (conj wcost_add28 (conj wcost_sub28 (conj wcost_mul28 (conj wcost_square28 (conj wcost_negate28 (conj wcost_strong_reduce28 (conj wcost_select28 (conj wcost_cond_negate28 (conj wcost_is_negative28 (conj wcost_from_bytes28 wcost_to_bytes28)))))))))). Qed.
Print Assumptions C67_word_field.

(** The field in 64 bits ([tight56], [loose56]: 8 limbs within fiat-crypto's bounds on results and on operands of products). *)
Theorem C67_word64_field :
  (forall a b, tight56 (vals a) -> tight56 (vals b) -> word_costs (add56S _ watched a b) 50 0) /\
  (forall a b, tight56 (vals a) -> tight56 (vals b) -> word_costs (sub56S _ watched a b) 58 0) /\
  (forall a b, loose56 (vals a) -> loose56 (vals b) -> word_costs (mul56S _ watched a b) 244 98) /\
  (forall a, loose56 (vals a) -> word_costs (square56S _ watched a) 167 63) /\
  (forall a, tight56 (vals a) -> word_costs (negate56S _ watched a) 50 0) /\
  (forall a, loose56 (vals a) -> word_costs (strong_reduce56S _ watched a) 42 0) /\
  (forall a b c, array 64 8 (vals a) -> array 64 8 (vals b) -> word_costs (conditional_select56S _ watched a b c) 57 0) /\
  (forall a c, tight56 (vals a) -> word_costs (conditional_negate56S _ watched a c) 107 0) /\
  (forall a, tight56 (vals a) -> word_costs (is_negative56S _ watched a) 289 0) /\
  (forall a, bytes 56 (vals a) -> word_costs (from_bytes56S _ watched a) 96 0) /\
  (forall a, tight56 (vals a) -> word_costs (to_bytes56S _ watched a) 287 0).
Proof. exact (conj wcost_add56 (conj wcost_sub56 (conj wcost_mul56 (conj wcost_square56 (conj wcost_negate56 (conj wcost_strong_reduce56 (conj wcost_conditional_select56 (conj wcost_conditional_negate56 (conj wcost_is_negative56 (conj wcost_from_bytes56 wcost_to_bytes56)))))))))). Qed.
Print Assumptions C67_word64_field.

(** Scalars. *)
Theorem C67_word_scalars :
  (forall a b, is_scalar (vals a) -> is_scalar (vals b) -> word_costs (scalar_addS _ watched a b) 184 0) /\
  (forall a b, is_scalar (vals a) -> is_scalar (vals b) -> word_costs (scalar_subS _ watched a b) 127 0) /\
  (forall a b, is_scalar (vals a) -> is_scalar (vals b) -> word_costs (scalar_mulS _ watched a b) 4370 812) /\
  (forall a, is_scalar (vals a) -> word_costs (scalar_halveS _ watched a) 114 0) /\
  (forall a, bytes 114 (vals a) -> word_costs (scalar_from_bytes_mod_order_wideS _ watched a) 9402 1624) /\
  (forall a, is_scalar (vals a) -> word_costs (to_radix_16S _ watched a) 896 0) /\
  (forall a, is_scalar (vals a) -> word_costs (scalar_bitsS _ watched a) 896 0).
Proof. exact (conj wcost_scalar_add (conj wcost_scalar_sub (conj wcost_scalar_mul (conj wcost_scalar_halve (conj wcost_wide (conj wcost_radix_16 wcost_bits)))))). Qed.
Print Assumptions C67_word_scalars.

(** ** Cases *)
(** The generator, with inputs as its coordinates, times any scalar. *)
Example C67_case : forall B, shipped B -> forall t, is_scalar t ->
  let P : EdPoint (tagged B) := @mkEd (tagged B) (BASE_X B, SIn 0) (BASE_Y B, SIn 1) (BASE_Z B, SIn 2) (BASE_T B, SIn 3) in
  ed_valid B (field_values (s := TEd) P) /\ muls (field_cost (fst (ed_scalar_mulS _ _ (field_machine B) P t))) = 2694%N /\
  squares (field_cost (fst (ed_scalar_mulS _ _ (field_machine B) P t))) = 4954%N.
Proof. exact generator_cost. Qed.

(** Square and multiply that skips zero bits: the count depends on the bits, so no such theorem holds of it. *)
Example C67_case_skip : forall B, shipped B -> forall a, fe_tight B a ->
  let K := field_machine B in
  let step (r : fe (tagged B)) (b : bool) := andthen (m_square K r) (fun q => if b then m_mul K q (a, SIn 0) else @ret (tracing operation) _ q) in
  let power b b' := andthen (step (a, SIn 0) b) (fun r => step r b') in
  muls (field_cost (fst (power true true))) = 2%N /\ muls (field_cost (fst (power true false))) = 1%N.
Proof. exact skipping_cost. Qed.

(** The largest limbs. *)
Example C67_case_words64 : let a := map (fun i => (2 ^ 56, WIn i)) (seq 0 8) in
  tight56 (vals a) /\ word_costs (mul56S _ watched a a) 244 98.
Proof. exact largest_product. Qed.
