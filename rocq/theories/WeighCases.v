(** Cases for C78. *)
Require Import ZArith List Bool.
From Verif Require Import Base BaseProofs SpecParams FieldBackend FieldU32Model FieldFiatModel FiatCode Backends BackendLaws ScalarModel TwistedModel EdwardsModel ApiExpr PointSpec EdwardsProofs EdwardsCases
  FiatMain Steps StepScalar StepCurve TraceSpec TraceSpec64 TraceFiat TraceWords CostSpec WeighScalar WeighInst.
Import ListNotations.
Open Scope N_scope.

Lemma generator_32 : forall t, is_scalar t ->
  let x i l := map (fun j => (nth j l 0%Z, WIn (16 * i + j))) (seq 0 16) in
  let P : EdPoint words := @mkEd words (x 0%nat (BASE_X u32_backend)) (x 1%nat (BASE_Y u32_backend)) (x 2%nat (BASE_Z u32_backend)) (x 3%nat (BASE_T u32_backend)) in
  ed_valid u32_backend (word_values (s := TEd) P) /\ N.of_nat (length (fst (ed_scalar_mulS _ _ words_machine P t))) = 3959598.
Proof.
  intros t Ht x P. assert (V : ed_valid u32_backend (word_values (s := TEd) P)).
  { assert (E : word_values (s := TEd) P = ed_generator u32_backend) by (unfold word_values, P, x, ed_generator; cbn [map_val edX edY edZ edT]; f_equal; vm_compute; reflexivity).
    rewrite E. exact (proj1 (gen_valid u32_backend shipped_u32)). }
  split; [exact V|]. exact (proj1 (proj2 (proj2 (words32_ed_mul P t V Ht)))).
Qed.
Lemma generator_64 : forall t, is_scalar t ->
  let B := fiat_backend fiat_code in
  let x i l := map (fun j => (nth j l 0%Z, WIn (8 * i + j))) (seq 0 8) in
  let P : EdPoint words64 := @mkEd words64 (x 0%nat (BASE_X B)) (x 1%nat (BASE_Y B)) (x 2%nat (BASE_Z B)) (x 3%nat (BASE_T B)) in
  ed_valid B (word64_values (s := TEd) P) /\ N.of_nat (length (fst (ed_scalar_mulS _ _ words64_machine P t))) = 1979195.
Proof.
  intros t Ht B x P. assert (V : ed_valid B (word64_values (s := TEd) P)).
  { assert (E : word64_values (s := TEd) P = ed_generator B) by (unfold word64_values, P, x, ed_generator; cbn [map_val edX edY edZ edT]; f_equal; vm_compute; reflexivity).
    rewrite E. exact (proj1 (gen_valid B shipped_code)). }
  split; [exact V|]. exact (proj1 (proj2 (proj2 (words64_ed_mul P t V Ht)))).
Qed.
Lemma decode_cases :
  word_spends (scalar_from_canonical_bytesS _ watched (inputs 0 57 (le_bytes 57 (ell - 1)))) 904 0 /\
  word_spends (scalar_from_canonical_bytesS _ watched (inputs 0 57 (le_bytes 57 ell))) 904 0 /\
  word_spends (scalar_from_canonical_bytesS _ watched (inputs 0 57 (le_bytes 57 (2 ^ 448)))) 2 0.
Proof.
  assert (H : forall v, bytes 57 (le_bytes 57 v)) by (intro v; apply le_bytes_bytes).
  split; [|split]; match goal with |- word_spends (scalar_from_canonical_bytesS _ _ (inputs 0 57 ?b)) _ _ => exact (weigh_canonical b (H _)) end.
Qed.
