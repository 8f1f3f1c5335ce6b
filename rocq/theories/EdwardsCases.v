(** Points used in the concrete cases beside the Edwards theorems. *)
Require Import ZArith Znumtheory List Bool Lia Ring Field.
From Verif Require Import Base BaseProofs SpecParams SpecField SpecCurve SpecEncoding FieldTheory FieldBackend FieldModel FieldU32Model Backends BackendLaws
  FieldMain Wp ScalarModel ScalarProofs ScalarProofs2 ScalarMain Primes EdwardsTheory CurveTheory TwistedModel ScalarMulModel EdwardsModel PointSpec
  TwistedProofs ScalarMulProofs EdwardsProofs EdwardsExpr EdwardsRun Order GroupOrder PhiHat EdwardsMain TwistedMain.
Import ListNotations.
Open Scope F_scope.
Open Scope res_scope.
Local Opaque fadd fsub fmul fopp fdiv finv fpow of_Z padd pmul G pzero ed_decode T4 ell D.

(** The point (1, 0) of order 4, and a representation (0 : 2 : 2 : 0) of the identity. *)
Definition t4_point (B : backend) : EdPoint B := mkEd (fe_one B) (fe_zero B) (fe_one B) (fe_zero B).
Definition two28 : list Z := 2%Z :: repeat 0%Z 15.
Definition id_scaled : EdPoint u32_backend := mkEd (fe_zero u32_backend) two28 two28 (fe_zero u32_backend).

Lemma T4_pair : (of_Z 1, of_Z 0) = T4. Proof. reflexivity. Qed.
Lemma T4_ell : pmul ed_a ed_d ell T4 <> pzero.
Proof.
  intro E. pose proof ell_pos'. rewrite <- zmul_nonneg in E by lia. apply zmul_T_0 in E. apply Z.mod_divide in E; [|lia]. rewrite ell_mod4 in E. lia.
Qed.

Section Cases.
Variable B : backend.
Hypothesis S : shipped B.
Let L := shipped_laws B S.
Lemma id_rep : ed_rep B (ed_identity B) pzero. Proof. exact (ed_identity_rep B L). Qed.
Lemma gen_rep : ed_rep B (ed_generator B) G. Proof. exact (ed_generator_rep B L). Qed.
Lemma t4_rep : ed_rep B (t4_point B) (of_Z 1, of_Z 0).
Proof.
  unfold ed_rep, t4_point. cbn [edX edY edZ edT fst snd].
  destruct (l_zero B L) as [T0 V0], (l_one B L) as [T1 V1]. rewrite V0, V1. split; [auto|]. split; [exact on_T4|].
  split; [exact F_1_neq_0|]. repeat split; ring.
Qed.
Lemma gen_valid : ed_valid B (ed_generator B) /\ ed_affine B (ed_generator B) = G. Proof. exact (of_rep B _ _ gen_rep). Qed.
Lemma id_valid : ed_valid B (ed_identity B) /\ ed_affine B (ed_identity B) = pzero. Proof. exact (of_rep B _ _ id_rep). Qed.
Lemma t4_valid : ed_valid B (t4_point B) /\ ed_affine B (t4_point B) = (of_Z 1, of_Z 0). Proof. exact (of_rep B _ _ t4_rep). Qed.
Lemma tw_gen_valid : tw_valid B (tw_generator B) /\ tw_affine B (tw_generator B) = D. Proof. exact (tw_of_rep B _ _ (tw_generator_rep B S)). Qed.
Lemma gen_not_id : ed_ct_eq B (ed_generator B) (ed_identity B) = Ok false.
Proof.
  rewrite (ed_ct_eq_ok B L _ _ _ _ gen_rep id_rep). apply (f_equal Ok). destruct (peqb G pzero) eqn:E; [|reflexivity].
  apply peqb_eq in E. destruct (G_neq_0 E).
Qed.
Lemma t4_not_gen : ed_ct_eq B (t4_point B) (ed_generator B) = Ok false.
Proof.
  rewrite (ed_ct_eq_ok B L _ _ _ _ t4_rep gen_rep). apply (f_equal Ok). destruct (peqb (of_Z 1, of_Z 0) G) eqn:E; [|reflexivity].
  apply peqb_eq in E. exfalso. pose proof (G_order_iff 4 ltac:(lia)) as [K _].
  assert (X : pmul ed_a ed_d 4 G = pzero) by (rewrite <- E, T4_pair; exact T4_4).
  apply K in X. apply Z.divide_pos_le in X; [|lia]. pose proof ell_pos'. revert X. apply Zlt_not_le. reflexivity.
Qed.
Lemma t4_torsion : ed_is_torsion_free B (t4_point B) = Ok false.
Proof.
  rewrite (torsion_free_eq B S _ (proj1 t4_valid)), (proj2 t4_valid). apply (f_equal Ok).
  destruct (peqb (pmul ed_a ed_d ell (of_Z 1, of_Z 0)) pzero) eqn:E; [|reflexivity]. apply peqb_eq in E. exfalso.
  rewrite T4_pair in E. exact (T4_ell E).
Qed.
Lemma gen_torsion : ed_is_torsion_free B (ed_generator B) = Ok true.
Proof.
  rewrite (torsion_free_eq B S _ (proj1 gen_valid)), (proj2 gen_valid). apply (f_equal Ok). apply peqb_eq. apply (G_order_iff ell); [pose proof ell_pos'; lia|apply Z.divide_refl].
Qed.
End Cases.
