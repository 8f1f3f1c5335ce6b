(** The concrete cases beside the theorems of PropsDecaf.v. *)
Require Import ZArith Znumtheory List Bool Lia Ring Field.
From Verif Require Import Base BaseProofs SpecParams SpecField SpecCurve SpecEncoding SpecDecaf FieldTheory FieldBackend FieldModel Backends BackendLaws FieldProofs FieldMain Wp
  ScalarModel ScalarProofs ScalarProofs2 ScalarMain EdwardsTheory CurveTheory TwistedModel ScalarMulModel DecafModel PointSpec EdSigns TwistedProofs ScalarMulProofs EdwardsProofs EdwardsExpr
  EdwardsRun Order GroupOrder EdwardsMain TwistedMain MontTheory MontgomeryMain EdwardsFacts DecafTheory DecafGroup DecafProofs DecafExpr DecafRun DecafMain.
Import ListNotations.
Open Scope F_scope.
Open Scope res_scope.
Local Opaque fadd fsub fmul fopp fdiv finv fpow of_Z padd pmul pzero fsqrt G D ell Dx Dy
  dc_add dc_sub dc_neg dc_mul dc_equals dc_compress dc_decompress even_tw tw_affine.

(** ** The encoding of the generator is that of RFC 9496 *)
Definition gen_s : F := of_Z (le_val rfc_generator).
Definition gen_t : F := of_Z 0x7fffffffffffffffffffffffffffffffffffffffffffffffffffffff80000000000000000000000000000000000000000000000000000001.
Definition gen_w : F := of_Z 0x79a70b2b70400553ae7c9df416c792c61128751ac92969240c25a07d728bdc93e21f7787ed6972249de732f38496cd11698713093e9c04fc.
Lemma gen_t_sq : gen_t * gen_t = 1 + Dx * Dx. Proof. apply fval_eq. vm_compute. reflexivity. Qed.
Lemma gen_w_eq : decaf_factor * (Dx * Dy) = gen_w * gen_t. Proof. apply fval_eq. vm_compute. reflexivity. Qed.
Lemma gen_s_sq : gen_s * gen_s * (gen_t + 1) = gen_t - 1. Proof. apply fval_eq. vm_compute. reflexivity. Qed.
Lemma div_eq : forall a w t : F, t <> 0 -> a = w * t -> a / t = w. Proof. intros a w t N ->. field. exact N. Qed.
Lemma gen_drel : drel D gen_s.
Proof.
  rewrite D_pair. split; [vm_compute; reflexivity|]. exists gen_t. split; [exact gen_t_sq|]. split; [|exact gen_s_sq].
  change rK with decaf_factor. rewrite (div_eq _ gen_w); [vm_compute; reflexivity| |exact gen_w_eq].
  exact (root_nz Dx gen_t gen_t_sq).
Qed.
Lemma byte_list : forall n l, length l = n -> forallb (fun x => (0 <=? x) && (x <? 256))%Z l = true -> bytes n l.
Proof.
  intros n l Hl H. split; [exact Hl|]. apply Forall_forall. intros x Hx. apply (proj1 (forallb_forall _ _) H) in Hx.
  apply andb_true_iff in Hx. destruct Hx as [H1 H2]. apply Z.leb_le in H1. apply Z.ltb_lt in H2. cbn. lia.
Qed.
Lemma rfc_gen_bytes : bytes 56 rfc_generator. Proof. apply byte_list; reflexivity. Qed.
Lemma encode_D : decaf_encode D = rfc_generator.
Proof. apply drel_encode; [exact rfc_gen_bytes|vm_compute; reflexivity|exact even_D|exact gen_drel]. Qed.

(** ** Rejected strings *)
Lemma reject_p : ~ decaf_ok (le_bytes 56 p). Proof. intros (H & _). revert H. apply Zle_not_lt. vm_compute. discriminate. Qed.
Lemma m1_sq : of_Z (le_val (le_bytes 56 (p - 1))) * of_Z (le_val (le_bytes 56 (p - 1))) = 1. Proof. apply fval_eq. vm_compute. reflexivity. Qed.
Lemma reject_m1 : ~ decaf_ok (le_bytes 56 (p - 1)). Proof. intros (_ & _ & H & _). exact (H m1_sq). Qed.
Lemma reject_1 : ~ decaf_ok (le_bytes 56 1). Proof. intros (_ & H & _). discriminate H. Qed.
Definition root4 : F := of_Z 0xfccd2a95946276d0837c8fe724e8458a1918ec31be2dda247d3568af0c3af08d3f1266d5b3c03271e796ad54f9af9690d1bc0ca55389f89a.
Lemma root4_eq : - decaf_v (of_Z (le_val (le_bytes 56 4))) = root4 * root4. Proof. apply fval_eq. vm_compute. reflexivity. Qed.
Lemma reject_4 : ~ decaf_ok (le_bytes 56 4).
Proof. intros (_ & _ & _ & H & N). apply N. apply square_and_neg; [exact H|]. rewrite root4_eq. apply square_sq. Qed.
Lemma accept_gen : decaf_ok rfc_generator. Proof. rewrite <- encode_D. apply encode_ok. exact even_D. Qed.

Section Facts.
Variable B : backend.
Hypothesis S : shipped B.
Let L := shipped_laws B S.

Lemma n_neq_0 : (of_Z 0, - (of_Z 1)) <> pzero.
Proof.
  rewrite zero_pair. intro E. apply pair_snd in E. apply two_nz. replace (of_Z 2) with (1 + 1) by (rewrite <- of_Z_add; reflexivity).
  pose proof E as E'. rewrite <- E' at 1. ring.
Qed.
(** The torqued identity is the other point of its class. *)
Lemma three_decaf : exists T, tw_torque B (dc_identity B) = Ok T /\
  tw_valid B (dc_generator B) /\ tw_valid B (dc_identity B) /\ tw_valid B T /\
  tw_affine B (dc_generator B) = D /\ tw_affine B (dc_identity B) = pzero /\ tw_affine B T = (0, - (1)) /\
  dc_equals B T (dc_identity B) = Ok true /\ tw_ct_eq B T (dc_identity B) = Ok false /\
  dc_equals B (dc_generator B) (dc_identity B) = Ok false.
Proof.
  pose proof (gen_rep B S) as HG. pose proof (id_rep B S) as HI. destruct (tw_torque_ok B L _ _ HI) as (T & ET & HT). rewrite padd_0_l in HT.
  exists T. split; [exact ET|].
  destruct (tw_of_rep B _ _ HG) as [V1 A1], (tw_of_rep B _ _ HI) as [V2 A2], (tw_of_rep B _ _ HT) as [V3 A3].
  split; [exact V1|]. split; [exact V2|]. split; [exact V3|]. split; [exact A1|]. split; [exact A2|]. split; [exact A3|]. split; [|split].
  - apply equals_iff; [exact S|exact V3|exact V2|]. rewrite A3, A2. right. rewrite padd_0_l. reflexivity.
  - rewrite (tw_ct_eq_ok B L _ _ _ _ HT HI). apply (f_equal Ok). destruct (peqb (of_Z 0, - (of_Z 1)) pzero) eqn:E; [|reflexivity].
    apply peqb_eq in E. destruct (n_neq_0 E).
  - rewrite (dc_equals_ok B L _ _ _ _ HG HI). apply (f_equal Ok). destruct (ceqb D pzero) eqn:E; [|reflexivity].
    apply ceqb_class in E; [|exact even_D|exact even_zero].
    assert (X : same_class (pmul tw_a tw_d 1 D) (pmul tw_a tw_d 0 D)) by (rewrite pmul_1; exact E).
    apply class_D_inj in X; [discriminate X| |]; pose proof ell_big'; lia.
Qed.
Lemma gen_compress : dc_compress B (dc_generator B) = Ok rfc_generator.
Proof. rewrite <- encode_D. exact (dc_compress_ok B L _ _ (gen_rep B S)). Qed.
Lemma torque_compress : (T <- tw_torque B (dc_identity B) ;; dc_compress B T) = Ok (repeat 0%Z 56).
Proof.
  destruct three_decaf as (T & -> & _ & _ & V & _ & _ & _ & E & _). cbn [bind]. apply (proj2 (proj2 (identity_string B S))); [exact V|exact E].
Qed.
Lemma decode_cases :
  (exists P, dc_decompress B rfc_generator = Ok (Some P) /\ dc_equals B P (dc_generator B) = Ok true) /\
  dc_decompress B (le_bytes 56 p) = Ok None /\ dc_decompress B (le_bytes 56 (p - 1)) = Ok None /\
  dc_decompress B (le_bytes 56 1) = Ok None /\ dc_decompress B (le_bytes 56 4) = Ok None.
Proof.
  split.
  - destruct three_decaf as (_ & _ & V & _). destruct (roundtrip B S _ V) as (b & Q & E & _ & ED & _ & EE). rewrite gen_compress in E. apply ok_inj in E. subst b.
    exists Q. split; [exact ED|exact EE].
  - repeat split; apply (reject B S); try apply le_bytes_bytes; [exact reject_p|exact reject_m1|exact reject_1|exact reject_4].
Qed.
Lemma decode_valid : exists P, dc_decompress B rfc_generator = Ok (Some P) /\ dc_compress B P = Ok rfc_generator.
Proof.
  destruct decode_cases as [(P & E & _) _]. exists P. split; [exact E|]. exact (proj2 (decompress_canonical B S _ P rfc_gen_bytes E)).
Qed.
Lemma scalar_cases :
  canonical (digits 32 14 (ell - 1)) /\ canonical (digits 32 14 2) /\ is_scalar (digits 32 14 ell) /\ sval (digits 32 14 ell) = ell /\
  is_scalar (digits 32 14 (ell + 5)) /\ (sval (digits 32 14 (ell + 5)) mod ell = sval (digits 32 14 5) mod ell)%Z.
Proof.
  pose proof ell_big' as E8. pose proof ell_448 as E4. assert (E5 : (ell + 5 < 2 ^ 448)%Z) by (vm_compute; reflexivity).
  split; [apply small_scalar; lia|]. split; [apply small_scalar; lia|]. split; [apply sc; lia|]. split; [apply scv; lia|]. split; [apply sc; lia|].
  rewrite !scv by lia. replace (ell + 5)%Z with (5 + 1 * ell)%Z by ring. apply Z.mod_add. lia.
Qed.
Lemma program_case :
  let e := DAdd (DMul (DDecompress rfc_generator) (digits 32 14 (ell - 1))) (DSub DGenerator (DNeg DIdentity)) in
  dcexp_ok e /\ dcexp_val e = Some (padd tw_a tw_d (pmul tw_a tw_d (ell - 1) (decaf_point gen_s)) (padd tw_a tw_d D (pneg (pneg pzero)))).
Proof.
  cbv zeta. split.
  - cbn [dcexp_ok]. split; [split; [exact rfc_gen_bytes|apply sc; ran]|auto].
  - cbn [dcexp_val]. rewrite (proj1 (ok_decode _) accept_gen). cbn [omap omap2]. rewrite scv by ran. reflexivity.
Qed.
End Facts.

(** ** The identities of the Ristretto types *)
Theorem ristretto_identity : forall B, shipped B ->
  tw_valid B (rs_identity B) /\ tw_affine B (rs_identity B) = pzero /\
  bytes 56 cr_identity /\ le_val cr_identity = 0%Z /\ cr_identity = cd_identity /\
  dc_compress B (rs_identity B) = Ok cr_identity.
Proof.
  intros B S. pose proof (shipped_laws B S) as L. destruct (tw_of_rep B _ _ (tw_identity_rep B L)) as [VI AI].
  split; [exact VI|]. split; [exact AI|]. split; [exact zeros_bytes|]. split; [reflexivity|]. split; [reflexivity|].
  exact (proj1 (identity_string B S)).
Qed.
