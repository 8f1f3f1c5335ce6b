(** Proofs for C77: the remarks in the crate's comments about the two curves, on the modelled functions. *)
Require Import ZArith Znumtheory List Bool Lia Ring Field.
From Verif Require Import Base BaseProofs Wp SpecParams SpecField SpecCurve SpecEncoding SpecDecaf FieldTheory EdwardsTheory CurveTheory PhiHat EdSigns
  Primes TwistedProofs AbGroup Order GroupOrder MontOrder FieldBackend FieldU32Model Backends BackendLaws ScalarModel ScalarProofs ScalarMain
  TwistedModel ScalarMulModel EdwardsModel PointSpec ScalarMulProofs EdwardsProofs EdwardsMain TwistedMain EdwardsCases DecafTheory DecafGroup DocsCurve.
Import ListNotations.
Open Scope F_scope.
Open Scope res_scope.
Local Opaque fadd fsub fmul fopp fdiv finv fpow of_Z padd pmul zmul pzero fsqrt SpecCurve.G D T4 ell.
Local Notation "P ⊕ Q" := (padd ed_a ed_d P Q) (at level 50, left associativity).
Local Notation "n • P" := (pmul ed_a ed_d n P) (at level 40).

Lemma phihat_N : phihat (0, - (1)) = pzero.
Proof.
  unfold phihat. rewrite zero_pair. apply pt_eq; apply fdiv_val.
  - replace (- (1) * - (1) + 0 * 0) with (1 : F) by ring. exact F_1_neq_0.
  - ring.
  - replace (of_Z 2 - (- (1) * - (1) - 0 * 0)) with (of_Z 2 - 1) by ring. replace (of_Z 2 - 1) with (of_Z 1); [exact F_1_neq_0|]. rewrite <- of_Z_sub. reflexivity.
  - replace (of_Z 2) with (1 + 1); [ring|]. rewrite <- of_Z_add. reflexivity.
Qed.
Lemma ell_phihat : forall Q, even_tw Q -> ell • phihat Q = pzero.
Proof.
  intros Q H. pose proof ell_nonneg. rewrite <- phihat_mul by assumption. destruct (ell_P Q H) as [E|E]; rewrite E; [exact phihat_zero|exact phihat_N].
Qed.
Lemma ell_four : forall P, on_ed P -> ell • (4 • P) = pzero.
Proof. intros P H. rewrite <- phihat_phi by exact H. apply ell_phihat. apply phi_even. exact H. Qed.
Lemma pmul_swap : forall m n P, (0 <= m)%Z -> (0 <= n)%Z -> on_ed P -> m • (n • P) = n • (m • P).
Proof. intros m n P Hm Hn H. rewrite <- !(pmul_mul _ _ _ ed_group) by assumption. rewrite Z.mul_comm. reflexivity. Qed.

Section Docs.
Variable B : backend.
Hypothesis S : shipped B.
Let L := shipped_laws B S.
Theorem untwist_clears : forall T, tw_valid B T -> exists R, tw_to_untwisted B T = Ok R /\ ed_valid B R /\ ed_is_torsion_free B R = Ok true.
Proof.
  intros T V. pose proof (tw_valid_even B T V) as O. apply (tw_rep_of B) in V. destruct (tw_to_untwisted_ok B L _ _ V) as (R & ER & HR).
  destruct (of_rep B _ _ HR) as [VR AR]. exists R. split; [exact ER|]. split; [exact VR|]. rewrite (torsion_free_eq B S R VR), AR, (ell_phihat _ O). apply (f_equal Ok). apply peqb_refl.
Qed.
Theorem mul_clears : forall P s, ed_valid B P -> is_scalar s ->
  exists R b, ed_scalar_mul B P s = Ok R /\ ed_is_torsion_free B R = Ok b /\
    ((4 | sval s)%Z \/ ed_is_torsion_free B P = Ok true -> b = true) /\
    (2 * ell • ed_affine B P <> pzero -> (b = true <-> (4 | sval s)%Z)).
Proof.
  intros P s V Hs. pose proof (valid_on B P V) as O. pose proof (scalar_range s Hs) as Rs. pose proof ell_nonneg as E0. set (A := ed_affine B P) in *.
  destruct (ed_scalar_mul_law B S P s V Hs) as (R & ER & VR & AR). exists R. rewrite (torsion_free_eq B S R VR), AR. fold A. eexists. split; [exact ER|]. split; [reflexivity|].
  rewrite peqb_eq. assert (SW : ell • (sval s • A) = sval s • (ell • A)) by (apply pmul_swap; lia || exact O). rewrite SW.
  assert (OX : on_ed (ell • A)) by (apply on_pmul; exact O). assert (X4 : 4 • (ell • A) = pzero) by (rewrite pmul_swap by (lia || exact O); exact (ell_four A O)).
  assert (DV : (4 | sval s)%Z -> sval s • (ell • A) = pzero).
  { intros [q Eq]. rewrite Eq, (pmul_mul _ _ _ ed_group) by (lia || exact OX). rewrite X4. apply pmul_zero. lia. }
  split; [intros [D4|TF]; [exact (DV D4)|]|].
  - pose proof (torsion_free_ell B S P V TF) as K. fold A in K. rewrite K. apply pmul_zero. lia.
  - intro N2. split; [|exact DV]. intro K. rewrite (pmul_mul _ _ _ ed_group) in N2 by (lia || exact O).
    pose proof (Z.div_mod (sval s) 4 ltac:(lia)) as M. pose proof (Z.mod_pos_bound (sval s) 4 ltac:(lia)) as M4. pose proof (Z.div_pos (sval s) 4 ltac:(lia) ltac:(lia)) as Mq.
    assert (KR : (sval s mod 4) • (ell • A) = pzero).
    { rewrite M in K. rewrite (pmul_add _ _ _ ed_group) in K by (lia || exact OX). rewrite Z.mul_comm, (pmul_mul _ _ _ ed_group) in K by (lia || exact OX).
      rewrite X4, pmul_zero, padd_0_l in K by lia. exact K. }
    assert (NX : ell • A <> pzero) by (intro Z; apply N2; rewrite Z; apply pmul_zero; lia).
    assert (C : (sval s mod 4 = 0 \/ sval s mod 4 = 1 \/ sval s mod 4 = 2 \/ sval s mod 4 = 3)%Z) by lia. destruct C as [C|[C|[C|C]]]; rewrite C in KR.
    + exists (sval s / 4)%Z. lia.
    + rewrite pmul_1 in KR. destruct (NX KR).
    + destruct (N2 KR).
    + exfalso. apply NX. change 4%Z with (3 + 1)%Z in X4. rewrite pmul_succ in X4 by lia. rewrite KR in X4. rewrite padd_0_r in X4. exact X4.
Qed.
(** Without a component of order four the converse fails: [2](0, -1) is the neutral element. *)
Theorem mul_clears_converse_refuted : exists P s, ed_valid B P /\ is_scalar s /\ ~ (4 | sval s)%Z /\ ed_is_torsion_free B P = Ok false /\
  exists R, ed_scalar_mul B P s = Ok R /\ ed_is_torsion_free B R = Ok true.
Proof.
  destruct (ed_torque_ok B L _ _ (ed_identity_rep B L)) as (P & _ & HP). destruct (of_rep B _ _ HP) as [V A]. rewrite padd_0_l in A.
  pose (s := 2%Z :: repeat 0%Z 13). assert (Hs : is_scalar s) by (split; [reflexivity|unfold s; cbn [repeat]; repeat (apply Forall_cons; [lia|]); apply Forall_nil]).
  assert (E2 : sval s = 2%Z) by (vm_compute; reflexivity). destruct two_torsion_point as (O & N0 & NN).
  assert (OE : ell • (0, - (1)) = (0, - (1))).
  { assert (EO : exists k, (0 <= k)%Z /\ ell = (k * 2 + 1)%Z). { exists (ell / 2)%Z. pose proof ell_pos'. split; [apply Z.div_pos; lia|]. Local Transparent ell. vm_compute. reflexivity. }
    Local Opaque ell. destruct EO as (k & Hk & ->). rewrite pmul_succ by lia. rewrite (pmul_mul _ _ _ ed_group) by (lia || exact O). rewrite pmul_2, NN, pmul_zero by lia. apply padd_0_r. }
  exists P, s. split; [exact V|]. split; [exact Hs|]. split; [rewrite E2; intros [q Eq]; lia|]. split.
  - rewrite (torsion_free_eq B S P V), A, OE. apply (f_equal Ok). apply not_true_is_false. rewrite peqb_eq. exact N0.
  - destruct (ed_scalar_mul_law B S P s V Hs) as (R & ER & VR & AR). exists R. split; [exact ER|]. rewrite (torsion_free_eq B S R VR), AR, A, E2, pmul_2, NN. apply (f_equal Ok). apply peqb_eq.
    apply pmul_zero. pose proof ell_pos'. lia.
Qed.

(** ** The table *)
Theorem table_multiples : forall T, tw_valid B T ->
  exists t, lookup_from B T = Ok t /\ length t = 8%nat /\ forall i d, (i < 8)%nat -> pn_rep B (nth i t d) (pmul tw_a tw_d (1 + Z.of_nat i) (tw_affine B T)).
Proof. intros T V. apply (tw_rep_of B) in V. destruct (lookup_from_ok B L _ _ V) as (t & Et & H). exists t. split; [exact Et|]. exact H. Qed.
Lemma pn_rep_inj : forall N Q Q', pn_rep B N Q -> pn_rep B N Q' -> Q = Q'.
Proof.
  intros N [x y] [x' y'] (_ & _ & z & Nz & A1 & A2 & _ & A4) (_ & _ & z' & Nz' & B1 & B2 & _ & B4). cbn [fst snd] in *.
  assert (Ez : z = z') by (apply (fmul_cancel_l (of_Z 2)); [exact two_nz|]; rewrite <- A4; exact B4). rewrite <- Ez in *.
  assert (E1 : y + x = y' + x') by (apply (fmul_cancel_l z); [exact Nz|]; transitivity ((y + x) * z); [ring|]; rewrite <- A1, B1; ring).
  assert (E2 : y - x = y' - x') by (apply (fmul_cancel_l z); [exact Nz|]; transitivity ((y - x) * z); [ring|]; rewrite <- A2, B2; ring).
  assert (T2 : of_Z 2 = of_Z 1 + of_Z 1) by (rewrite <- of_Z_add; reflexivity).
  apply pt_eq; apply (fmul_cancel_l (of_Z 2)); try exact two_nz; rewrite T2.
  - transitivity (y + x - (y - x)); [ring|]. rewrite E1, E2. ring.
  - transitivity (y + x + (y - x)); [ring|]. rewrite E1, E2. ring.
Qed.
(** The second entry is 2P, not 3P or any other small odd multiple. *)
Theorem odd_multiples_refuted : exists T t, tw_valid B T /\ lookup_from B T = Ok t /\
  forall d k, (0 <= k < 16)%Z -> pn_rep B (nth 1 t d) (pmul tw_a tw_d k (tw_affine B T)) -> k = 2%Z.
Proof.
  destruct (tw_gen_valid B S) as [V A]. destruct (table_multiples _ V) as (t & Et & _ & H). exists (tw_generator B), t. split; [exact V|]. split; [exact Et|].
  intros d k Hk Hp. pose proof (pn_rep_inj _ _ _ Hp (H 1%nat d ltac:(lia))) as E. rewrite A in E. change (1 + Z.of_nat 1)%Z with 2%Z in E.
  assert (E16 : (16 < ell)%Z). { Local Transparent ell. reflexivity. } Local Opaque ell.
  apply class_D_inj; [lia|lia|]. rewrite E. apply class_refl.
Qed.
(** ** The cached form, divided by the Z it stores *)
Theorem niels_projective : forall P, xt_valid B P -> exists N, xt_to_projective_niels B P = Ok N /\ fv B (pnZ N) <> 0 /\
  let (x, y) := xt_affine B P in
  fv B (pnYpX N) / fv B (pnZ N) = (y + x) / of_Z 2 /\ fv B (pnYmX N) / fv B (pnZ N) = (y - x) / of_Z 2 /\ fv B (pnTd N) / fv B (pnZ N) = tw_d * x * y.
Proof.
  intros P V. assert (R : xt_rep B P (xt_affine B P)) by (apply xt_rep_iff; split; [exact V|reflexivity]).
  destruct (xt_to_projective_niels_ok B L _ _ R) as (N & EN & HN). exists N. split; [exact EN|]. destruct (xt_affine B P) as [x y]. destruct HN as (_ & _ & z & Nz & A1 & A2 & A3 & A4). cbn [fst snd] in *.
  pose proof two_nz as N2. rewrite A1, A2, A3, A4. clear A1 A2 A3 A4 EN R. split; [apply fmul_nonzero; assumption|]. revert N2. generalize (of_Z 2) tw_d. intros w d Nw. split; [|split]; field; auto.
Qed.
End Docs.

(** ** The digits *)
Theorem digit_mask : forall d, (-128 < d < 128)%Z ->
  shr d 7 = (if d <? 0 then -1 else 0)%Z /\ Z.land (shr d 7) 1 = (if d <? 0 then 1 else 0)%Z /\
  exists t, i8_add d (shr d 7) = Ok t /\ as_u32 (Z.lxor t (shr d 7)) = Z.abs d.
Proof.
  intros d Hd. unfold shr. rewrite Z.shiftr_div_pow2 by lia. change (2 ^ 7)%Z with 128%Z. destruct (Z.ltb_spec d 0) as [N|N].
  - assert (E : (d / 128 = -1)%Z) by (symmetry; apply (Z.div_unique d 128 (-1) (d + 128)); lia). rewrite E. split; [reflexivity|]. split; [reflexivity|]. exists (d - 1)%Z. split.
    + unfold i8_add, chk_i. destruct (Z.leb_spec (- 2 ^ (8 - 1)) (d + -1)), (Z.ltb_spec (d + -1) (2 ^ (8 - 1))); try (cbn in *; lia). reflexivity.
    + rewrite Z.lxor_m1_r. unfold Z.lnot, as_u32, wrap. rewrite Z.mod_small; lia.
  - assert (E : (d / 128 = 0)%Z) by (apply Z.div_small; lia). rewrite E. split; [reflexivity|]. split; [reflexivity|]. exists d. split.
    + unfold i8_add, chk_i. rewrite Z.add_0_r. destruct (Z.leb_spec (- 2 ^ (8 - 1)) d), (Z.ltb_spec d (2 ^ (8 - 1))); try (cbn in *; lia). reflexivity.
    + rewrite Z.lxor_0_r. unfold as_u32, wrap. rewrite Z.mod_small; lia.
Qed.
Theorem digit_mask_refuted : exists d, (-128 <= d < 0)%Z /\ shr d 7 <> 1%Z /\ i8_add d (shr d 7) = Panic.
Proof. exists (-128)%Z. split; [lia|]. split; [discriminate|reflexivity]. Qed.

(** ** Base points *)
Theorem base_orders : forall n, (0 <= n)%Z -> (n • SpecCurve.G = pzero <-> (ell | n)%Z) /\ (n • (2 • SpecCurve.G) = pzero <-> (ell | n)%Z).
Proof.
  intros n Hn. split; [exact (G_order_iff n Hn)|]. rewrite <- (pmul_mul _ _ _ ed_group) by (lia || exact on_G). rewrite (G_order_iff (n * 2)) by lia. split.
  - intro H. apply prime_mult in H; [|exact prime_ell]. destruct H as [H|H]; [exact H|]. pose proof ell_big'. apply Z.divide_pos_le in H; lia.
  - intros [q ->]. exists (q * 2)%Z. ring.
Qed.
Theorem order_2q_refuted : ell • SpecCurve.G = pzero /\ ~ (2 * ell | ell)%Z.
Proof. split; [apply (G_order_iff ell); [exact ell_nonneg|apply Z.divide_refl]|]. pose proof ell_pos' as K. intro H. apply Z.divide_pos_le in H; lia. Qed.
(** ** The equations in the comments *)
Lemma minus_d : forall d u v : F, d <> 0 -> u = 1 + d * v -> (u = 1 - d * v <-> v = 0).
Proof.
  intros d u v Nd E. rewrite E. split; intro H; [|rewrite H; ring].
  apply (fmul_cancel_l (of_Z 2 * d)); [apply fmul_nonzero; [exact two_nz|exact Nd]|]. assert (T2 : of_Z 2 = of_Z 1 + of_Z 1) by (rewrite <- of_Z_add; reflexivity). rewrite T2.
  transitivity (1 + d * v - (1 - d * v)); [ring|]. rewrite H. ring.
Qed.
Theorem comment_equation_ed : forall x y, on_curve ed_a ed_d (x, y) -> (y * y + x * x = 1 - ed_d * (x * x * (y * y)) <-> x = 0 \/ y = 0).
Proof.
  intros x y O. pose proof (minus_d ed_d (y * y + x * x) (x * x * (y * y)) nz_ed_d) as K. rewrite K.
  - split; [|intros [-> | ->]; ring]. intro H. apply fmul_integral in H. destruct H as [H|H]; apply fmul_integral in H; tauto.
  - unfold on_curve, ed_a in O. transitivity (1 * (x * x) + y * y); [ring|]. rewrite O. ring.
Qed.
Theorem comment_equation_tw : forall x y, on_curve tw_a tw_d (x, y) -> (y * y - x * x = 1 - tw_d * (x * x * (y * y)) <-> x = 0).
Proof.
  intros x y O. pose proof (minus_d tw_d (y * y - x * x) (x * x * (y * y)) nz_tw_d) as K. rewrite K.
  - pose proof (tw_y_nz _ _ O) as NY. split; [|intros ->; ring]. intro H. apply fmul_integral in H. destruct H as [H|H]; apply fmul_integral in H; tauto.
  - unfold on_curve, tw_a in O. transitivity (- (1) * (x * x) + y * y); [ring|]. rewrite O. ring.
Qed.
