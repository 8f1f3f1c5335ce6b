(** The classes of even points of the twisted curve form a group of order l, generated by D. *)
Require Import ZArith Znumtheory List Bool Lia Ring Field.
From Verif Require Import Base BaseProofs SpecParams SpecField SpecCurve SpecEncoding SpecDecaf FieldTheory EdwardsTheory CurveTheory PhiHat EdSigns
  Primes TwistedProofs AbGroup Order GroupOrder TwistedMain DecafTheory.
Import ListNotations.
Open Scope F_scope.
Local Opaque fadd fsub fmul fopp fdiv finv fpow of_Z padd pmul zmul pzero fsqrt G D T4 ell.
Local Notation "P ⊕ Q" := (padd tw_a tw_d P Q) (at level 50, left associativity).
Local Notation "n • P" := (pmul tw_a tw_d n P) (at level 40).
Local Notation N := (of_Z 0, - of_Z 1).

Lemma zero_pair : pzero = (of_Z 0, of_Z 1). Proof. reflexivity. Qed.
Lemma pair_fst : forall (x y x' y' : F), (x, y) = (x', y') -> x = x'. Proof. intros x y x' y' E. exact (f_equal fst E). Qed.
Lemma pair_snd : forall (x y x' y' : F), (x, y) = (x', y') -> y = y'. Proof. intros x y x' y' E. exact (f_equal snd E). Qed.
Lemma even_N : even_tw N.
Proof.
  pose proof (even_torque (of_Z 0) (of_Z 1)) as H. rewrite <- zero_pair in H. specialize (H even_zero). rewrite fopp_0 in H. exact H.
Qed.
Lemma NN : N ⊕ N = pzero. Proof. rewrite padd_N, zero_pair. apply pt_eq; ring. Qed.
Lemma self_opp_0 : forall x : F, x = - x -> x = 0.
Proof.
  intros x E. apply (fmul_cancel_l (of_Z 2)); [exact two_nz|]. transitivity (x - - x); [ring|]. rewrite <- E. ring.
Qed.
Lemma x0_even : forall y, even_tw (0, y) -> (0, y) = pzero \/ (0, y) = N.
Proof.
  intros y [O _]. assert (W : y * y = 1 * 1). { pose proof (tw_y2 _ _ O) as W. transitivity (y * y * (1 + (K + 1) * (0 * 0))); [ring|]. rewrite W. ring. }
  destruct (fsq_eq _ _ W) as [-> | ->]; [left; reflexivity|right; reflexivity].
Qed.
Lemma two_torsion_tw : forall W, even_tw W -> W ⊕ W = pzero -> W = pzero \/ W = N.
Proof.
  intros [x y] H E. apply (g_neg_unique _ _ _ tw_group) in E; [|exact H|exact H]. cbn [pneg] in E.
  assert (x = 0) as -> by (apply self_opp_0; exact (pair_fst _ _ _ _ E)). apply x0_even. exact H.
Qed.
Lemma not_dbl_N : forall W, even_tw W -> W ⊕ W <> N.
Proof.
  intros [x y] H E. pose proof H as [O _]. pose proof (even_neg _ H) as Hn.
  assert (E2 : (x, y) = N ⊕ pneg (x, y)).
  { rewrite <- E. rewrite (g_assoc _ _ _ tw_group) by assumption. rewrite (g_neg_r _ _ _ tw_group) by assumption. rewrite padd_0_r. reflexivity. }
  rewrite padd_comm in E2. cbn [pneg] in E2. rewrite padd_N in E2.
  apply (tw_y_nz _ _ O). apply self_opp_0. exact (pair_snd _ _ _ _ E2).
Qed.
Lemma four_torsion_tw : forall W, even_tw W -> pmul tw_a tw_d 4 W = pzero -> W = pzero \/ W = N.
Proof.
  intros W H E. rewrite (pmul_4 _ _ _ tw_group) in E by exact H. pose proof (even_add _ _ H H) as H2.
  destruct (two_torsion_tw _ H2 E) as [X|X]; [exact (two_torsion_tw _ H X)|]. destruct (not_dbl_N _ H X).
Qed.

(** ** A class is determined by its double *)
Lemma class_dbl : forall P Q, even_tw P -> even_tw Q -> (same_class P Q <-> P ⊕ P = Q ⊕ Q).
Proof.
  intros P Q HP HQ. pose proof even_N as HN. split.
  - intros [E|E]; rewrite E; [reflexivity|]. rewrite (g_swap _ _ _ tw_group) by assumption. rewrite NN. apply padd_0_r.
  - intro E. pose proof (even_neg _ HQ) as Hn. pose proof (even_add _ _ HP Hn) as HW.
    assert (W : (P ⊕ pneg Q) ⊕ (P ⊕ pneg Q) = pzero).
    { rewrite (g_swap _ _ _ tw_group) by assumption. rewrite E, padd_pneg. apply (g_neg_r _ _ _ tw_group). apply even_add; assumption. }
    assert (EP : P = Q ⊕ (P ⊕ pneg Q)).
    { rewrite padd_comm. rewrite (g_assoc _ _ _ tw_group) by assumption. rewrite (padd_comm _ _ (pneg _)), (g_neg_r _ _ _ tw_group) by assumption.
      rewrite padd_0_r. reflexivity. }
    destruct (two_torsion_tw _ HW W) as [X|X]; rewrite X in EP; [left|right; exact EP]. rewrite padd_0_r in EP. exact EP.
Qed.
Lemma class_refl : forall P, same_class P P. Proof. intro P. left. reflexivity. Qed.
Lemma class_sym : forall P Q, even_tw P -> even_tw Q -> same_class P Q -> same_class Q P.
Proof. intros P Q HP HQ H. apply class_dbl; auto. apply class_dbl in H; auto. Qed.
Lemma class_trans : forall P Q R, even_tw P -> even_tw Q -> even_tw R -> same_class P Q -> same_class Q R -> same_class P R.
Proof. intros P Q R HP HQ HR H1 H2. apply class_dbl; auto. apply class_dbl in H1, H2; auto. exact (eq_trans H1 H2). Qed.
Lemma class_add : forall P P' Q Q', even_tw P -> even_tw P' -> even_tw Q -> even_tw Q' -> same_class P P' -> same_class Q Q' ->
  same_class (P ⊕ Q) (P' ⊕ Q').
Proof.
  intros P P' Q Q' HP HP' HQ HQ' H1 H2. apply class_dbl; try (apply even_add; assumption). apply class_dbl in H1, H2; try assumption.
  rewrite (g_swap _ _ _ tw_group P Q P Q), (g_swap _ _ _ tw_group P' Q' P' Q') by assumption. rewrite H1, H2. reflexivity.
Qed.
Lemma class_neg : forall P Q, even_tw P -> even_tw Q -> same_class P Q -> same_class (pneg P) (pneg Q).
Proof.
  intros P Q HP HQ H. apply class_dbl; try (apply even_neg; assumption). apply class_dbl in H; try assumption. rewrite !padd_pneg, H. reflexivity.
Qed.
Lemma class_mul : forall n P Q, (0 <= n)%Z -> even_tw P -> even_tw Q -> same_class P Q -> same_class (n • P) (n • Q).
Proof.
  intros n P Q Hn HP HQ H. apply class_dbl; try (apply even_pmul; assumption). apply class_dbl in H; try assumption.
  rewrite <- !(pmul_padd _ _ _ tw_group) by assumption. rewrite H. reflexivity.
Qed.

(** ** Order *)
Lemma tw_ab : abgroup point even_tw (padd tw_a tw_d) pneg pzero (zmul tw_a tw_d).
Proof.
  constructor.
  - exact (eg_0 _ _ _ tw_group).
  - exact (eg_add _ _ _ tw_group).
  - exact (eg_neg _ _ _ tw_group).
  - apply padd_comm.
  - intros x y w Hx Hy Hw. exact (g_assoc _ _ _ tw_group x y w Hx Hy Hw).
  - apply padd_0_l.
  - intros x Hx. exact (g_neg_r _ _ _ tw_group x Hx).
  - intros n x Hx. exact (zmul_S _ _ _ tw_group n x Hx).
  - intro x. rewrite zmul_nonneg by lia. apply pmul_0.
  - intro x. rewrite zmul_nonneg by lia. apply pmul_1.
  - intros m n x Hx. exact (zmul_add _ _ _ tw_group m n x Hx).
Qed.
Lemma ell_nonneg : (0 <= ell)%Z. Proof. pose proof ell_pos'. lia. Qed.
Lemma ell_big' : (8 < ell)%Z. Proof. reflexivity. Qed.
Lemma ell_D : ell • D = pzero.
Proof. rewrite <- phi_G, <- phi_mul by (exact ell_nonneg || exact on_G). rewrite ell_G. exact phi_zero. Qed.
Lemma phi_T4 : phi T4 = pzero.
Proof.
  Local Transparent T4. unfold T4, phi. rewrite zero_pair. apply pt_eq; apply fdiv_val.
  - replace (0 * 0 - 1 * 1) with (- (1)) by ring. intro E. apply F_1_neq_0. apply fopp_0_iff. exact E.
  - ring.
  - replace (of_Z 2 - (0 * 0 + 1 * 1)) with (of_Z 2 - 1) by ring. replace (of_Z 2 - 1) with (of_Z 1); [exact F_1_neq_0|]. rewrite <- of_Z_sub. reflexivity.
  - replace (of_Z 2) with (1 + 1); [ring|]. rewrite <- of_Z_add. reflexivity.
Qed.
Local Opaque T4.
Lemma four_P : forall P, even_tw P -> exists b, (0 <= b < ell)%Z /\ 4 • P = b • D.
Proof.
  intros P H. pose proof (phihat_on P H) as O. destruct (ed_structure _ O) as (b & c & Hb & Hc & E). exists b. split; [exact Hb|].
  rewrite <- phi_phihat by exact H. rewrite E. rewrite phi_add; [|apply (pmul_S _ _ _ ed_group); exact on_G|apply (pmul_S _ _ _ ed_group); exact on_T4].
  rewrite !phi_mul by (lia || exact on_G || exact on_T4). rewrite phi_G, phi_T4, (pmul_zero) by lia. apply padd_0_r.
Qed.
Lemma ell_P : forall P, even_tw P -> ell • P = pzero \/ ell • P = N.
Proof.
  intros P H. apply four_torsion_tw; [apply even_pmul; exact H|]. destruct (four_P P H) as (b & Hb & E). pose proof ell_nonneg.
  rewrite <- (pmul_mul _ _ _ tw_group) by (lia || exact H). rewrite Z.mul_comm. rewrite (pmul_mul _ _ _ tw_group) by (lia || exact H).
  rewrite E. rewrite <- (pmul_mul _ _ _ tw_group) by (lia || exact even_D). rewrite Z.mul_comm. rewrite (pmul_mul _ _ _ tw_group) by (lia || exact even_D).
  rewrite ell_D. apply pmul_zero. lia.
Qed.
Lemma class_ell : forall P, even_tw P -> same_class (ell • P) pzero.
Proof.
  intros P H. destruct (ell_P P H) as [E|E]; rewrite E; [left; reflexivity|right]. rewrite padd_0_l. reflexivity.
Qed.
Lemma class_mod : forall n P, (0 <= n)%Z -> even_tw P -> same_class (n • P) ((n mod ell) • P).
Proof.
  intros n P Hn H. pose proof ell_pos' as L. pose proof (Z.mod_pos_bound n ell L) as Hm. pose proof (Z.div_pos n ell Hn L) as Hq.
  assert (S : same_class ((n / ell)%Z • (ell • P)) pzero).
  { rewrite <- (pmul_zero tw_a tw_d (n / ell)%Z Hq). apply class_mul; [exact Hq|apply even_pmul; exact H|exact even_zero|exact (class_ell P H)]. }
  rewrite (Z.div_mod n ell) at 1 by lia. rewrite Z.mul_comm. rewrite (pmul_add _ _ _ tw_group) by (nia || exact H).
  rewrite (pmul_mul _ _ _ tw_group) by (lia || exact H).
  rewrite <- (padd_0_l tw_a tw_d ((n mod ell)%Z • P)) at 2. apply class_add; try (repeat apply even_pmul; exact H); [exact even_zero|exact S|apply class_refl].
Qed.
Lemma class_gen : forall P, even_tw P -> exists k, (0 <= k < ell)%Z /\ same_class P (k • D).
Proof.
  intros P H. destruct (four_P P H) as (b & Hb & E). pose proof ell_pos' as L. pose proof ell_mod4 as M4.
  pose (m := ((ell + 1) / 4)%Z). assert (Em : (ell + 1 = m * 4)%Z).
  { unfold m. pose proof (Z.div_mod (ell + 1) 4 ltac:(lia)) as X. replace ((ell + 1) mod 4)%Z with 0%Z in X; [lia|].
    rewrite <- Zplus_mod_idemp_l, M4. reflexivity. }
  assert (Hm : (0 <= m)%Z) by lia.
  assert (E2 : P ⊕ ell • P = (m * b)%Z • D).
  { rewrite <- pmul_succ by lia. rewrite Em. rewrite (pmul_mul _ _ _ tw_group) by (lia || exact H). rewrite E.
    rewrite <- (pmul_mul _ _ _ tw_group) by (lia || exact even_D). reflexivity. }
  exists ((m * b) mod ell)%Z. split; [apply Z.mod_pos_bound; exact L|].
  apply (class_trans _ ((m * b)%Z • D)); [exact H|apply even_pmul; exact even_D|apply even_pmul; exact even_D| |apply class_mod; [nia|exact even_D]].
  rewrite <- E2. apply class_sym; [apply even_add; [exact H|apply even_pmul; exact H]|exact H|].
  pose proof (class_add P P (ell • P) pzero H H (even_pmul ell P H) even_zero (class_refl P) (class_ell P H)) as X. rewrite padd_0_r in X. exact X.
Qed.
(** The multiples of D below l are in different classes. *)
Lemma D_neq_0 : D <> pzero.
Proof.
  rewrite D_pair, zero_pair. intro E. apply pair_fst in E. revert E. unfold Dx. apply of_Z_small_nonzero. split; [reflexivity|vm_compute; reflexivity].
Qed.
Lemma class_D_inj : forall j k, (0 <= j < ell)%Z -> (0 <= k < ell)%Z -> same_class (j • D) (k • D) -> j = k.
Proof.
  intros j k Hj Hk H. apply class_dbl in H; try (apply even_pmul; exact even_D).
  rewrite <- !(pmul_padd _ _ _ tw_group) in H by (lia || exact even_D). rewrite <- !pmul_2 in H.
  rewrite <- !(pmul_mul _ _ _ tw_group) in H by (lia || exact even_D).
  assert (Z0 : zmul tw_a tw_d (j * 2 - k * 2) D = pzero).
  { unfold Z.sub. rewrite (zmul_add _ _ _ tw_group) by exact even_D. rewrite (zmul_opp _ _ even_tw) by exact even_D.
    rewrite !zmul_nonneg by lia. rewrite H. apply (g_neg_r _ _ _ tw_group). apply even_pmul. exact even_D. }
  assert (Zl : zmul tw_a tw_d ell D = pzero) by (rewrite zmul_nonneg by exact ell_nonneg; exact ell_D).
  pose proof (a_prime_order _ _ _ _ _ _ tw_ab ell _ D prime_ell even_D D_neq_0 Zl Z0) as Dv.
  replace (j * 2 - k * 2)%Z with (2 * (j - k))%Z in Dv by ring.
  apply prime_mult in Dv; [|exact prime_ell]. pose proof ell_big' as B. destruct Dv as [Dv|Dv].
  - apply Z.divide_pos_le in Dv; lia.
  - destruct Dv as [q Eq]. assert (q = 0)%Z; [|subst q; lia]. destruct (Z.lt_trichotomy q 0) as [X|[X|X]]; [nia|exact X|nia].
Qed.
