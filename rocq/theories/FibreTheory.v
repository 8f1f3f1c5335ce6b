(** Which points of Curve448 (or of its twist) have multiples with the same coordinate. *)
Require Import ZArith Znumtheory List Bool Lia Ring Field.
From Verif Require Import Base SpecParams SpecField SpecCurve SpecMontgomery SpecTwist FieldTheory EdwardsTheory CurveTheory AbGroup Order GroupOrder
  EdStructure Primes ScalarModel ScalarProofs MontTheory Ladder LadderMont MontCurves MontgomeryMain TwistPrime MontOrder.
Import ListNotations.
Open Scope F_scope.
Local Opaque fadd fsub fmul fopp fdiv finv fpow of_Z.

Section Known.
Variables A c d : F.
Hypothesis HA : A = c * c + of_Z 2.
Hypothesis Nc : c <> 0.
Hypothesis NS : ~ is_square (A + of_Z 2).
Hypothesis Hd : d * (c * c) = A + of_Z 2.
Variables (l : Z) (P0 : mpoint).
Hypothesis l_prime : prime l.
Hypothesis l_odd : (l mod 2 = 1)%Z.
Hypothesis l_large : (2 * p < 12 * l)%Z.
Local Notation on := (on_mont A 1).
Local Notation psi := (psi c).
Local Notation "n • P" := (mont_mul A 1 n P) (at level 40).
Local Notation "n ∘ P" := (zmul 1 d n P) (at level 40).
Local Notation "P ⊕ Q" := (padd 1 d P Q) (at level 50, left associativity).
Hypothesis on_P0 : on P0.
Hypothesis P0_high : ucoord (2 • P0) <> 0.
Hypothesis P0_l : (4 * l) ∘ psi P0 = pzero.
Let ND : ~ is_square d := nsq_d A c d NS Hd.
Let Gr : edw_group 1 d (on_curve 1 d) := complete_group d ND.
Let Ab := c_ab d ND.
Local Notation T2 := (0, - (1)).
Local Notation onE := (on_curve 1 d).

Lemma on_T2 : onE T2. Proof. unfold on_curve. ring. Qed.
Lemma zmul_on : forall n Q, onE Q -> onE (n ∘ Q). Proof. intros n Q H. apply (ag_mul_S _ _ _ _ _ _ Ab). exact H. Qed.
Lemma add_on : forall Q R, onE Q -> onE R -> onE (Q ⊕ R). Proof. intros Q R. apply (ag_add _ _ _ _ _ _ Ab). Qed.
Lemma neg_on : forall Q, onE Q -> onE (pneg Q). Proof. apply (ag_neg _ _ _ _ _ _ Ab). Qed.
Lemma psiE : forall P, on P -> onE (psi P). Proof. exact (psi_on' A c d HA Nc NS Hd). Qed.
(** Differences. *)
Lemma diff_mul : forall n X Y, onE X -> onE Y -> (n ∘ X = n ∘ Y <-> n ∘ (X ⊕ pneg Y) = pzero).
Proof.
  intros n X Y HX HY. rewrite (a_mul_padd _ _ _ _ _ _ Ab) by (exact HX || apply neg_on; exact HY).
  rewrite (a_mul_neg _ _ _ _ _ _ Ab) by exact HY. split.
  - intros ->. apply (ag_inv _ _ _ _ _ _ Ab). apply zmul_on. exact HY.
  - intro E. apply (a_sub_eq _ _ _ _ _ _ Ab); [apply zmul_on; exact HX|apply zmul_on; exact HY|exact E].
Qed.
Lemma z2 : forall Q, 2 ∘ Q = Q ⊕ Q.
Proof. intro Q. rewrite zmul_nonneg by lia. apply pmul_2. Qed.
Lemma diff_2 : forall X Y, onE X -> onE Y -> (2 ∘ X = 2 ∘ Y <-> X = Y \/ X = Y ⊕ T2).
Proof.
  intros X Y HX HY. pose proof on_T2 as HT. pose proof (neg_on Y HY) as HN.
  assert (TT : T2 ⊕ T2 = pzero). { rewrite (c_N_neg d). apply pt_eq; ring. }
  split.
  - intro E. apply (diff_mul 2 X Y HX HY) in E. rewrite z2 in E. apply (c_two_torsion_pt d ND) in E; [|apply add_on; assumption].
    destruct E as [E|E]; [left; apply (a_sub_eq _ _ _ _ _ _ Ab); assumption|right].
    rewrite <- E. rewrite (ag_comm _ _ _ _ _ _ Ab Y). rewrite (ag_assoc _ _ _ _ _ _ Ab) by assumption.
    rewrite (a_inv_l _ _ _ _ _ _ Ab) by assumption. symmetry. apply (a_0_r _ _ _ _ _ _ Ab).
  - intros [->| ->]; [reflexivity|]. rewrite (a_mul_padd _ _ _ _ _ _ Ab) by assumption. rewrite (z2 T2), TT. apply (a_0_r _ _ _ _ _ _ Ab).
Qed.
Let Q0 := 4 ∘ psi P0.
Lemma kern4 : forall Q n, onE Q -> (4 | n)%Z -> ~ (l | n)%Z -> (n ∘ Q = pzero <-> 4 ∘ Q = pzero).
Proof.
  intros Q n HQ D N. rewrite (c_kernel d ND (n1 A c d HA Hd) l Q0 l_prime l_odd l_large
    (on_Q0 A c d HA Nc NS Hd P0 on_P0) (Q0_nz A c d HA Nc NS Hd P0 on_P0 P0_high) (Q0_l A c d HA Nc NS Hd l P0 on_P0 P0_l) Q n HQ D).
  split; [intros [K|K]; [contradiction|exact K]|intro K; right; exact K].
Qed.
Lemma equal_4 : forall X Y n, onE X -> onE Y -> (4 | n)%Z -> ~ (l | n)%Z -> (n ∘ X = n ∘ Y <-> 2 ∘ (2 ∘ X) = 2 ∘ (2 ∘ Y)).
Proof.
  intros X Y n HX HY D N. rewrite <- !(a_mul_mul _ _ _ _ _ _ Ab) by assumption. change (2 * 2)%Z with 4%Z.
  rewrite (diff_mul n X Y HX HY), (diff_mul 4 X Y HX HY). apply kern4; [|exact D|exact N]. apply add_on; [exact HX|]. apply neg_on. exact HY.
Qed.
Lemma not_l_2 : forall n, ~ (l | n)%Z -> ~ (l | 2 * n)%Z.
Proof.
  intros n N D. apply N. apply Gauss with 2%Z; [exact D|]. apply rel_prime_sym. apply prime_rel_prime; [exact prime_2|]. intros [q Hq]. rewrite Hq in l_odd.
  rewrite Z.mod_mul in l_odd by lia. discriminate.
Qed.
Lemma equal_2 : forall X Y n, onE X -> onE Y -> (n mod 4 = 2)%Z -> ~ (l | n)%Z -> (n ∘ X = n ∘ Y <-> 2 ∘ X = 2 ∘ Y).
Proof.
  intros X Y n HX HY D N. rewrite (diff_mul n X Y HX HY), (diff_mul 2 X Y HX HY). set (R := X ⊕ pneg Y).
  assert (HR : onE R) by (apply add_on; [exact HX|apply neg_on; exact HY]). pose proof (Z.div_mod n 4 ltac:(lia)) as Dn. rewrite D in Dn.
  split; intro E.
  - assert (E2 : (2 * n) ∘ R = pzero). { rewrite (a_mul_mul _ _ _ _ _ _ Ab) by exact HR. rewrite E. apply (a_mul_z _ _ _ _ _ _ Ab). }
    apply kern4 in E2; [|exact HR|exists (2 * (n / 4) + 1)%Z; lia|apply not_l_2; exact N].
    rewrite Dn in E. rewrite (ag_mul_add _ _ _ _ _ _ Ab) in E by exact HR. rewrite (a_period _ _ _ _ _ _ Ab 4) in E by assumption.
    rewrite (ag_0 _ _ _ _ _ _ Ab) in E. exact E.
  - replace n with (2 * (2 * (n / 4) + 1))%Z by lia. apply (a_period _ _ _ _ _ _ Ab); assumption.
Qed.

(** Coordinates: doubled points agree up to sign if the coordinates are equal or inverse. *)
Lemma pair_iff : forall M M', on M -> on M' -> ucoord M <> 0 -> ucoord M' <> 0 ->
  (ucoord M = ucoord M' \/ ucoord M * ucoord M' = 1 <-> 2 ∘ psi M = 2 ∘ psi M' \/ 2 ∘ psi M = pneg (2 ∘ psi M')).
Proof.
  intros M M' HM HM' NM NM'. pose proof (psiE M HM) as OM. pose proof (psiE M' HM') as OM'.
  rewrite <- (a_mul_neg _ _ _ _ _ _ Ab) by exact OM'. rewrite !diff_2 by (assumption || apply neg_on; assumption).
  assert (I : ucoord M * ucoord M' = 1 <-> psi M = psi M' ⊕ T2 \/ psi M = pneg (psi M') ⊕ T2).
  { destruct M' as [[u v]|]; [|exfalso; apply NM'; reflexivity]. cbn [ucoord] in *.
    pose proof (psi_inverse A c d HA Nc NS u v HM' NM') as K. rewrite (ag_comm _ _ _ _ _ _ Ab) in K.
    set (M1 := Some (1 / u, - (v / (u * u)))) in *.
    assert (H1 : on M1). { apply (mont_eq' A). apply (mont_eq A) in HM'. transitivity (v * v / (u * u * (u * u))); [field; exact NM'|]. rewrite HM'. field. exact NM'. }
    assert (U1 : 1 / u <> 0). { intro E. apply F_1_neq_0. transitivity (1 / u * u); [field; exact NM'|]. rewrite E. ring. }
    pose proof (same_u A c HA Nc NS M M1 HM H1 (fun e => False_ind _ (NM e)) (fun e => False_ind _ (U1 e))) as W. cbn [ucoord M1] in W.
    change (ucoord M1) with (1 / u) in W. rewrite K in W.
    assert (Nn : pneg (psi (Some (u, v)) ⊕ T2) = pneg (psi (Some (u, v))) ⊕ T2).
    { destruct (psi (Some (u, v))) as [x y]. cbn [pneg]. rewrite !(c_N_neg d). reflexivity. }
    rewrite Nn in W. rewrite <- W. split; intro E.
    - apply (fmul_cancel_l u); [exact NM'|]. transitivity (ucoord M * u); [ring|]. rewrite E. field. exact NM'.
    - rewrite E. field. exact NM'. }
  rewrite (same_u A c HA Nc NS M M' HM HM' (fun e => False_ind _ (NM e)) (fun e => False_ind _ (NM' e))), I. tauto.
Qed.
Lemma high_mul : forall P n, on P -> (0 <= n)%Z -> (2 | n)%Z -> ~ (l | n)%Z -> ucoord (2 • P) <> 0 -> ucoord (n • P) <> 0.
Proof.
  intros P n HP Hn D N H E. apply (k_zero A c d HA Nc NS Hd l P0 l_prime l_odd l_large on_P0 P0_high P0_l P n HP Hn D) in E. destruct E as [E|E]; contradiction.
Qed.
Lemma u_high : forall P, on P -> ucoord (2 • P) <> 0 -> ucoord P <> 0.
Proof.
  intros P HP H E. apply H. rewrite (ucoord_mul_0 A c d HA Nc NS Hd 2 P ltac:(lia) HP). apply (ucoord_0 A c d HA Nc NS Hd P HP) in E. rewrite <- z2 in E.
  change (2 * 2)%Z with (2 * 2)%Z. apply (a_period _ _ _ _ _ _ Ab); [apply psiE; exact HP|exact E].
Qed.
Theorem k_two : forall P P' n, on P -> on P' -> (0 <= n)%Z -> (n mod 4 = 2)%Z -> ~ (l | n)%Z -> ucoord (2 • P) <> 0 -> ucoord (2 • P') <> 0 ->
  (ucoord (n • P) = ucoord (n • P') <-> ucoord P = ucoord P' \/ ucoord P * ucoord P' = 1).
Proof.
  intros P P' n HP HP' Hn Dn Nl H H'. assert (D2 : (2 | n)%Z). { exists (2 * (n / 4) + 1)%Z. pose proof (Z.div_mod n 4 ltac:(lia)). lia. }
  pose proof (psiE P HP) as O. pose proof (psiE P' HP') as O'.
  rewrite (pair_iff P P' HP HP') by (apply u_high; assumption).
  rewrite (same_u A c HA Nc NS (n • P) (n • P')); try (apply (mul_on A c d HA Nc NS Hd); assumption);
    try (intro E; exfalso; revert E; apply high_mul; assumption).
  rewrite !(psi_zmul A c d HA Nc NS Hd) by assumption. rewrite <- !(a_mul_neg _ _ _ _ _ _ Ab) by exact O'.
  rewrite !(equal_2 _ _ n) by (assumption || apply neg_on; assumption). reflexivity.
Qed.
Theorem k_four : forall P P' n, on P -> on P' -> (0 <= n)%Z -> (4 | n)%Z -> ~ (l | n)%Z -> ucoord (2 • P) <> 0 -> ucoord (2 • P') <> 0 ->
  (ucoord (n • P) = ucoord (n • P') <-> ucoord (2 • P) = ucoord (2 • P') \/ ucoord (2 • P) * ucoord (2 • P') = 1).
Proof.
  intros P P' n HP HP' Hn D4 Nl H H'. assert (D2 : (2 | n)%Z) by (apply Z.divide_trans with 4%Z; [exists 2%Z; reflexivity|exact D4]).
  pose proof (psiE P HP) as O. pose proof (psiE P' HP') as O'.
  rewrite (pair_iff (2 • P) (2 • P')) by (assumption || apply (mul_on A c d HA Nc NS Hd); assumption).
  rewrite (same_u A c HA Nc NS (n • P) (n • P')); try (apply (mul_on A c d HA Nc NS Hd); assumption);
    try (intro E; exfalso; revert E; apply high_mul; assumption).
  rewrite !(psi_zmul A c d HA Nc NS Hd) by (assumption || lia). rewrite <- !(a_mul_neg _ _ _ _ _ _ Ab) by (assumption || apply zmul_on; assumption).
  rewrite !(equal_4 _ _ n) by (assumption || apply neg_on; assumption). reflexivity.
Qed.
Theorem k_partner : forall P, on P -> ucoord (2 • P) <> 0 -> exists P', on P' /\ ucoord (2 • P') <> 0 /\ ucoord (2 • P) * ucoord (2 • P') = 1.
Proof.
  intros P HP H. pose proof (psiE P HP) as O. pose proof (c_on_T4 d) as HT. pose proof (add_on _ _ O HT) as OQ.
  destruct (psi P ⊕ T4) as [x y] eqn:EQ. destruct (psi_surj A c d HA Nc NS Hd x y OQ) as (P' & HP' & E'). exists P'. split; [exact HP'|].
  assert (D : 2 ∘ psi P' = 2 ∘ psi P ⊕ T2).
  { rewrite E', <- EQ. rewrite (a_mul_padd _ _ _ _ _ _ Ab) by assumption. f_equal. rewrite zmul_nonneg by lia. exact (c_T4_2 d). }
  assert (D4 : 2 ∘ (2 ∘ psi P) = 2 ∘ (2 ∘ psi P')). { symmetry. apply diff_2; [apply zmul_on; apply psiE; exact HP'|apply zmul_on; exact O|]. right. exact D. }
  assert (H' : ucoord (2 • P') <> 0).
  { intro E. apply H. apply (ucoord_mul_0 A c d HA Nc NS Hd) in E; [|lia|exact HP']. apply (ucoord_mul_0 A c d HA Nc NS Hd); [lia|exact HP|].
    rewrite (a_mul_mul _ _ _ _ _ _ Ab) in E by (apply psiE; exact HP'). rewrite (a_mul_mul _ _ _ _ _ _ Ab) by exact O. rewrite D4. exact E. }
  split; [exact H'|].
  assert (W : ucoord (2 • P) = ucoord (2 • P') \/ ucoord (2 • P) * ucoord (2 • P') = 1).
  { apply pair_iff; try (apply (mul_on A c d HA Nc NS Hd); assumption); try assumption. left. rewrite !(psi_zmul A c d HA Nc NS Hd) by (assumption || lia). exact D4. }
  destruct W as [W|W]; [exfalso|exact W].
  apply (same_u A c HA Nc NS) in W; try (apply (mul_on A c d HA Nc NS Hd); assumption); try (intro E; exfalso; contradiction).
  rewrite !(psi_zmul A c d HA Nc NS Hd) in W by (assumption || lia). rewrite D in W. destruct (2 ∘ psi P) as [a b] eqn:Eab. rewrite (c_N_neg d) in W. cbn [pneg] in W.
  assert (Oab : onE (a, b)) by (rewrite <- Eab; apply zmul_on; exact O).
  assert (Z4 : 4 ∘ psi P <> pzero). { intro E. apply H. apply (ucoord_mul_0 A c d HA Nc NS Hd); [lia|exact HP|exact E]. }
  destruct W as [W|W].
  - injection W as Wa Wb. apply Z4. change 4%Z with (2 * 2)%Z. rewrite (a_mul_mul _ _ _ _ _ _ Ab) by exact O. rewrite Eab.
    assert (a = 0) by (apply fopp_eq_self; exact Wa). assert (b = 0) by (apply fopp_eq_self; exact Wb). subst a b.
    exfalso. apply F_1_neq_0. apply on_curve_eq in Oab. transitivity (- (1 * 0 * 0 + 0 * 0 - 1)); [ring|]. rewrite <- Oab. ring.
  - assert (Wb : b = - b) by (injection W; intros; assumption). assert (B0 : b = 0) by (apply fopp_eq_self; exact Wb). subst b.
    clear W Wb. destruct (psi P) as [x0 y0] eqn:E0. rewrite z2, (c_dbl_eq d x0 y0 O) in Eab. apply (f_equal snd) in Eab. cbn [snd] in Eab.
    pose proof (c_yx_nz d (n1 A c d HA Hd) x0 y0 O) as N. pose proof (c_E_nz d ND x0 y0 O) as NE. apply N.
    transitivity ((y0 * y0 - x0 * x0) / (of_Z 2 - (y0 * y0 + x0 * x0)) * (of_Z 2 - (y0 * y0 + x0 * x0))); [field; exact NE|]. rewrite Eab. ring.
Qed.
End Known.
