(** The maps between the curves: which points they identify and which they reach (for C82). *)
Require Import ZArith Znumtheory List Bool Lia Ring Field.
From Verif Require Import Base SpecParams SpecField SpecCurve SpecDecaf FieldTheory EdwardsTheory CurveTheory PhiHat EdSigns
  Primes TwistedProofs AbGroup Order GroupOrder TwistedMain EdwardsMain DecafTheory DecafGroup DocsMain.
Import ListNotations.
Open Scope F_scope.
Local Opaque fadd fsub fmul fopp fdiv finv fpow of_Z padd pmul zmul pzero SpecCurve.G D T4 ell.
Local Notation "P ⊕ Q" := (padd ed_a ed_d P Q) (at level 50, left associativity).
Local Notation "n • P" := (pmul ed_a ed_d n P) (at level 40).

(** ** From Ed448-Goldilocks to the twisted curve *)
Lemma pt_T4 : forall x y, (x, y) ⊕ T4 = (y, - x).
Proof.
  intros x y. Local Transparent padd T4. unfold padd, T4, ed_a. apply pt_eq; apply fdiv_val; try ring.
  - replace (1 + ed_d * x * 1 * y * 0) with (1 : F) by ring. exact F_1_neq_0.
  - replace (1 - ed_d * x * 1 * y * 0) with (1 : F) by ring. exact F_1_neq_0.
Qed.
Local Opaque padd T4.
Lemma four_torsion_ed : forall W, on_ed W -> 4 • W = pzero -> W = pzero \/ W = (0, - (1)) \/ W = T4 \/ W = T4 ⊕ (0, - (1)).
Proof.
  intros W H E. rewrite (pmul_4 _ _ _ ed_group) in E by exact H. pose proof (eg_add _ _ _ ed_group _ _ H H) as H2.
  assert (T2 : zmul ed_a ed_d 2 T4 = (0, - (1))) by (rewrite zmul_nonneg by lia; exact T4_2).
  destruct (two_torsion _ H2 E) as [X|X].
  - destruct (two_torsion _ H X) as [Y|Y]; [left; exact Y|right; left; rewrite Y; exact T2].
  - rewrite T2 in X. pose proof on_T4 as O4. pose proof (eg_neg _ _ _ ed_group _ O4) as On. pose proof (eg_add _ _ _ ed_group _ _ H On) as OV.
    assert (T22 : T4 ⊕ T4 = (0, - (1))) by (rewrite <- (pmul_2 ed_a ed_d T4); exact T4_2).
    assert (ON : on_ed (0, - (1))) by (rewrite <- T22; apply (eg_add _ _ _ ed_group); assumption).
    assert (V : (W ⊕ pneg T4) ⊕ (W ⊕ pneg T4) = pzero).
    { rewrite (g_swap _ _ _ ed_group) by assumption. rewrite X, padd_pneg, T22.
      apply (g_neg_r _ _ _ ed_group). exact ON. }
    assert (EW : W = T4 ⊕ (W ⊕ pneg T4)).
    { rewrite padd_comm. rewrite (g_assoc _ _ _ ed_group) by assumption. rewrite (padd_comm _ _ (pneg _)), (g_neg_r _ _ _ ed_group) by assumption.
      rewrite padd_0_r. reflexivity. }
    destruct (two_torsion _ OV V) as [Y|Y]; rewrite Y in EW.
    + right; right; left. rewrite padd_0_r in EW. exact EW.
    + right; right; right. rewrite T2 in EW. exact EW.
Qed.
Lemma opp_div : forall a b c d : F, b <> 0 -> c = - a -> d = - b -> a / b = c / d.
Proof. intros a b c d N -> ->. field. split; [|exact N]. intro Z. apply N. apply fopp_0_iff. exact Z. Qed.
Theorem phi_fibre : forall x y x' y', on_ed (x, y) -> on_ed (x', y') ->
  (phi (x, y) = phi (x', y') <-> (x', y') = (x, y) \/ (x', y') = (- x, - y) \/ (x', y') = (y, - x) \/ (x', y') = (- y, x)).
Proof.
  intros x y x' y' H H'. split.
  - intro E. apply (f_equal phihat) in E. rewrite !phihat_phi in E by assumption.
    pose proof (eg_neg _ _ _ ed_group _ H) as Hn. pose proof (eg_add _ _ _ ed_group _ _ H' Hn) as HW.
    assert (W : 4 • ((x', y') ⊕ pneg (x, y)) = pzero).
    { rewrite <- (zmul_nonneg ed_a ed_d 4) by lia. rewrite (a_mul_padd _ _ _ _ _ _ ed_ab) by assumption. rewrite (a_mul_neg _ _ _ _ _ _ ed_ab) by assumption.
      rewrite !zmul_nonneg by lia. rewrite E. apply (g_neg_r _ _ _ ed_group). apply on_pmul. exact H'. }
    assert (EP : (x', y') = (x, y) ⊕ ((x', y') ⊕ pneg (x, y))).
    { rewrite (padd_comm _ _ (x, y)). rewrite (g_assoc _ _ _ ed_group) by assumption. rewrite (padd_comm _ _ (pneg _)), (g_neg_r _ _ _ ed_group) by assumption.
      rewrite padd_0_r. reflexivity. }
    destruct (four_torsion_ed _ HW W) as [X|[X|[X|X]]]; rewrite X in EP.
    + left. rewrite padd_0_r in EP. exact EP.
    + right; left. rewrite pt_N_neg in EP. exact EP.
    + right; right; left. rewrite pt_T4 in EP. exact EP.
    + right; right; right. rewrite <- (g_assoc _ _ _ ed_group) in EP; [|assumption|exact on_T4|].
      * rewrite pt_T4, pt_N_neg in EP. rewrite EP. apply pt_eq; ring.
      * rewrite <- T4_2. apply on_pmul. exact on_T4.
  - pose proof (ed_yx_nz x y H) as N. unfold phi. generalize (of_Z 2) as t. intro t. intros [C|[C|[C|C]]]; apply pair_equal_spec in C; destruct C as [-> ->]; [reflexivity| | |]; apply pt_eq.
    + f_equal; ring.
    + f_equal; ring.
    + apply opp_div; [exact N|ring|ring].
    + f_equal; ring.
    + apply opp_div; [exact N|ring|ring].
    + f_equal; ring.
Qed.
Lemma phi_four : forall P, on_ed P -> 4 • P = pzero -> phi P = pzero.
Proof.
  intros P H E. destruct P as [x y]. rewrite <- phi_zero. rewrite zero_pair. symmetry. apply phi_fibre; [rewrite <- zero_pair; exact (eg_0 _ _ _ ed_group)|exact H|].
  destruct (four_torsion_ed _ H E) as [X|[X|[X|X]]].
  - left. rewrite X. exact zero_pair.
  - right; left. rewrite X. apply pt_eq; ring.
  - right; right; left. rewrite X. Local Transparent T4. unfold T4. apply pt_eq; ring.
  - right; right; right. rewrite X. unfold T4. rewrite pt_N_neg. apply pt_eq; ring.
Qed.
Local Opaque T4.
(** 4 has the inverse (l + 1) / 4 modulo l. *)
Definition quarter : Z := Eval vm_compute in ((ell + 1) / 4)%Z.
Lemma quarter_ok : (4 * quarter = ell + 1)%Z. Proof. vm_compute. reflexivity. Qed.
Lemma quarter_pos : (0 <= quarter)%Z. Proof. vm_compute. discriminate. Qed.
Local Opaque quarter.
Lemma four_quarters : forall a d S, edw_group a d S -> forall P, S P -> pmul a d ell P = pzero -> pmul a d 4 (pmul a d quarter P) = P.
Proof.
  intros a d S GS P H E. pose proof quarter_pos. pose proof ell_nonneg. rewrite <- (pmul_mul _ _ _ GS) by (lia || exact H). rewrite quarter_ok.
  rewrite (pmul_add _ _ _ GS) by (lia || exact H). rewrite E, pmul_1. apply padd_0_l.
Qed.
Theorem phi_image : forall Q, even_tw Q -> ((exists P, on_ed P /\ phi P = Q) <-> pmul tw_a tw_d ell Q = pzero).
Proof.
  intros Q H. pose proof ell_nonneg. split.
  - intros (P & O & <-). rewrite <- phi_mul by assumption. apply phi_four; [apply on_pmul; exact O|]. rewrite pmul_swap by (lia || exact O). exact (ell_four P O).
  - intro E. exists (phihat (pmul tw_a tw_d quarter Q)). pose proof (pmul_S _ _ _ tw_group quarter Q H) as K. split; [apply phihat_on; exact K|].
    rewrite phi_phihat by exact K. exact (four_quarters _ _ _ tw_group Q H E).
Qed.

(** ** Back *)
Theorem phihat_fibre : forall P Q, even_tw P -> even_tw Q -> (phihat P = phihat Q <-> same_class P Q).
Proof.
  intros P Q HP HQ. pose proof even_N as HN. split.
  - intro E. apply (f_equal phi) in E. rewrite !phi_phihat in E by assumption. pose proof (even_neg _ HQ) as Hn. pose proof (even_add _ _ HP Hn) as HW.
    assert (W : pmul tw_a tw_d 4 (padd tw_a tw_d P (pneg Q)) = pzero).
    { rewrite <- (zmul_nonneg tw_a tw_d 4) by lia. rewrite (a_mul_padd _ _ _ _ _ _ tw_ab) by assumption. rewrite (a_mul_neg _ _ _ _ _ _ tw_ab) by assumption.
      rewrite !zmul_nonneg by lia. rewrite E. apply (g_neg_r _ _ _ tw_group). exact (pmul_S _ _ _ tw_group 4 Q HQ). }
    assert (EP : P = padd tw_a tw_d Q (padd tw_a tw_d P (pneg Q))).
    { rewrite padd_comm. rewrite (g_assoc _ _ _ tw_group) by assumption. rewrite (padd_comm _ _ (pneg _)), (g_neg_r _ _ _ tw_group) by assumption.
      rewrite padd_0_r. reflexivity. }
    destruct (four_torsion_tw _ HW W) as [X|X]; rewrite X in EP; [left|right; exact EP]. rewrite padd_0_r in EP. exact EP.
  - intros [E|E]; rewrite E; [reflexivity|]. rewrite phihat_add by assumption. rewrite phihat_N. apply padd_0_r.
Qed.
Lemma class_coords : forall x y x' y', same_class (x', y') (x, y) <-> (x', y') = (x, y) \/ (x', y') = (- x, - y).
Proof. intros x y x' y'. unfold same_class. rewrite padd_N. reflexivity. Qed.
Theorem phihat_image : forall R, on_ed R -> ((exists Q, even_tw Q /\ phihat Q = R) <-> ell • R = pzero).
Proof.
  intros R H. split.
  - intros (Q & HQ & <-). exact (ell_phihat Q HQ).
  - intro E. exists (phi (quarter • R)). pose proof (on_pmul quarter R H) as K. split; [apply phi_even; exact K|].
    rewrite phihat_phi by exact K. exact (four_quarters _ _ _ ed_group R H E).
Qed.

(** ** To Curve448 *)
Definition uc (P : point) : F := snd P * snd P * finv (fst P * fst P).
Lemma uc_0 : forall x y, x * y = 0 -> uc (x, y) = 0.
Proof.
  intros x y E. unfold uc. cbn [fst snd]. destruct (fmul_integral _ _ E) as [-> | ->]; [|ring].
  replace (0 * 0) with (0 : F) by ring. rewrite finv_0. ring.
Qed.
Lemma uc_nz : forall x y, x <> 0 -> uc (x, y) * (x * x) = y * y.
Proof.
  intros x y N. unfold uc. cbn [fst snd]. pose proof (finv_l _ (fmul_nonzero _ _ N N)) as I. transitivity (y * y * (finv (x * x) * (x * x))); [ring|]. rewrite I. ring.
Qed.
Lemma uc_0_iff : forall x y, uc (x, y) = 0 <-> x * y = 0.
Proof.
  intros x y. split; [|apply uc_0]. intro E. destruct (F_eq_dec x 0) as [-> | N]; [ring|]. pose proof (uc_nz x y N) as K. rewrite E in K.
  assert (Y : y = 0) by (apply fsq_0; rewrite <- K; ring). rewrite Y. ring.
Qed.
Lemma quad : forall x y, on_ed (x, y) -> x <> 0 -> x * x * (1 + uc (x, y)) = 1 + ed_d * uc (x, y) * (x * x) * (x * x).
Proof.
  intros x y H N. pose proof (ed_eq x y H) as E. pose proof (uc_nz x y N) as K. set (u := uc (x, y)) in *.
  transitivity (x * x + u * (x * x)); [ring|]. rewrite K. transitivity (1 + ed_d * x * x * y * y); [rewrite E; ring|]. transitivity (1 + ed_d * (x * x) * (y * y)); [ring|].
  rewrite <- K. ring.
Qed.
Theorem uc_fibre : forall x y x' y', on_ed (x, y) -> on_ed (x', y') ->
  (uc (x, y) = uc (x', y') <-> (x * x = x' * x' /\ y * y = y' * y') \/ (x * y = 0 /\ x' * y' = 0)).
Proof.
  intros x y x' y' H H'. split.
  - intro E. destruct (F_eq_dec (x * y) 0) as [Z|Z].
    { right. split; [exact Z|]. apply uc_0_iff. rewrite <- E. apply uc_0_iff. exact Z. }
    assert (Z' : x' * y' <> 0). { intro K. apply Z. apply uc_0_iff. rewrite E. apply uc_0_iff. exact K. }
    destruct (fmul_nonzero_inv _ _ Z) as [N Ny]. destruct (fmul_nonzero_inv _ _ Z') as [N' _]. left.
    pose proof (quad x y H N) as Q. pose proof (quad x' y' H' N') as Q'. pose proof (uc_nz x y N) as K. pose proof (uc_nz x' y' N') as K'. rewrite <- E in Q', K'.
    set (u := uc (x, y)) in *. destruct (F_eq_dec (x * x) (x' * x')) as [X|X]; [split; [exact X|]; rewrite <- K, <- K', X; reflexivity|].
    exfalso. assert (J : (x * x - x' * x') * (1 + u - ed_d * u * (x * x + x' * x')) = 0).
    { transitivity (x * x * (1 + u) - x' * x' * (1 + u) - ed_d * u * (x * x) * (x * x) + ed_d * u * (x' * x') * (x' * x')); [ring|]. rewrite Q, Q'. ring. }
    destruct (fmul_integral _ _ J) as [J1|J1]; [apply X; apply fsub_0_eq; exact J1|]. apply (proj1 (fsub_0_eq _ _)) in J1.
    assert (O : ed_d * ((y * x') * (y * x')) = 1).
    { transitivity (ed_d * (u * (x * x)) * (x' * x')); [rewrite K; ring|]. transitivity (x * x * (ed_d * u * (x * x + x' * x')) - ed_d * u * (x * x) * (x * x)); [ring|].
      rewrite <- J1, Q. ring. }
    apply nsq_ed_d. apply (square_mul_cancel _ ((y * x') * (y * x'))); [|apply square_sq|rewrite O; exact square_1].
    apply fmul_nonzero; apply fmul_nonzero; assumption.
  - intros [[X Y]|[Z Z']]; [unfold uc; cbn [fst snd]; rewrite X, Y; reflexivity|]. rewrite !uc_0 by assumption. reflexivity.
Qed.
Definition mont_A : F := of_Z 156326.
Lemma mont_A_d : mont_A = 1 + 1 - (1 + 1 + 1 + 1) * ed_d.
Proof. unfold mont_A, ed_d. rewrite <- !of_Z_add, <- of_Z_mul, <- of_Z_sub. reflexivity. Qed.
Theorem uc_image : forall u, ((exists P, on_ed P /\ uc P = u) <-> is_square u /\ is_square (u * u * u + mont_A * (u * u) + u)).
Proof.
  intro u. split.
  - intros ([x y] & H & <-). set (u := uc (x, y)). destruct (F_eq_dec x 0) as [X|N].
    { assert (Z : u = 0) by (unfold u; apply uc_0; rewrite X; ring). rewrite Z. replace (0 * 0 * 0 + mont_A * (0 * 0) + 0) with (0 : F) by ring. split; exact square_0. }
    pose proof (quad x y H N) as Q. fold u in Q. assert (SU : is_square u). { unfold u, uc. cbn [fst snd]. apply square_mul; [apply square_sq|]. apply square_inv. apply square_sq. }
    split; [exact SU|]. replace (u * u * u + mont_A * (u * u) + u) with (u * (u * u + mont_A * u + 1)) by ring. apply square_mul; [exact SU|].
    exists ((1 + 1) * ed_d * u * (x * x) - (1 + u)). rewrite mont_A_d.
    transitivity ((1 + 1 + 1 + 1) * ed_d * u * (ed_d * u * (x * x) * (x * x)) - (1 + 1 + 1 + 1) * ed_d * u * (x * x * (1 + u)) + (1 + u) * (1 + u)); [ring|rewrite Q; ring].
  - intros [[t T] M]. destruct (F_eq_dec u 0) as [Z|N].
    { exists T4. split; [exact on_T4|]. Local Transparent T4. unfold T4. rewrite Z. apply uc_0. ring. }
    assert (M1 : is_square (u * u + mont_A * u + 1)).
    { apply (square_mul_cancel _ u N); [exists t; exact T|]. replace ((u * u + mont_A * u + 1) * u) with (u * u * u + mont_A * (u * u) + u) by ring. exact M. }
    destruct M1 as [s E]. rewrite mont_A_d in E. pose proof nz_ed_d as Nd. assert (N2 : (1 + 1 : F) <> 0). { pose proof F_2_neq_0 as K. change 2%Z with (1 + 1)%Z in K. rewrite of_Z_add in K. exact K. }
    assert (ND : (1 + 1) * (ed_d * u) <> 0) by (apply fmul_nonzero; [exact N2|apply fmul_nonzero; assumption]).
    assert (E' : s * s = (1 + u) * (1 + u) - (1 + 1 + 1 + 1) * ed_d * u) by (rewrite E; ring).
    assert (root : forall r, r * r = s * s -> let X := ((1 + u) + r) * finv ((1 + 1) * (ed_d * u)) in X * (1 + u) = 1 + ed_d * u * X * X).
    { intros r R X. assert (DX : (1 + 1) * (ed_d * u) * X = (1 + u) + r).
      { unfold X. transitivity (((1 + u) + r) * (finv ((1 + 1) * (ed_d * u)) * ((1 + 1) * (ed_d * u)))); [ring|]. rewrite finv_l by exact ND. ring. }
      apply (fmul_cancel_l ((1 + 1) * ((1 + 1) * (ed_d * u)))); [apply fmul_nonzero; assumption|].
      transitivity ((1 + 1) * (1 + u) * ((1 + 1) * (ed_d * u) * X)); [ring|].
      transitivity ((1 + 1 + 1 + 1) * ed_d * u + ((1 + 1) * (ed_d * u) * X) * ((1 + 1) * (ed_d * u) * X)); [|ring]. rewrite DX.
      transitivity ((1 + 1 + 1 + 1) * ed_d * u + (1 + u) * (1 + u) + (1 + 1) * (1 + u) * r + r * r); [rewrite R, E'; ring|ring]. }
    set (i := finv ((1 + 1) * (ed_d * u))) in *. set (X1 := ((1 + u) + s) * i). set (X2 := ((1 + u) + (- s)) * i).
    assert (P12 : ed_d * (u * (X1 * X2)) = 1).
    { unfold X1, X2. transitivity (ed_d * u * i * i * ((1 + u) * (1 + u) - s * s)); [ring|]. rewrite E'.
      transitivity ((i * ((1 + 1) * (ed_d * u))) * (i * ((1 + 1) * (ed_d * u)))); [ring|]. unfold i. rewrite finv_l by exact ND. ring. }
    assert (found : exists X, is_square X /\ X * (1 + u) = 1 + ed_d * u * X * X /\ X <> 0).
    { assert (N1 : X1 <> 0 /\ X2 <> 0).
      { split; intro K; rewrite K in P12; apply F_1_neq_0; rewrite <- P12; ring. }
      destruct (square_dec X1) as [S1|S1]; [exists X1; split; [exact S1|]; split; [apply (root s); reflexivity|apply N1]|].
      destruct (square_dec X2) as [S2|S2]; [exists X2; split; [exact S2|]; split; [apply (root (- s)); ring|apply N1]|].
      exfalso. apply nsq_ed_d. apply (square_mul_cancel _ (u * (X1 * X2))).
      - intro K. apply F_1_neq_0. rewrite <- P12, K. ring.
      - apply square_mul; [exists t; exact T|apply nonsquare_mul; assumption].
      - rewrite P12. exact square_1. }
    destruct found as (X & [x Ex] & R & NX). exists (x, t * x). assert (Nx : x <> 0) by (intro K; apply NX; rewrite <- Ex, K; ring). split.
    + unfold on_ed, on_curve, ed_a. transitivity (x * x + t * t * (x * x)); [ring|]. rewrite T, Ex. transitivity (X * (1 + u)); [ring|]. rewrite R.
      transitivity (1 + ed_d * (t * t) * (x * x) * (x * x)); [rewrite T, Ex; ring|rewrite <- Ex; ring].
    + apply (fmul_cancel_l (x * x)); [apply fmul_nonzero; assumption|]. transitivity (uc (x, t * x) * (x * x)); [ring|]. rewrite uc_nz by exact Nx. rewrite <- T. ring.
Qed.
