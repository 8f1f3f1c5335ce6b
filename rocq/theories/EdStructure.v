(** Complete Edwards curves x^2 + y^2 = 1 + d x^2 y^2 over F with 1 - d not a square: the structure of the group, given a point
    of known order.  Used with the curves that Curve448 and its twist are isomorphic to (MontOrder.v). *)
Require Import ZArith Znumtheory List Bool Lia Ring Field.
From Verif Require Import SpecParams SpecField SpecCurve FieldTheory NumTheory EdwardsTheory CurveTheory EdSigns Order AbGroup GroupOrder.
Import ListNotations.
Open Scope F_scope.
Local Opaque fadd fsub fmul fopp fdiv finv fpow of_Z.

Section Curve.
Variable d : F.
Hypothesis ND : ~ is_square d.
Hypothesis N1 : ~ is_square (1 - d).
Local Notation on := (on_curve 1 d).
Local Notation "P ⊕ Q" := (padd 1 d P Q) (at level 50, left associativity).
Local Notation "n • P" := (pmul 1 d n P) (at level 40).
Local Notation "n ∘ P" := (zmul 1 d n P) (at level 40).
Let Gr : edw_group 1 d on := complete_group d ND.

Lemma c_eq : forall x y, on (x, y) -> d * x * x * y * y = x * x + y * y - 1.
Proof. intros x y H. apply on_curve_eq in H. rewrite H. ring. Qed.
Lemma c_yx_nz : forall x y, on (x, y) -> y * y - x * x <> 0.
Proof.
  intros x y H E. apply c_eq in H. assert (Y : y * y = x * x) by (apply fsub_0_eq; exact E).
  apply N1. exists (d * (x * x) - 1).
  assert (X : d * (x * x) * (x * x) = of_Z 2 * (x * x) - 1).
  { rewrite <- Y at 2. transitivity (d * x * x * y * y); [ring|]. rewrite H, Y. ring. }
  transitivity (d * (d * (x * x) * (x * x)) - of_Z 2 * d * (x * x) + 1); [ring|]. rewrite X. ring.
Qed.
Lemma c_C_nz : forall x y, on (x, y) -> y * y + x * x <> 0.
Proof.
  intros x y H E. pose proof (complete_den d (x, y) (x, y) ND H H) as [N _]. apply c_eq in H. apply N.
  transitivity (y * y + x * x); [ring [H]|exact E].
Qed.
Lemma c_E_nz : forall x y, on (x, y) -> of_Z 2 - (y * y + x * x) <> 0.
Proof.
  intros x y H. pose proof (complete_den d (x, y) (x, y) ND H H) as [_ N]. apply c_eq in H.
  intro E. apply N. transitivity (of_Z 2 - (y * y + x * x)); [ring [H]|exact E].
Qed.
Lemma c_dbl_eq : forall x y, on (x, y) -> (x, y) ⊕ (x, y) = (of_Z 2 * x * y / (y * y + x * x), (y * y - x * x) / (of_Z 2 - (y * y + x * x))).
Proof. intros x y H. apply c_eq in H. unfold padd. apply pt_eq; apply fdiv_cong; try ring; ring [H]. Qed.
Lemma c_same_sign : forall x x' y, on (x, y) -> on (x', y) -> fodd x = fodd x' -> x = x'.
Proof.
  intros x x' y H H' S. assert (Q : x * x = x' * x').
  { pose proof (on_curve_eq _ _ _ _ H) as K. pose proof (on_curve_eq _ _ _ _ H') as K'.
    assert (N : 1 - d * (y * y) <> 0).
    { intro E. apply ND. assert (Ny : y <> 0). { intro Y. rewrite Y in E. apply F_1_neq_0. rewrite <- E. ring. }
      exists (1 / y). apply (fmul_cancel_l (y * y)); [apply fmul_nonzero; exact Ny|]. transitivity (1 : F); [field; exact Ny|].
      transitivity (1 - (1 - d * (y * y))); [rewrite E; ring|ring]. }
    apply (fmul_cancel_l (1 - d * (y * y))); [exact N|].
    transitivity (1 - y * y); [transitivity (1 * (x * x) - d * x * x * y * y); [ring|rewrite K; ring]|
      symmetry; transitivity (1 * (x' * x') - d * x' * x' * y * y); [ring|rewrite K'; ring]]. }
  destruct (fsq_eq _ _ Q) as [E|E]; [exact E|].
  destruct (F_eq_dec x' 0) as [Z|N]; [rewrite E, Z; ring|]. rewrite E, fodd_opp in S by exact N. destruct (fodd x'); discriminate.
Qed.

(** ** Torsion *)
Lemma c_on_T4 : on T4. Proof. unfold on_curve, T4. ring. Qed.
Lemma c_T4_2 : 2 • T4 = (0, - (1)).
Proof.
  rewrite pmul_2. unfold T4. unfold padd. apply pt_eq; apply fdiv_val; try ring.
  - replace (1 + d * 1 * 1 * 0 * 0) with (1 : F) by ring. exact F_1_neq_0.
  - replace (1 - d * 1 * 1 * 0 * 0) with (1 : F) by ring. exact F_1_neq_0.
Qed.
Lemma c_N_neg : forall x y, (x, y) ⊕ (0, - (1)) = (- x, - y).
Proof.
  intros x y. unfold padd. apply pt_eq; apply fdiv_val; try ring.
  - replace (1 + d * x * 0 * y * - (1)) with (1 : F) by ring. exact F_1_neq_0.
  - replace (1 - d * x * 0 * y * - (1)) with (1 : F) by ring. exact F_1_neq_0.
Qed.
Local Opaque padd.
Lemma c_T4_3 : 3 • T4 = (- (1), 0).
Proof. change 3%Z with (2 + 1)%Z. rewrite pmul_succ by lia. rewrite c_T4_2. unfold T4. rewrite c_N_neg. apply pt_eq; ring. Qed.
Lemma c_T4_4 : 4 • T4 = pzero.
Proof.
  change 4%Z with (3 + 1)%Z. rewrite pmul_succ by lia. rewrite c_T4_3. change (- (1), 0) with (pneg T4).
  apply (g_neg_r _ _ _ Gr). exact c_on_T4.
Qed.
Lemma c_T4_order : forall r, (0 < r < 4)%Z -> r • T4 <> pzero.
Proof.
  intros r H E. assert (C : (r = 1 \/ r = 2 \/ r = 3)%Z) by lia. destruct C as [->|[->| ->]].
  - rewrite pmul_1 in E. exact (one_neq_zero_pt _ E).
  - rewrite c_T4_2 in E. apply pt_0_eq in E. destruct E as [_ E]. apply F_2_neq_0.
    transitivity (1 - - (1)); [ring|]. rewrite E. ring.
  - rewrite c_T4_3 in E. apply pt_0_eq in E. destruct E as [E _]. apply F_1_neq_0. apply fopp_0_iff. exact E.
Qed.
Lemma c_two_torsion_pt : forall Q, on Q -> Q ⊕ Q = pzero -> Q = pzero \/ Q = (0, - (1)).
Proof.
  intros [x y] H E. apply (g_neg_unique _ _ _ Gr) in E; try exact H. cbn [pneg] in E. injection E as E.
  assert (X : x = 0) by (apply fopp_eq_self; exact E). subst x. unfold on_curve in H.
  assert (Y : y * y = 1 * 1). { transitivity (1 * (0 * 0) + y * y); [ring|]. rewrite H. ring. }
  apply fsq_eq in Y. destruct Y as [->| ->]; [left; reflexivity|right; reflexivity].
Qed.

(** ** The group *)
Local Opaque pmul zmul T4.
Lemma c_ab : abgroup point on (padd 1 d) pneg pzero (zmul 1 d).
Proof.
  constructor.
  - exact (eg_0 _ _ _ Gr).
  - exact (eg_add _ _ _ Gr).
  - exact (eg_neg _ _ _ Gr).
  - apply padd_comm.
  - intros x y w Hx Hy Hw. exact (g_assoc _ _ _ Gr x y w Hx Hy Hw).
  - apply padd_0_l.
  - intros x Hx. exact (g_neg_r _ _ _ Gr x Hx).
  - intros n x Hx. exact (zmul_S _ _ _ Gr n x Hx).
  - intro x. rewrite zmul_nonneg by lia. apply pmul_0.
  - intro x. rewrite zmul_nonneg by lia. apply pmul_1.
  - intros m n x Hx. exact (zmul_add _ _ _ Gr m n x Hx).
Qed.
Lemma c_z_T4_4 : 4 ∘ T4 = pzero.
Proof. rewrite zmul_nonneg by lia. exact c_T4_4. Qed.
Lemma c_T_0 : forall n, n ∘ T4 = pzero -> (4 | n)%Z.
Proof.
  intros n E. assert (R : forall r, (0 < r < 4)%Z -> r ∘ T4 <> pzero). { intros r Hr. rewrite zmul_nonneg by lia. apply c_T4_order. exact Hr. }
  exact (a_order _ _ _ _ _ _ c_ab 4 n T4 ltac:(lia) c_on_T4 c_z_T4_4 R E).
Qed.
Lemma c_two_torsion : forall Q, on Q -> Q ⊕ Q = pzero -> Q = pzero \/ Q = 2 ∘ T4.
Proof.
  intros Q H E. destruct (c_two_torsion_pt Q H E) as [->| ->]; [left; reflexivity|right]. rewrite zmul_nonneg by lia. symmetry. exact c_T4_2.
Qed.
Lemma c_odd_T_y : forall c, snd ((2 * c + 1) ∘ T4) = 0.
Proof.
  intro c. rewrite (a_mod _ _ _ _ _ _ c_ab 4 _ T4 ltac:(lia) c_on_T4 c_z_T4_4).
  assert ((2 * c + 1) mod 4 = 1 \/ (2 * c + 1) mod 4 = 3)%Z as [-> | ->].
  { pose proof (Z.div_mod (2 * c + 1) 4 ltac:(lia)). pose proof (Z.mod_pos_bound (2 * c + 1) 4 ltac:(lia)). lia. }
  - rewrite zmul_nonneg by lia. rewrite pmul_1. reflexivity.
  - rewrite zmul_nonneg by lia. rewrite c_T4_3. reflexivity.
Qed.
Lemma c_not_odd : forall Q c, on Q -> Q ⊕ Q <> (2 * c + 1) ∘ T4.
Proof.
  intros [x y] c HL T. apply (f_equal snd) in T. rewrite c_odd_T_y in T. rewrite c_dbl_eq in T by exact HL. cbn [snd] in T.
  pose proof (c_yx_nz x y HL) as N. pose proof (c_E_nz x y HL) as NE. apply N.
  transitivity ((y * y - x * x) / (of_Z 2 - (y * y + x * x)) * (of_Z 2 - (y * y + x * x))); [field; exact NE|]. rewrite T. ring.
Qed.
Lemma c_enc_inj : forall Q R, on Q -> on R -> enc Q = enc R -> Q = R.
Proof.
  intros [x y] [x' y'] H H' E. unfold enc in E. cbn [fst snd] in E. injection E as -> E. apply pt_eq; [|reflexivity].
  apply (c_same_sign _ _ y'); assumption.
Qed.

Variables (l : Z) (G : point).
Hypothesis l_prime : prime l.
Hypothesis l_odd : (l mod 2 = 1)%Z.
Hypothesis l_large : (2 * p < 12 * l)%Z.
Hypothesis on_G : on G.
Hypothesis G_nz : G <> pzero.
Hypothesis G_l : l ∘ G = pzero.
Lemma c_l_pos : (0 < l)%Z. Proof. destruct l_prime. lia. Qed.
Lemma c_G_0 : forall n, n ∘ G = pzero -> (l | n)%Z.
Proof. intros n E. exact (a_prime_order _ _ _ _ _ _ c_ab l n G l_prime on_G G_nz G_l E). Qed.
Lemma c_universe : exists u : list (F * bool), (forall Q, In (enc Q) u) /\ (Z.of_nat (length u) < 12 * l)%Z.
Proof.
  pose proof p_pos as PP. assert (exists pn, Z.of_nat pn = p) as [pn Hpn] by (exists (Z.to_nat p); apply Z2Nat.id; lia).
  exists (list_prod (all_F pn) [true; false]). split.
  - intro Q. unfold enc. apply in_prod; [apply all_F_in; exact Hpn|]. destruct (fodd (fst Q)); cbn; auto.
  - unfold all_F. rewrite prod_length, map_length, seq_length. cbn [length]. lia.
Qed.
Theorem c_kernel : forall P n, on P -> (4 | n)%Z -> (n ∘ P = pzero <-> (l | n)%Z \/ 4 ∘ P = pzero).
Proof.
  intros P n HP D. destruct c_universe as (u & Hu & Lu).
  exact (a_kernel4 _ _ _ _ _ _ c_ab l G T4 on_G c_on_T4 c_l_pos l_odd G_l c_G_0 c_z_T4_4 c_T_0 c_two_torsion c_not_odd
    _ enc_dec enc u c_enc_inj Hu Lu l_prime P n HP D).
Qed.
Theorem c_count : exists L : list point, NoDup L /\ (forall P, In P L <-> on P) /\ Z.of_nat (length L) = (4 * l)%Z.
Proof.
  destruct c_universe as (u & Hu & Lu).
  exact (a_count _ _ _ _ _ _ c_ab l G T4 on_G c_on_T4 c_l_pos l_odd G_l c_G_0 c_z_T4_4 c_T_0 c_two_torsion c_not_odd
    _ enc_dec enc u c_enc_inj Hu Lu).
Qed.
End Curve.
