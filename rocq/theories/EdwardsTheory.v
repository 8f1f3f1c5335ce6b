(** The Edwards addition law is an abelian group law on any set of curve points that is closed under it and on which
    its denominators do not vanish. *)
Require Import ZArith List Bool Lia Ring Field.
From Verif Require Import SpecParams SpecField SpecCurve FieldTheory.
Open Scope F_scope.

Lemma fdiv_eq : forall x y z w, y <> 0 -> w <> 0 -> x * w = z * y -> x / y = z / w.
Proof.
  intros x y z w Hy Hw E. transitivity (x * w / (y * w)); [field; split; assumption|]. rewrite E. field. split; assumption.
Qed.
Lemma fdiv_1 : forall x y, y <> 0 -> x = y -> x / y = 1.
Proof. intros x y N ->. field. exact N. Qed.
Lemma fdiv_val : forall x y z, y <> 0 -> x = z * y -> x / y = z.
Proof. intros x y z N ->. field. exact N. Qed.

Lemma fdiv_cong : forall x y z w, x = z -> y = w -> x / y = z / w.
Proof. intros x y z w -> ->. reflexivity. Qed.
Lemma pt_eq : forall x y z w : F, x = z -> y = w -> (x, y) = (z, w).
Proof. intros x y z w -> ->. reflexivity. Qed.

(** Both denominators of the addition formula are non-zero. *)
Definition den_ok (d : F) (P Q : point) : Prop :=
  let (x1, y1) := P in let (x2, y2) := Q in
  1 + d * x1 * x2 * y1 * y2 <> 0 /\ 1 - d * x1 * x2 * y1 * y2 <> 0.

Record edw_group (a d : F) (S : point -> Prop) : Prop := {
  eg_on : forall P, S P -> on_curve a d P;
  eg_den : forall P Q, S P -> S Q -> den_ok d P Q;
  eg_0 : S pzero;
  eg_neg : forall P, S P -> S (pneg P);
  eg_add : forall P Q, S P -> S Q -> S (padd a d P Q)
}.

Lemma pneg_pneg : forall P, pneg (pneg P) = P.
Proof. intros [x y]. unfold pneg. apply (f_equal (fun u => (u, y))). ring. Qed.
Lemma pneg_zero : pneg pzero = pzero.
Proof. unfold pneg, pzero. apply (f_equal (fun u => (u, of_Z 1))). ring. Qed.

Section Law.
Variables a d : F.

Lemma on_curve_eq : forall x y, on_curve a d (x, y) -> d * x * x * y * y = a * x * x + y * y - 1.
Proof.
  intros x y H. unfold on_curve in H. transitivity (1 + d * (x * x) * (y * y) - 1); [ring|]. rewrite <- H. ring.
Qed.

Lemma padd_comm : forall P Q, padd a d P Q = padd a d Q P.
Proof. intros [x1 y1] [x2 y2]. unfold padd. apply pt_eq; apply fdiv_cong; ring. Qed.

Lemma padd_0_l : forall P, padd a d pzero P = P.
Proof.
  intros [x y]. unfold padd, pzero. apply pt_eq; apply fdiv_val; try ring.
  - replace (1 + d * 0 * x * 1 * y) with (1:F) by ring. exact F_1_neq_0.
  - replace (1 - d * 0 * x * 1 * y) with (1:F) by ring. exact F_1_neq_0.
Qed.
Lemma padd_0_r : forall P, padd a d P pzero = P.
Proof. intro P. rewrite padd_comm. apply padd_0_l. Qed.

Lemma padd_pneg : forall P Q, padd a d (pneg P) (pneg Q) = pneg (padd a d P Q).
Proof.
  intros [x1 y1] [x2 y2]. unfold padd, pneg. apply pt_eq.
  - replace (1 + d * - x1 * - x2 * y1 * y2) with (1 + d * x1 * x2 * y1 * y2) by ring.
    replace (- x1 * y2 + y1 * - x2) with (- (x1 * y2 + y1 * x2)) by ring. rewrite !(Fdiv_def F_field). ring.
  - apply fdiv_cong; ring.
Qed.

Lemma padd_neg_r : forall P, on_curve a d P -> den_ok d P (pneg P) -> padd a d P (pneg P) = pzero.
Proof.
  intros [x y] H [N1 N2]. apply on_curve_eq in H. unfold padd, pneg, pzero. apply pt_eq; apply fdiv_val; try assumption.
  - ring.
  - ring [H].
Qed.

Lemma padd_on_curve : forall P Q, on_curve a d P -> on_curve a d Q -> den_ok d P Q -> on_curve a d (padd a d P Q).
Proof.
  intros [x1 y1] [x2 y2] H1 H2 [N1 N2]. apply on_curve_eq in H1, H2. unfold on_curve, padd.
  set (p := 1 + d * x1 * x2 * y1 * y2) in *. set (q := 1 - d * x1 * x2 * y1 * y2) in *.
  set (n := x1 * y2 + y1 * x2). set (m := y1 * y2 - a * x1 * x2).
  assert (K : a * (n * n) * (q * q) + m * m * (p * p) = p * p * (q * q) + d * (n * n) * (m * m)).
  { unfold n, m, p, q. ring [H1 H2]. }
  transitivity ((a * (n * n) * (q * q) + m * m * (p * p)) / (p * p * (q * q))); [field; auto|]. rewrite K. field. auto.
Qed.

Lemma padd_assoc_gen : forall P Q R, on_curve a d P -> on_curve a d Q -> on_curve a d R ->
  den_ok d P Q -> den_ok d Q R -> den_ok d (padd a d P Q) R -> den_ok d P (padd a d Q R) ->
  padd a d (padd a d P Q) R = padd a d P (padd a d Q R).
Proof.
  intros [x1 y1] [x2 y2] [x3 y3] H1 H2 H3 [N1 N2] [N3 N4]. apply on_curve_eq in H1, H2, H3. unfold padd, den_ok.
  set (p1 := 1 + d * x1 * x2 * y1 * y2) in *. set (q1 := 1 - d * x1 * x2 * y1 * y2) in *.
  set (p2 := 1 + d * x2 * x3 * y2 * y3) in *. set (q2 := 1 - d * x2 * x3 * y2 * y3) in *.
  set (n1 := x1 * y2 + y1 * x2). set (m1 := y1 * y2 - a * x1 * x2).
  set (n2 := x2 * y3 + y2 * x3). set (m2 := y2 * y3 - a * x2 * x3).
  replace (1 + d * (n1 / p1) * x3 * (m1 / q1) * y3) with ((p1 * q1 + d * n1 * m1 * x3 * y3) / (p1 * q1)) by (field; auto).
  replace (1 - d * (n1 / p1) * x3 * (m1 / q1) * y3) with ((p1 * q1 - d * n1 * m1 * x3 * y3) / (p1 * q1)) by (field; auto).
  replace (1 + d * x1 * (n2 / p2) * y1 * (m2 / q2)) with ((p2 * q2 + d * x1 * y1 * n2 * m2) / (p2 * q2)) by (field; auto).
  replace (1 - d * x1 * (n2 / p2) * y1 * (m2 / q2)) with ((p2 * q2 - d * x1 * y1 * n2 * m2) / (p2 * q2)) by (field; auto).
  assert (D1 : p1 * q1 <> 0) by (apply fmul_nonzero; assumption).
  assert (D2 : p2 * q2 <> 0) by (apply fmul_nonzero; assumption).
  set (u1 := p1 * q1 + d * n1 * m1 * x3 * y3). set (v1 := p1 * q1 - d * n1 * m1 * x3 * y3).
  set (u2 := p2 * q2 + d * x1 * y1 * n2 * m2). set (v2 := p2 * q2 - d * x1 * y1 * n2 * m2).
  intros [M1 M2] [M3 M4].
  assert (W : forall u D, D <> 0 -> u / D <> 0 -> u <> 0).
  { intros u D' HD H E. apply H. rewrite E. field. exact HD. }
  apply (W _ _ D1) in M1. apply (W _ _ D1) in M2. apply (W _ _ D2) in M3. apply (W _ _ D2) in M4. clear W.
  assert (Kx : (n1 * y3 * q1 + m1 * x3 * p1) * u2 = (x1 * m2 * p2 + y1 * n2 * q2) * u1).
  { unfold u1, u2, n1, m1, n2, m2, p1, q1, p2, q2. ring [H1 H2 H3]. }
  assert (Ky : (m1 * y3 * p1 - a * n1 * x3 * q1) * v2 = (y1 * m2 * p2 - a * x1 * n2 * q2) * v1).
  { unfold v1, v2, n1, m1, n2, m2, p1, q1, p2, q2. ring [H1 H2 H3]. }
  clearbody u1 u2 v1 v2 n1 m1 n2 m2 p1 q1 p2 q2. clear H1 H2 H3. apply pt_eq.
  - transitivity ((n1 * y3 * q1 + m1 * x3 * p1) / u1); [field; auto|].
    transitivity ((x1 * m2 * p2 + y1 * n2 * q2) / u2); [apply fdiv_eq; assumption|field; auto].
  - transitivity ((m1 * y3 * p1 - a * n1 * x3 * q1) / v1); [field; auto|].
    transitivity ((y1 * m2 * p2 - a * x1 * n2 * q2) / v2); [apply fdiv_eq; assumption|field; auto].
Qed.
End Law.

Section Group.
Variables a d : F.
Variable S : point -> Prop.
Hypothesis G : edw_group a d S.
Local Notation "P ⊕ Q" := (padd a d P Q) (at level 50, left associativity).
Local Notation "n • P" := (pmul a d n P) (at level 40).

Lemma g_assoc : forall P Q R, S P -> S Q -> S R -> P ⊕ Q ⊕ R = P ⊕ (Q ⊕ R).
Proof.
  intros P Q R HP HQ HR. destruct G as [on den z ng ad]. apply padd_assoc_gen; auto.
Qed.
Lemma g_neg_r : forall P, S P -> P ⊕ pneg P = pzero.
Proof. intros P HP. destruct G as [on den z ng ad]. apply padd_neg_r; auto. Qed.
Lemma g_neg_l : forall P, S P -> pneg P ⊕ P = pzero.
Proof. intros P HP. rewrite padd_comm. apply g_neg_r. exact HP. Qed.
Lemma g_cancel_l : forall P Q R, S P -> S Q -> S R -> P ⊕ Q = P ⊕ R -> Q = R.
Proof.
  intros P Q R HP HQ HR E. apply (f_equal (padd a d (pneg P))) in E. pose proof (eg_neg _ _ _ G P HP) as HN.
  rewrite <- !g_assoc in E by assumption. rewrite g_neg_l in E by assumption. rewrite !padd_0_l in E. exact E.
Qed.
Lemma g_neg_unique : forall P Q, S P -> S Q -> P ⊕ Q = pzero -> Q = pneg P.
Proof.
  intros P Q HP HQ E. apply (g_cancel_l P); try assumption; [apply (eg_neg _ _ _ G); assumption|].
  rewrite E, g_neg_r by assumption. reflexivity.
Qed.
Lemma g_sub_eq : forall P Q, S P -> S Q -> P ⊕ pneg Q = pzero -> P = Q.
Proof.
  intros P Q HP HQ E. rewrite padd_comm in E. apply g_neg_unique in E; [|apply (eg_neg _ _ _ G); exact HQ|exact HP].
  rewrite pneg_pneg in E. exact E.
Qed.
Lemma g_swap : forall P Q R T, S P -> S Q -> S R -> S T -> (P ⊕ Q) ⊕ (R ⊕ T) = (P ⊕ R) ⊕ (Q ⊕ T).
Proof.
  intros P Q R T HP HQ HR HT. pose proof (eg_add _ _ _ G) as A.
  rewrite (g_assoc P Q) by auto. rewrite <- (g_assoc Q R T) by auto. rewrite (padd_comm a d Q R).
  rewrite (g_assoc R Q T) by auto. rewrite <- (g_assoc P R) by auto. reflexivity.
Qed.

Lemma nat_mul_S : forall n P, S P -> S (pmul_nat a d n P).
Proof. induction n; intros P HP; cbn; [apply (eg_0 _ _ _ G)|apply (eg_add _ _ _ G); auto]. Qed.
Lemma pmul_S : forall n P, S P -> S (n • P).
Proof. intros n P HP. apply nat_mul_S. exact HP. Qed.
Lemma pmul_0 : forall P, 0 • P = pzero. Proof. reflexivity. Qed.
Lemma pmul_1 : forall P, 1 • P = P.
Proof. intro P. unfold pmul. change (Z.to_nat 1) with 1%nat. cbn. apply padd_0_r. Qed.
Lemma pmul_succ : forall n P, (0 <= n)%Z -> (n + 1)%Z • P = P ⊕ n • P.
Proof. intros n P H. unfold pmul. rewrite Z2Nat.inj_add by lia. change (Z.to_nat 1) with 1%nat. rewrite Nat.add_1_r. reflexivity. Qed.
Lemma pmul_ind : forall (Q : Z -> Prop), Q 0%Z -> (forall n, (0 <= n)%Z -> Q n -> Q (n + 1)%Z) -> forall n, (0 <= n)%Z -> Q n.
Proof. intros Q H0 HS n Hn. revert n Hn. apply natlike_ind; [exact H0|]. intros x Hx. unfold Z.succ. apply HS. exact Hx. Qed.

Lemma pmul_add : forall m n P, (0 <= m)%Z -> (0 <= n)%Z -> S P -> (m + n)%Z • P = m • P ⊕ n • P.
Proof.
  intros m n P Hm Hn HP. revert m Hm. apply pmul_ind.
  - rewrite pmul_0, padd_0_l. reflexivity.
  - intros m Hm IH. replace (m + 1 + n)%Z with (m + n + 1)%Z by ring. rewrite !pmul_succ by lia. rewrite IH.
    symmetry. apply g_assoc; try apply pmul_S; exact HP.
Qed.
Lemma pmul_zero : forall n, (0 <= n)%Z -> n • pzero = pzero.
Proof.
  apply (pmul_ind (fun n => n • pzero = pzero)); [reflexivity|]. intros n Hn IH. rewrite pmul_succ by exact Hn.
  rewrite IH. apply padd_0_l.
Qed.
Lemma pmul_padd : forall n P Q, (0 <= n)%Z -> S P -> S Q -> n • (P ⊕ Q) = n • P ⊕ n • Q.
Proof.
  intros n P Q Hn HP HQ. revert n Hn. apply pmul_ind.
  - rewrite !pmul_0. symmetry. apply padd_0_l.
  - intros n Hn IH. rewrite !pmul_succ by lia. rewrite IH. apply g_swap; try apply pmul_S; assumption.
Qed.
Lemma pmul_mul : forall m n P, (0 <= m)%Z -> (0 <= n)%Z -> S P -> (m * n)%Z • P = m • (n • P).
Proof.
  intros m n P Hm Hn HP. revert m Hm. apply pmul_ind.
  - reflexivity.
  - intros m Hm IH. replace ((m + 1) * n)%Z with (n + m * n)%Z by ring. rewrite pmul_add by (nia || exact HP). rewrite IH.
    rewrite pmul_succ by lia. reflexivity.
Qed.
Lemma pmul_pneg : forall n P, (0 <= n)%Z -> S P -> n • pneg P = pneg (n • P).
Proof.
  intros n P Hn HP. revert n Hn. apply pmul_ind.
  - rewrite !pmul_0, pneg_zero. reflexivity.
  - intros n Hn IH. rewrite !pmul_succ by lia. rewrite IH. apply padd_pneg.
Qed.
Lemma pmul_2 : forall P, 2 • P = P ⊕ P.
Proof. intro P. unfold pmul. change (Z.to_nat 2) with 2%nat. cbn. rewrite padd_0_r. reflexivity. Qed.

(** Multiplication by a possibly negative integer. *)
Definition zmul (n : Z) (P : point) : point := if (n <? 0)%Z then pneg ((- n)%Z • P) else n • P.
Lemma zmul_nonneg : forall n P, (0 <= n)%Z -> zmul n P = n • P.
Proof. intros n P H. unfold zmul. destruct (Z.ltb_spec n 0); [lia|reflexivity]. Qed.
Lemma zmul_S : forall n P, S P -> S (zmul n P).
Proof. intros n P H. unfold zmul. destruct (n <? 0)%Z; [apply (eg_neg _ _ _ G)|]; apply pmul_S; exact H. Qed.
Lemma zmul_opp : forall n P, S P -> zmul (- n) P = pneg (zmul n P).
Proof.
  intros n P H. unfold zmul. destruct (Z.ltb_spec n 0); destruct (Z.ltb_spec (- n) 0); try lia.
  - rewrite pneg_pneg. reflexivity.
  - rewrite Z.opp_involutive. reflexivity.
  - assert (n = 0%Z) by lia. subst n. change (pzero = pneg pzero). rewrite pneg_zero. reflexivity.
Qed.
Lemma pmul_sub : forall m n P, (0 <= n <= m)%Z -> S P -> (m - n)%Z • P = m • P ⊕ pneg (n • P).
Proof.
  intros m n P H HP. replace m with (m - n + n)%Z at 2 by ring. rewrite pmul_add by (lia || exact HP).
  pose proof (pmul_S (m - n) P HP). pose proof (pmul_S n P HP). rewrite g_assoc by (auto; apply (eg_neg _ _ _ G); auto).
  rewrite g_neg_r by assumption. rewrite padd_0_r. reflexivity.
Qed.
Lemma zmul_add : forall m n P, S P -> zmul (m + n) P = zmul m P ⊕ zmul n P.
Proof.
  intros m n P HP.
  assert (K : forall m n, (0 <= m)%Z -> (0 <= n)%Z -> zmul (m - n) P = m • P ⊕ pneg (n • P)).
  { intros u v Hu Hv. destruct (Z.le_gt_cases v u).
    - rewrite zmul_nonneg by lia. apply pmul_sub; [lia|exact HP].
    - replace (u - v)%Z with (- (v - u))%Z by ring. rewrite zmul_opp by exact HP. rewrite zmul_nonneg by lia.
      rewrite pmul_sub by (lia || exact HP). rewrite <- padd_pneg, pneg_pneg. apply padd_comm. }
  destruct (Z.le_gt_cases 0 m) as [Hm|Hm]; destruct (Z.le_gt_cases 0 n) as [Hn|Hn].
  - rewrite !zmul_nonneg by lia. apply pmul_add; assumption.
  - replace (m + n)%Z with (m - (- n))%Z by ring. rewrite K by lia. f_equal; [rewrite zmul_nonneg by lia; reflexivity|].
    unfold zmul. destruct (Z.ltb_spec n 0); [reflexivity|lia].
  - replace (m + n)%Z with (n - (- m))%Z by ring. rewrite K by lia. rewrite padd_comm. f_equal; [|rewrite zmul_nonneg by lia; reflexivity].
    unfold zmul. destruct (Z.ltb_spec m 0); [reflexivity|lia].
  - replace (m + n)%Z with (- (- m + - n))%Z by ring. rewrite zmul_opp by exact HP. rewrite zmul_nonneg by lia.
    rewrite pmul_add by (lia || exact HP). rewrite <- padd_pneg. f_equal; unfold zmul;
      match goal with |- context [(?x <? 0)%Z] => destruct (Z.ltb_spec x 0); [reflexivity|lia] end.
Qed.
Lemma zmul_mul : forall m n P, (0 <= m)%Z -> S P -> zmul (m * n) P = m • zmul n P.
Proof.
  intros m n P Hm HP. destruct (Z.le_gt_cases 0 n) as [Hn|Hn].
  - rewrite !zmul_nonneg by nia. apply pmul_mul; assumption.
  - replace (m * n)%Z with (- (m * - n))%Z by ring. rewrite zmul_opp by exact HP. rewrite zmul_nonneg by nia.
    rewrite pmul_mul by (lia || exact HP). unfold zmul. destruct (Z.ltb_spec n 0); [|lia].
    symmetry. apply pmul_pneg; [exact Hm|apply pmul_S; exact HP].
Qed.
(** If n kills P then multiples of P only depend on the factor modulo n. *)
Lemma pmul_mod : forall n k P, (0 < n)%Z -> (0 <= k)%Z -> S P -> n • P = pzero -> k • P = (k mod n)%Z • P.
Proof.
  intros n k P Hn Hk HP E. rewrite (Z.div_mod k n) at 1 by lia. pose proof (Z.mod_pos_bound k n Hn).
  pose proof (Z.div_pos k n Hk Hn). rewrite pmul_add by (nia || exact HP). rewrite Z.mul_comm.
  rewrite pmul_mul by (lia || exact HP). rewrite E, pmul_zero by lia. apply padd_0_l.
Qed.
Lemma pmul_gcd : forall m n k P, (0 < m)%Z -> (0 <= n)%Z -> S P -> m • P = pzero -> n • P = pzero ->
  Z.gcd m n = k -> k • P = pzero.
Proof.
  intros m n k P Hm Hn HP Em En <-. destruct (Z.gcd_bezout m n (Z.gcd m n) eq_refl) as (u & v & E).
  pose proof (Z.gcd_nonneg m n) as Hg. rewrite <- (zmul_nonneg _ _ Hg). rewrite <- E.
  rewrite zmul_add by exact HP.
  assert (K : forall u m, (0 <= m)%Z -> m • P = pzero -> zmul (u * m) P = pzero).
  { intros w k Hk Ek. destruct (Z.le_gt_cases 0 w).
    - rewrite zmul_mul by assumption. rewrite zmul_nonneg, Ek by lia. apply pmul_zero. lia.
    - replace (w * k)%Z with (- (- w * k))%Z by ring. rewrite zmul_opp by exact HP. rewrite zmul_mul by (lia || assumption).
      rewrite zmul_nonneg, Ek by lia. rewrite pmul_zero by lia. apply pneg_zero. }
  rewrite !K by (lia || assumption). apply padd_0_l.
Qed.
End Group.

(** ** Completeness for a = 1 and d a non-square. *)
Lemma complete_den : forall d P Q, ~ is_square d -> on_curve 1 d P -> on_curve 1 d Q -> den_ok d P Q.
Proof.
  intros d [x1 y1] [x2 y2] ND H1 H2. apply on_curve_eq in H1, H2. unfold den_ok.
  assert (K : forall e, e * e = 1 -> d * x1 * x2 * y1 * y2 = e -> False).
  { intros e He E.
    assert (E0 : d * x1 * x2 * y1 * y2 <> 0).
    { rewrite E. intro Z0. rewrite Z0 in He. apply F_1_neq_0. rewrite <- He. ring. }
    assert (Nx1 : x1 <> 0) by (intro Z0; apply E0; rewrite Z0; ring).
    assert (Ny1 : y1 <> 0) by (intro Z0; apply E0; rewrite Z0; ring).
    assert (Nx2 : x2 <> 0) by (intro Z0; apply E0; rewrite Z0; ring).
    assert (Q0 : d * (x1 * x1) * (y1 * y1) * (x2 * x2 + y2 * y2) = x1 * x1 + y1 * y1).
    { transitivity (d * (x1 * x1) * (y1 * y1) + (d * x1 * x2 * y1 * y2) * (d * x1 * x2 * y1 * y2)); [ring [H2]|].
      rewrite E, He. ring [H1]. }
    assert (T : forall s, s * s = 1 -> d * (x1 * y1 * (x2 + s * y2)) * (x1 * y1 * (x2 + s * y2)) = (x1 + s * e * y1) * (x1 + s * e * y1)).
    { intros s Hs. transitivity (d * (x1 * x1) * (y1 * y1) * (x2 * x2 + y2 * y2) + of_Z 2 * s * x1 * y1 * (d * x1 * x2 * y1 * y2)
        + (s * s - 1) * (d * x1 * x1 * y1 * y1 * y2 * y2)) ; [ring|]. rewrite Q0, E, Hs.
      transitivity (x1 * x1 + of_Z 2 * s * e * x1 * y1 + (s * s) * (e * e) * y1 * y1); [rewrite Hs, He; ring|ring]. }
    assert (R : forall s, s * s = 1 -> x2 + s * y2 = 0).
    { intros s Hs. destruct (F_eq_dec (x2 + s * y2) 0) as [Z0|N0]; [exact Z0|]. exfalso. apply ND.
      exists ((x1 + s * e * y1) / (x1 * y1 * (x2 + s * y2))). pose proof (T s Hs) as Ts.
      assert (ND0 : x1 * y1 * (x2 + s * y2) <> 0) by (repeat apply fmul_nonzero; assumption).
      transitivity (((x1 + s * e * y1) * (x1 + s * e * y1)) / ((x1 * y1 * (x2 + s * y2)) * (x1 * y1 * (x2 + s * y2)))); [field; auto|].
      rewrite <- Ts. field. auto. }
    apply Nx2. pose proof (R 1 ltac:(ring)) as R1. pose proof (R (- (1)) ltac:(ring)) as R2.
    assert (TW : of_Z 2 * x2 = 0) by (transitivity ((x2 + 1 * y2) + (x2 + - (1) * y2)); [ring|rewrite R1, R2; ring]).
    apply fmul_integral in TW. destruct TW as [C|C]; [exfalso; exact (F_2_neq_0 C)|exact C]. }
  split; intro Z0.
  - apply (K (- (1))); [ring|]. transitivity ((1 + d * x1 * x2 * y1 * y2) - 1); [ring|rewrite Z0; ring].
  - apply (K 1); [ring|]. transitivity (1 - (1 - d * x1 * x2 * y1 * y2)); [ring|rewrite Z0; ring].
Qed.

Lemma on_curve_zero : forall a d, on_curve a d pzero.
Proof. intros a d. unfold on_curve, pzero. ring. Qed.
Lemma on_curve_neg : forall a d P, on_curve a d P -> on_curve a d (pneg P).
Proof. intros a d [x y] H. unfold on_curve, pneg in *. replace (- x * - x) with (x * x) by ring. exact H. Qed.

Theorem complete_group : forall d, ~ is_square d -> edw_group 1 d (on_curve 1 d).
Proof.
  intros d ND. constructor.
  - auto.
  - intros P Q HP HQ. apply complete_den; assumption.
  - apply on_curve_zero.
  - apply on_curve_neg.
  - intros P Q HP HQ. apply padd_on_curve; try assumption. apply complete_den; assumption.
Qed.
