(** The ladder on Curve448 (sg = 1) and on its twist (sg = -1). *)
Require Import ZArith List Bool Lia Ring Field.
From Verif Require Import SpecParams SpecField SpecCurve SpecMontgomery FieldTheory EdwardsTheory CurveTheory ScalarMulProofs MontTheory Ladder.
Import ListNotations.
Open Scope F_scope.
Local Opaque fadd fsub fmul fopp fdiv finv fpow of_Z.

Section Sigma.
Variables sg A c d : F.
Hypothesis Hsg : sg * sg = 1.
Hypothesis HAs : A = sg * mont_A.
Hypothesis HA : A = c * c + of_Z 2.
Hypothesis Nc : c <> 0.
Hypothesis NS : ~ is_square (A + of_Z 2).
Hypothesis Hd : d * (c * c) = A + of_Z 2.
Local Notation on := (on_curve 1 d).
Local Notation add := (padd 1 d).
Let G : edw_group 1 d on := G A c d NS Hd.
Let ND : ~ is_square d := nsq_d A c d NS Hd.

Definition moN (P : point) : F := sg * (snd P + 1).
Definition moD (P : point) : F := snd P - 1.
Definition pT : point := (0, - (1)).

Lemma sg_nz : sg <> 0.
Proof. intro E. apply F_1_neq_0. rewrite <- Hsg, E. ring. Qed.
Lemma dy_nz : forall y, 1 - d * (y * y) <> 0.
Proof.
  intros y H. assert (E : d * (y * y) = 1) by (transitivity (1 - (1 - d * (y * y))); [ring|rewrite H; ring]).
  apply ND. assert (Ny : y <> 0). { intros ->. apply F_1_neq_0. rewrite <- E. ring. }
  exists (finv y). apply (fmul_cancel_l (y * y)); [apply fmul_nonzero; exact Ny|]. transitivity (1 : F); [field; exact Ny|]. rewrite <- E. ring.
Qed.
Lemma on_x2 : forall x y, on (x, y) -> x * x * (1 - d * (y * y)) = 1 - y * y.
Proof. intros x y H. apply on_curve_eq in H. ring [H]. Qed.
Lemma on_same_x2 : forall x1 y1 x2 y2, on (x1, y1) -> on (x2, y2) -> y1 * y1 = y2 * y2 -> x1 = x2 \/ x1 = - x2.
Proof.
  intros x1 y1 x2 y2 H1 H2 E. apply on_x2 in H1, H2. rewrite E in H1. apply fsq_eq. apply (fmul_cancel_l (1 - d * (y2 * y2))); [apply dy_nz|].
  transitivity (x1 * x1 * (1 - d * (y2 * y2))); [ring|]. rewrite H1, <- H2. ring.
Qed.
Lemma on_T : on pT. Proof. unfold pT, on_curve. ring. Qed.
Lemma y1_zero : forall P, on P -> snd P = 1 -> P = pzero.
Proof.
  intros [x y] H E. cbn [snd] in E. rewrite E in *. apply on_x2 in H. apply pt_eq; [|reflexivity]. apply fsq_0.
  apply (fmul_cancel_l (1 - d * (1 * 1))); [apply dy_nz|]. transitivity (x * x * (1 - d * (1 * 1))); [ring|]. rewrite H. ring.
Qed.
Lemma ym1_T : forall P, on P -> snd P = - (1) -> P = pT.
Proof. intros [x y] H E. cbn [snd] in E. unfold pT. apply pt_eq; [|exact E]. exact (y_m1_x0 A c d HA Hd x y H E). Qed.

Lemma mo_dbl : forall P, on P -> exists z, z <> 0 /\
  (moN P * moN P - moD P * moD P) * (moN P * moN P - moD P * moD P) = moN (add P P) * z /\
  of_Z 4 * (moN P * moD P) * (moN P * moN P + mont_A * (moN P * moD P) + moD P * moD P) = moD (add P P) * z.
Proof.
  intros P H. pose proof (eg_den _ _ _ G P P H H) as DN. destruct P as [x y]. destruct DN as [_ D2]. pose proof (dy_nz y) as Ny. apply on_x2 in H.
  assert (Nd : 1 - d <> 0). { pose proof (dy_nz 1) as K. intro E. apply K. transitivity (1 - d); [ring|exact E]. }
  assert (E : 1 - d * x * x * y * y = of_Z 2 - x * x - y * y).
  { transitivity (1 - x * x + x * x * (1 - d * (y * y))); [ring|]. rewrite H. ring. }
  unfold moN, moD. rewrite padd_snd. cbn [fst snd]. rewrite E in *.
  assert (Ecc : c * c * (1 - d) = - of_Z 4). { transitivity (c * c - d * (c * c)); [ring|]. rewrite Hd, HA. ring. }
  exists (of_Z 8 * sg * (of_Z 2 - x * x - y * y) * ((1 - d * (y * y)) / (1 - d))). split.
  { assert (N8 : of_Z 8 <> 0) by (apply of_Z_small_nonzero; split; reflexivity). pose proof sg_nz.
    rewrite (Fdiv_def F_field). repeat apply fmul_nonzero; try assumption. apply finv_nonzero. exact Nd. }
  split.
  - transitivity (of_Z 16 * (y * y)).
    { transitivity ((sg * sg * (y + 1) * (y + 1) - (y - 1) * (y - 1)) * (sg * sg * (y + 1) * (y + 1) - (y - 1) * (y - 1))); [ring|].
      rewrite Hsg. ring. }
    transitivity (of_Z 8 * (sg * sg) * (of_Z 2 - of_Z 2 * (x * x)) * (1 - d * (y * y)) / (1 - d)); [|field; auto].
    rewrite Hsg. transitivity (of_Z 16 * (1 - d * (y * y) - x * x * (1 - d * (y * y))) / (1 - d)); [|field; exact Nd].
    rewrite H. field. exact Nd.
  - transitivity (of_Z 16 * sg * (y * y - 1) * ((1 - d * (y * y)) / (1 - d))); [|field; auto].
    assert (K : (1 - d * (y * y)) / (1 - d) = ((A + of_Z 2) * (y * y) - (A - of_Z 2)) / of_Z 4).
    { apply fdiv_eq; [exact Nd|exact F_4_neq_0|]. transitivity (- ((1 - d * (y * y)) * (c * c * (1 - d)))); [rewrite Ecc; ring|].
      transitivity ((d * (c * c) * (y * y) - c * c) * (1 - d)); [ring|]. rewrite Hd, HA. ring. }
    rewrite K. transitivity (of_Z 4 * sg * (y * y - 1) * ((A + of_Z 2) * (y * y) - (A - of_Z 2))); [|pose proof F_4_neq_0; field; assumption].
    rewrite HAs. transitivity (of_Z 4 * sg * (y * y - 1) * (sg * sg * ((y + 1) * (y + 1)) + sg * mont_A * (y * y - 1) + (y - 1) * (y - 1))); [ring|].
    rewrite Hsg. ring.
Qed.

(** The y-coordinates of the sum and the difference. *)
Lemma mo_identity : forall e x1 y1 x2 y2, d * e = 1 ->
  x1 * x1 * y1 * y1 = e * (x1 * x1 + y1 * y1 - 1) -> x2 * x2 * y2 * y2 = e * (x2 * x2 + y2 * y2 - 1) ->
  let l := d * x1 * x2 * y1 * y2 in
  (y1 * y2 - x1 * x2 + (1 - l)) * (y1 * y2 + x1 * x2 + (1 + l)) * ((y1 - y2) * (y1 - y2)) =
  (y1 * y2 - x1 * x2 - (1 - l)) * (y1 * y2 + x1 * x2 - (1 + l)) * ((y1 + y2) * (y1 + y2)).
Proof. intros e x1 y1 x2 y2 HI H1 H2. cbv zeta. ring [HI H1 H2]. Qed.

Lemma neg_T : pneg pT = pT. Proof. unfold pneg, pT. apply pt_eq; [ring|reflexivity]. Qed.
Lemma T_T : add pT pT = pzero. Proof. rewrite <- neg_T at 2. apply (g_neg_r _ _ _ G). exact on_T. Qed.

(** y1 = - y2 only if the sum or the difference is T; y1 = y2 only if one of them is O. *)
Lemma opp_y : forall P Q, on P -> on Q -> snd P = - snd Q -> add P Q = pT \/ add P (pneg Q) = pT.
Proof.
  intros P Q HP HQ E. destruct P as [x1 y1], Q as [x2 y2]. cbn [snd] in E.
  destruct (on_same_x2 x1 y1 x2 y2 HP HQ) as [X|X]; [rewrite E; ring| |].
  - left. replace (x1, y1) with (add pT (pneg (x2, y2))).
    + rewrite (g_assoc _ _ _ G) by (try apply (eg_neg _ _ _ G); try exact on_T; exact HQ). rewrite (g_neg_l _ _ _ G) by exact HQ. apply padd_0_r.
    + unfold pneg, pT. rewrite padd_T. apply pt_eq; [rewrite X; ring|symmetry; exact E].
  - right. replace (x1, y1) with (add pT (x2, y2)).
    + rewrite (g_assoc _ _ _ G) by (try apply (eg_neg _ _ _ G); try exact on_T; exact HQ). rewrite (g_neg_r _ _ _ G) by exact HQ. apply padd_0_r.
    + unfold pT. rewrite padd_T. apply pt_eq; [rewrite X; ring|symmetry; exact E].
Qed.
Lemma same_y : forall P Q, on P -> on Q -> snd P = snd Q -> add P Q = pzero \/ add P (pneg Q) = pzero.
Proof.
  intros [x1 y1] [x2 y2] HP HQ E. cbn [snd] in E. destruct (on_same_x2 x1 y1 x2 y2 HP HQ) as [X|X]; [rewrite E; ring| |].
  - right. rewrite X, E. apply (g_neg_r _ _ _ G). exact HQ.
  - left. rewrite X, E. exact (g_neg_l _ _ _ G _ HQ).
Qed.

Lemma mo_add : forall P Q, on P -> on Q -> moN (add P (pneg Q)) <> 0 -> moD (add P (pneg Q)) <> 0 -> exists z, z <> 0 /\
  moD (add P (pneg Q)) * (of_Z 4 * ((moN P * moN Q - moD P * moD Q) * (moN P * moN Q - moD P * moD Q))) = moN (add P Q) * z /\
  moN (add P (pneg Q)) * (of_Z 4 * ((moD P * moN Q - moN P * moD Q) * (moD P * moN Q - moN P * moD Q))) = moD (add P Q) * z.
Proof.
  intros P Q HP HQ NN NDR. set (R := add P (pneg Q)) in *. set (S := add P Q).
  assert (HR : on R) by (apply (eg_add _ _ _ G); [exact HP|apply (eg_neg _ _ _ G); exact HQ]). assert (HS : on S) by (apply (eg_add _ _ _ G); assumption).
  assert (RT : R <> pT). { intro E. apply NN. rewrite E. unfold moN, pT. cbn [snd]. ring. }
  assert (RO : R <> pzero). { intro E. apply NDR. rewrite E. unfold moD, pzero. cbn [snd]. ring. }
  assert (OP : snd P + snd Q = 0 -> S = pT).
  { intro E. destruct (opp_y P Q HP HQ) as [K|K]; [transitivity (snd P + snd Q - snd Q); [ring|rewrite E; ring]|exact K|destruct (RT K)]. }
  assert (SP : snd P - snd Q = 0 -> S = pzero).
  { intro E. destruct (same_y P Q HP HQ) as [K|K]; [apply fsub_0_eq; exact E|exact K|destruct (RO K)]. }
  assert (OT : pT <> pzero). { unfold pT, pzero. intro E. apply (f_equal snd) in E. cbn [snd] in E. apply F_1_neq_0. apply fopp_eq_self. symmetry. exact E. }
  assert (ID : (snd S + 1) * (snd R + 1) * ((snd P - snd Q) * (snd P - snd Q)) = (snd S - 1) * (snd R - 1) * ((snd P + snd Q) * (snd P + snd Q))).
  { pose proof (eg_den _ _ _ G P Q HP HQ) as DN. assert (Nd : d <> 0) by (apply nonsquare_nonzero; exact ND). subst R S.
    rewrite !padd_snd. clear - HP HQ DN Nd. destruct P as [x1 y1], Q as [x2 y2]. destruct DN as [D1 D2]. cbn [fst snd pneg] in *.
    pose proof (finv_r d Nd) as HI. set (e := finv d) in *.
    assert (RU : forall x y, on (x, y) -> x * x * y * y = e * (x * x + y * y - 1)).
    { intros x y H. apply on_curve_eq in H. transitivity (d * e * (x * x * y * y)); [rewrite HI; ring|]. transitivity (e * (d * x * x * y * y)); [ring|]. rewrite H. ring. }
    pose proof (mo_identity e x1 y1 x2 y2 HI (RU _ _ HP) (RU _ _ HQ)) as K. cbv zeta in K.
    replace (1 - d * x1 * - x2 * y1 * y2) with (1 + d * x1 * x2 * y1 * y2) by ring.
    set (pp := 1 + d * x1 * x2 * y1 * y2) in *. set (qq := 1 - d * x1 * x2 * y1 * y2) in *.
    transitivity ((y1 * y2 - x1 * x2 + qq) * (y1 * y2 + x1 * x2 + pp) * ((y1 - y2) * (y1 - y2)) / (pp * qq)); [field; auto|].
    rewrite K. field. auto. }
  assert (N16 : of_Z 16 <> 0) by (apply of_Z_small_nonzero; split; reflexivity). assert (N8 : of_Z 8 <> 0) by (apply of_Z_small_nonzero; split; reflexivity).
  pose proof sg_nz as Nsg. unfold moN, moD in *. 
  assert (E1 : sg * (snd P + 1) * (sg * (snd Q + 1)) - (snd P - 1) * (snd Q - 1) = of_Z 2 * (snd P + snd Q)).
  { transitivity (sg * sg * (snd P + 1) * (snd Q + 1) - (snd P - 1) * (snd Q - 1)); [ring|]. rewrite Hsg. ring. }
  assert (E2 : (snd P - 1) * (sg * (snd Q + 1)) - sg * (snd P + 1) * (snd Q - 1) = of_Z 2 * sg * (snd P - snd Q)) by ring.
  rewrite E1, E2. clear E1 E2. destruct (F_eq_dec (snd S + 1) 0) as [E|NE].
  - assert (ST : S = pT). { apply ym1_T; [exact HS|]. transitivity (snd S + 1 - 1); [ring|rewrite E; ring]. }
    exists (- (of_Z 8 * (sg * (snd R + 1)) * ((snd P - snd Q) * (snd P - snd Q)))). split; [|split].
    + intro K. apply (proj1 (fopp_0_iff _)) in K. revert K. assert (NPQ : snd P - snd Q <> 0). { intro K. apply OT. rewrite <- ST. exact (SP K). }
      repeat apply fmul_nonzero; try assumption; apply (fmul_nonzero_inv _ _ NN).
    + assert (K : snd P + snd Q = 0).
      { rewrite E, ST in ID. cbn [snd pT] in ID. assert (K : (- (1) - 1) * (snd R - 1) * ((snd P + snd Q) * (snd P + snd Q)) = 0) by (rewrite <- ID; ring).
        apply fmul_integral in K. destruct K as [K|K]; [|apply fsq_0; exact K]. apply fmul_integral in K. destruct K as [K|K]; [|destruct (NDR K)].
        destruct F_2_neq_0. transitivity (- (- (1) - 1)); [ring|]. rewrite K. ring. }
      rewrite K, E. ring.
    + rewrite ST. cbn [snd pT]. transitivity (of_Z 16 * (sg * sg) * (sg * (snd R + 1)) * ((snd P - snd Q) * (snd P - snd Q))); [ring|]. rewrite Hsg. ring.
  - exists ((snd R - 1) * (of_Z 16 * ((snd P + snd Q) * (snd P + snd Q))) / (sg * (snd S + 1))). split; [|split].
    + assert (NPQ : snd P + snd Q <> 0). { intro K. apply NE. rewrite (OP K). cbn [snd pT]. ring. }
      rewrite (Fdiv_def F_field). repeat apply fmul_nonzero; try assumption. apply finv_nonzero. apply fmul_nonzero; assumption.
    + field. auto.
    + transitivity (of_Z 16 * ((snd S + 1) * (snd R + 1) * ((snd P - snd Q) * (snd P - snd Q))) / (sg * (snd S + 1))).
      * transitivity (of_Z 16 * (sg * sg) * (snd R + 1) * ((snd P - snd Q) * (snd P - snd Q)) * sg); [ring|]. rewrite Hsg.
        apply (fmul_cancel_l (sg * (snd S + 1))); [apply fmul_nonzero; assumption|]. 
        transitivity (of_Z 16 * (sg * sg) * (snd S + 1) * (snd R + 1) * ((snd P - snd Q) * (snd P - snd Q))); [ring|]. rewrite Hsg. field. auto.
      * rewrite ID. field. auto.
Qed.

(** T and O only give T and O. *)
Lemma T_mul : forall n, pmul 1 d n pT = pzero \/ pmul 1 d n pT = pT.
Proof.
  intro n. unfold pmul. induction (Z.to_nat n) as [|k [IH|IH]]; cbn [pmul_nat]; [left; reflexivity| |]; rewrite IH.
  - right. apply padd_0_r.
  - left. exact T_T.
Qed.

Theorem mo_ladder : forall bits Q, on Q -> let u := moN Q * finv (moD Q) in
  let R := pmul 1 d (bits_acc bits 0 + Z.b2z (last bits false)) Q in
  Q <> pzero -> lval (lloop u bits false ((1, 0), (u, 1))) = moN R * finv (moD R).
Proof.
  intros bits Q H. cbv zeta. intro NO. assert (DQ : moD Q <> 0).
  { intro E. apply NO. apply y1_zero; [exact H|]. apply (proj1 (fsub_0_eq _ _)). exact E. }
  destruct (F_eq_dec (moN Q) 0) as [E|NQ].
  - rewrite E. replace (0 * finv (moD Q)) with (0 : F) by ring. rewrite lval_degen by (apply lloop_degen; unfold degen; cbn [fst snd]; ring).
    assert (Q = pT). { apply ym1_T; [exact H|]. unfold moN in E. apply fmul_integral in E. destruct E as [E|E]; [destruct (sg_nz E)|].
      transitivity (snd Q + 1 - 1); [ring|rewrite E; ring]. }
    subst Q. destruct (T_mul (bits_acc bits 0 + Z.b2z (last bits false))) as [->| ->]; unfold moN, moD; cbn [snd pT pzero].
    + replace (1 - 1) with (0 : F) by ring. rewrite finv_0. ring.
    + ring.
  - rewrite <- (Fdiv_def F_field). apply (lladder 1 d on moN moD G); try assumption.
    + intros [x y]. reflexivity.
    + intros [x y]. reflexivity.
    + unfold moD, pzero. cbn [snd]. ring.
    + unfold moN, pzero. cbn [snd]. apply fmul_nonzero; [exact sg_nz|]. replace (1 + 1) with (of_Z 2) by ring. exact F_2_neq_0.
    + exact mo_dbl.
    + exact mo_add.
Qed.

(** On the Montgomery curve with coefficient A: u there is sg times the ladder's u. *)
Theorem mont_ladder_sg : forall bits P, on_mont A 1 P -> P <> None -> let u := sg * ucoord P in
  lval (lloop u bits false ((1, 0), (u, 1))) = sg * ucoord (mont_mul A 1 (bits_acc bits 0 + Z.b2z (last bits false)) P).
Proof.
  intros bits P H NP. cbv zeta. set (n := (bits_acc bits 0 + Z.b2z (last bits false))%Z).
  destruct (psi_mul A c d HA Nc NS Hd n P H) as [HM EM].
  rewrite <- (psi_ucoord A c NS P H), <- (psi_ucoord A c NS _ HM), EM.
  pose proof (mo_ladder bits (psi c P) (psi_on A c d HA Nc NS Hd P H)) as K. cbv zeta in K. unfold moN, moD in K.
  rewrite !(Fdiv_def F_field), !(Rmul_assoc F_ring). apply K. intro E. destruct P as [[u v]|]; [|apply NP; reflexivity]. unfold psi, pzero in E.
  apply (f_equal snd) in E. cbn [snd] in E. pose proof (u_neq_1 A NS u v H) as N1. apply F_2_neq_0.
  transitivity (((u + 1) / (u - 1) - 1) * (u - 1)); [field; exact N1|]. rewrite E. ring.
Qed.
End Sigma.
