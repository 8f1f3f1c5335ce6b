(** The dual isogeny respects addition. *)
Require Import ZArith List Bool Lia Ring Field.
From Verif Require Import SpecParams SpecField SpecCurve FieldTheory EdwardsTheory CurveTheory.
Open Scope F_scope.
Local Opaque fadd fsub fmul fopp fdiv finv fpow of_Z.

Lemma phihat_identity : forall d e x1 y1 x2 y2 : F, d * e = 1 -> x1 * x1 * y1 * y1 = e * (y1 * y1 - x1 * x1 - 1) ->
  x2 * x2 * y2 * y2 = e * (y2 * y2 - x2 * x2 - 1) ->
  let p := 1 + d * x1 * x2 * y1 * y2 in let q := 1 - d * x1 * x2 * y1 * y2 in
  let n := x1 * y2 + y1 * x2 in let m := y1 * y2 - - (1) * x1 * x2 in
  let A1 := of_Z 2 * x1 * y1 in let B1 := y1 * y1 + x1 * x1 in let C1 := y1 * y1 - x1 * x1 in let E1 := of_Z 2 - C1 in
  let A2 := of_Z 2 * x2 * y2 in let B2 := y2 * y2 + x2 * x2 in let C2 := y2 * y2 - x2 * x2 in let E2 := of_Z 2 - C2 in
  of_Z 2 * n * m * p * q * (B1 * B2 * E1 * E2 + (d + 1) * A1 * A2 * C1 * C2) =
    (A1 * B2 * C2 * E1 + A2 * B1 * C1 * E2) * (m * m * p * p + n * n * q * q) /\
  (m * m * p * p - n * n * q * q) * (B1 * B2 * E1 * E2 - (d + 1) * A1 * A2 * C1 * C2) =
    (B1 * B2 * C1 * C2 - A1 * A2 * E1 * E2) * (of_Z 2 * p * p * q * q - (m * m * p * p - n * n * q * q)).
Proof.
  intros d e x1 y1 x2 y2 HI H1 H2 p q n m A1 B1 C1 E1 A2 B2 C2 E2. unfold p, q, n, m, A1, B1, E1, C1, A2, B2, E2, C2.
  split; ring [HI H1 H2].
Qed.

Lemma ed_d_tw : ed_d = tw_d + 1. Proof. rewrite tw_d_eq. ring. Qed.

Lemma phihat_add : forall P Q, even_tw P -> even_tw Q -> phihat (padd tw_a tw_d P Q) = padd ed_a ed_d (phihat P) (phihat Q).
Proof.
  intros P Q HP HQ. pose proof (eg_add _ _ _ tw_group P Q HP HQ) as HR. pose proof (eg_den _ _ _ tw_group P Q HP HQ) as DN.
  pose proof (eg_den _ _ _ ed_group _ _ (phihat_on P HP) (phihat_on Q HQ)) as DT.
  destruct P as [x1 y1], Q as [x2 y2]. destruct DN as [Np Nq].
  pose proof (tw_C_nz _ _ (proj1 HP)) as NB1. pose proof (tw_E_nz _ _ HP) as NE1. pose proof (tw_C_nz _ _ (proj1 HQ)) as NB2. pose proof (tw_E_nz _ _ HQ) as NE2.
  destruct tw_inv as (e & HI). destruct HP as [HP _], HQ as [HQ _]. apply (tw_rule e _ _ HI) in HP. apply (tw_rule e _ _ HI) in HQ.
  destruct (phihat_identity _ e x1 y1 x2 y2 HI HP HQ) as [K1 K2]. cbv zeta in K1, K2. clear HP HQ HI.
  unfold padd in HR. pose proof (tw_C_nz _ _ (proj1 HR)) as NB3. pose proof (tw_E_nz _ _ HR) as NE3. clear HR.
  unfold phihat, den_ok in DT. destruct DT as [DT1 DT2]. unfold phihat, padd. rewrite ed_d_tw in *. unfold ed_a, tw_a in *.
  set (p := 1 + tw_d * x1 * x2 * y1 * y2) in *. set (q := 1 - tw_d * x1 * x2 * y1 * y2) in *.
  set (n := x1 * y2 + y1 * x2) in *. set (m := y1 * y2 - - (1) * x1 * x2) in *.
  set (A1 := of_Z 2 * x1 * y1) in *. set (B1 := y1 * y1 + x1 * x1) in *. set (C1 := y1 * y1 - x1 * x1) in *. set (E1 := of_Z 2 - C1) in *.
  set (A2 := of_Z 2 * x2 * y2) in *. set (B2 := y2 * y2 + x2 * x2) in *. set (C2 := y2 * y2 - x2 * x2) in *. set (E2 := of_Z 2 - C2) in *.
  clearbody p q n m A1 B1 E1 A2 B2 E2 C1 C2. revert K1 K2 NB3 NE3 DT1 DT2. generalize (tw_d + 1). intros dd K1 K2 NB3 NE3 DT1 DT2.
  assert (U1 : m / q * (m / q) + n / p * (n / p) = (m * m * p * p + n * n * q * q) / (p * p * q * q)) by (field; auto).
  assert (U2 : of_Z 2 - (m / q * (m / q) - n / p * (n / p)) = (of_Z 2 * p * p * q * q - (m * m * p * p - n * n * q * q)) / (p * p * q * q)) by (field; auto).
  assert (U3 : 1 + dd * (A1 / B1) * (A2 / B2) * (C1 / E1) * (C2 / E2) = (B1 * B2 * E1 * E2 + dd * A1 * A2 * C1 * C2) / (B1 * B2 * E1 * E2)) by (field; auto).
  assert (U4 : 1 - dd * (A1 / B1) * (A2 / B2) * (C1 / E1) * (C2 / E2) = (B1 * B2 * E1 * E2 - dd * A1 * A2 * C1 * C2) / (B1 * B2 * E1 * E2)) by (field; auto).
  assert (DP : p * p * q * q <> 0) by (repeat apply fmul_nonzero; assumption).
  assert (DB : B1 * B2 * E1 * E2 <> 0) by (repeat apply fmul_nonzero; assumption).
  assert (W : forall u D, D <> 0 -> u / D <> 0 -> u <> 0).
  { intros u D' HD H E. apply H. rewrite E. field. exact HD. }
  rewrite U1 in NB3. rewrite U2 in NE3. rewrite U3 in DT1. rewrite U4 in DT2.
  apply (W _ _ DP) in NB3. apply (W _ _ DP) in NE3. apply (W _ _ DB) in DT1. apply (W _ _ DB) in DT2.
  rewrite U1, U2, U3, U4. clear U1 U2 U3 U4 W. apply pt_eq.
  - transitivity (of_Z 2 * n * m * p * q / (m * m * p * p + n * n * q * q)); [field; auto|].
    transitivity ((A1 * B2 * C2 * E1 + A2 * B1 * C1 * E2) / (B1 * B2 * E1 * E2 + dd * A1 * A2 * C1 * C2)); [apply fdiv_eq; assumption|field; auto 10].
  - transitivity ((m * m * p * p - n * n * q * q) / (of_Z 2 * p * p * q * q - (m * m * p * p - n * n * q * q))); [field; auto|].
    transitivity ((B1 * B2 * C1 * C2 - A1 * A2 * E1 * E2) / (B1 * B2 * E1 * E2 - dd * A1 * A2 * C1 * C2)); [apply fdiv_eq; assumption|field; auto 10].
Qed.

Lemma phihat_zero : phihat pzero = pzero.
Proof.
  unfold phihat, pzero. apply pt_eq; apply fdiv_val; try ring.
  - replace (1 * 1 + 0 * 0) with (1 : F) by ring. exact F_1_neq_0.
  - replace (of_Z 2 - (1 * 1 - 0 * 0)) with (1 : F) by ring. exact F_1_neq_0.
Qed.
Lemma phihat_neg : forall P, phihat (pneg P) = pneg (phihat P).
Proof.
  intros [x y]. unfold phihat, pneg. apply pt_eq.
  - rewrite !(Fdiv_def F_field). replace (- x * - x) with (x * x) by ring. ring.
  - apply fdiv_cong; ring.
Qed.
Lemma phihat_mul : forall n P, (0 <= n)%Z -> even_tw P -> phihat (pmul tw_a tw_d n P) = pmul ed_a ed_d n (phihat P).
Proof.
  intros n P Hn HP. revert n Hn. apply pmul_ind.
  - apply phihat_zero.
  - intros n Hn IH. rewrite !pmul_succ by exact Hn. rewrite phihat_add, IH; [reflexivity|exact HP|].
    apply (pmul_S _ _ _ tw_group). exact HP.
Qed.
