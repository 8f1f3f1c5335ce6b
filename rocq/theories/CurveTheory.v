(** Ed448-Goldilocks, its twist, which points of the twist the addition law is complete on, and the isogenies. *)
Require Import ZArith List Bool Lia Ring Field.
From Verif Require Import SpecParams SpecField SpecCurve FieldTheory EdwardsTheory.
Open Scope F_scope.
Local Opaque fadd fsub fmul fopp fdiv finv fpow of_Z.

(** ** Which constants are squares *)
Lemma sq_39081 : is_square (of_Z 39081).
Proof.
  exists (of_Z 0x22d962fbeb24f7683bf68d722fa26aa0a1f1a7b8a5b8d54b64a2d780968c14ba839a66f4fd6eded260337bf6aa20ce529642ef0f45572736).
  rewrite <- of_Z_mul. apply of_Z_eq. vm_compute. reflexivity.
Qed.
Lemma sq_m39082 : is_square (of_Z (-39082)).
Proof.
  exists (of_Z 0x12fec0c0b25b7a49443b8748734adcac4628c5f656a49f7b424d977051e65ca6f14c065a189aabdeea38888db42b4f0179d2e21836749f46).
  rewrite <- of_Z_mul. apply of_Z_eq. vm_compute. reflexivity.
Qed.
Lemma nz_39081 : of_Z 39081 <> 0. Proof. apply of_Z_small_nonzero. split; reflexivity. Qed.
Lemma nz_39082 : of_Z 39082 <> 0. Proof. apply of_Z_small_nonzero. split; reflexivity. Qed.
Lemma neg_of_Z : forall z, of_Z (- z) = - of_Z z. Proof. intro z. apply of_Z_opp. Qed.
Lemma ed_d_eq : ed_d = - of_Z 39081. Proof. apply (neg_of_Z 39081). Qed.
Lemma tw_d_eq' : tw_d = - of_Z 39082. Proof. apply (neg_of_Z 39082). Qed.
Lemma nsq_ed_d : ~ is_square ed_d.
Proof.
  rewrite ed_d_eq. intro H. apply nz_39081.
  apply square_and_neg; [exact sq_39081|exact H].
Qed.
Lemma nsq_39082 : ~ is_square (of_Z 39082).
Proof.
  intro H. apply nz_39082. apply square_and_neg; [exact H|]. rewrite <- tw_d_eq'. exact sq_m39082.
Qed.
Lemma tw_d_eq : tw_d = ed_d - 1.
Proof. unfold tw_d, ed_d. rewrite <- of_Z_sub. reflexivity. Qed.
Lemma nz_ed_d : ed_d <> 0.
Proof. apply nonsquare_nonzero. exact nsq_ed_d. Qed.
Lemma nz_tw_d : tw_d <> 0.
Proof. rewrite tw_d_eq'. intro H. apply nz_39082. apply fopp_0_iff. exact H. Qed.
Lemma nsq_m_tw_d : ~ is_square (- tw_d).
Proof. rewrite tw_d_eq'. replace (- - of_Z 39082) with (of_Z 39082) by ring. exact nsq_39082. Qed.

(** ** The Edwards curve: every point *)
Definition on_ed := on_curve ed_a ed_d.
Definition on_tw := on_curve tw_a tw_d.

Theorem ed_group : edw_group ed_a ed_d on_ed.
Proof. apply complete_group. exact nsq_ed_d. Qed.

(** ** The twisted curve: the points with 1 + x^2 a square *)
Definition even_tw (P : point) : Prop := on_tw P /\ is_square (1 + fst P * fst P).

Lemma one_plus_sq_nz : forall x, 1 + x * x <> 0.
Proof. intros x H. apply neg1_nonsquare. exists x. transitivity ((1 + x * x) - 1); [ring|rewrite H; ring]. Qed.

Lemma tw_eq : forall x y, on_tw (x, y) -> tw_d * x * x * y * y = y * y - x * x - 1.
Proof. intros x y H. apply on_curve_eq in H. rewrite H. unfold tw_a. ring. Qed.
Lemma ed_eq : forall x y, on_ed (x, y) -> ed_d * x * x * y * y = x * x + y * y - 1.
Proof. intros x y H. apply on_curve_eq in H. rewrite H. unfold ed_a. ring. Qed.

(** The curve equations solved for x^2 y^2, with e the inverse of d: the form in which [ring] can use them. *)
Lemma tw_rule : forall e x y, tw_d * e = 1 -> on_tw (x, y) -> x * x * y * y = e * (y * y - x * x - 1).
Proof. intros e x y E H. apply tw_eq in H. rewrite <- H. transitivity ((tw_d * e) * (x * x * y * y)); [rewrite E|]; ring. Qed.
Lemma ed_rule : forall e x y, ed_d * e = 1 -> on_ed (x, y) -> x * x * y * y = e * (x * x + y * y - 1).
Proof. intros e x y E H. apply ed_eq in H. rewrite <- H. transitivity ((ed_d * e) * (x * x * y * y)); [rewrite E|]; ring. Qed.
Lemma tw_inv : exists e, tw_d * e = 1. Proof. exists (finv tw_d). apply finv_r. exact nz_tw_d. Qed.
Lemma ed_inv : exists e, ed_d * e = 1. Proof. exists (finv ed_d). apply finv_r. exact nz_ed_d. Qed.

Lemma even_den : forall P Q, even_tw P -> even_tw Q -> den_ok tw_d P Q.
Proof.
  intros [x1 y1] [x2 y2] [H1 S1] [H2 S2]. cbn [fst] in *. apply tw_eq in H1, H2. unfold den_ok.
  set (dl := tw_d * x1 * x2 * y1 * y2).
  assert (K : dl * dl = 1 -> False).
  { intro E.
    (* y^2 (1 - d x^2) = 1 + x^2 *)
    assert (Y1 : (1 - tw_d * x1 * x1) * (y1 * y1) = 1 + x1 * x1) by ring [H1].
    assert (Y2 : (1 - tw_d * x2 * x2) * (y2 * y2) = 1 + x2 * x2) by ring [H2].
    set (m := x1 * x1 * (x2 * x2)).
    assert (E1 : tw_d * tw_d * m * ((1 + x1 * x1) * (1 + x2 * x2)) = (1 - tw_d * x1 * x1) * (1 - tw_d * x2 * x2)).
    { rewrite <- Y1, <- Y2. transitivity ((dl * dl) * ((1 - tw_d * x1 * x1) * (1 - tw_d * x2 * x2))); [unfold dl, m; ring|].
      rewrite E. ring. }
    assert (E2 : (tw_d * m + 1) * (tw_d * ((1 + x1 * x1) * (1 + x2 * x2) - 1) - 1) = 0).
    { transitivity (tw_d * tw_d * m * ((1 + x1 * x1) * (1 + x2 * x2)) - (1 - tw_d * x1 * x1) * (1 - tw_d * x2 * x2)); [unfold m; ring|].
      rewrite E1. ring. }
    apply fmul_integral in E2. destruct E2 as [E2|E2].
    - (* m = -1/d *)
      apply nsq_m_tw_d. apply square_mul_cancel with m.
      + intro Z0. rewrite Z0 in E2. apply F_1_neq_0. rewrite <- E2. ring.
      + exists (x1 * x2). unfold m. ring.
      + replace (- tw_d * m) with (1 - (tw_d * m + 1)) by ring. rewrite E2. replace (1 - 0) with (1:F) by ring. apply square_1.
    - assert (SQ : is_square ((1 + x1 * x1) * (1 + x2 * x2))) by (apply square_mul; assumption).
      set (w := (1 + x1 * x1) * (1 + x2 * x2)) in *.
      assert (E3 : - tw_d * w = of_Z 39081).
      { transitivity (- (tw_d * (w - 1) - 1) - (tw_d + 1)); [ring|]. rewrite E2, tw_d_eq, ed_d_eq. ring. }
      apply nsq_m_tw_d. apply square_mul_cancel with w; [|exact SQ|].
      + unfold w. apply fmul_nonzero; apply one_plus_sq_nz.
      + rewrite E3. exact sq_39081. }
  split; intro Z0; apply K.
  - assert (D1 : dl = - (1)) by (transitivity ((1 + dl) - 1); [ring|rewrite Z0; ring]). rewrite D1. ring.
  - assert (D1 : dl = 1) by (transitivity (1 - (1 - dl)); [ring|rewrite Z0; ring]). rewrite D1. ring.
Qed.

Lemma even_zero : even_tw pzero.
Proof. split; [apply on_curve_zero|]. exists 1. cbn [fst pzero]. ring. Qed.
Lemma even_neg : forall P, even_tw P -> even_tw (pneg P).
Proof.
  intros [x y] [H S]. split; [apply on_curve_neg; exact H|]. unfold pneg. cbn [fst] in *.
  replace (- x * - x) with (x * x) by ring. exact S.
Qed.
Lemma even_identity : forall d e x1 y1 x2 y2 : F, d * e = 1 -> x1 * x1 * y1 * y1 = e * (y1 * y1 - x1 * x1 - 1) ->
  x2 * x2 * y2 * y2 = e * (y2 * y2 - x2 * x2 - 1) ->
  ((1 + x1 * x1) * (1 + x2 * x2) + (1 + d) * x1 * x2 * y1 * y2) * ((1 + x1 * x1) * (1 + x2 * x2) + (1 + d) * x1 * x2 * y1 * y2) =
  ((1 + d * x1 * x2 * y1 * y2) * (1 + d * x1 * x2 * y1 * y2) + (x1 * y2 + y1 * x2) * (x1 * y2 + y1 * x2)) * ((1 + x1 * x1) * (1 + x2 * x2)).
Proof. intros d e x1 y1 x2 y2 HI H1 H2. ring [HI H1 H2]. Qed.
Lemma even_add : forall P Q, even_tw P -> even_tw Q -> even_tw (padd tw_a tw_d P Q).
Proof.
  intros P Q HP HQ. pose proof (even_den P Q HP HQ) as DN. destruct HP as [HP SP], HQ as [HQ SQ].
  split; [apply padd_on_curve; assumption|]. destruct P as [x1 y1], Q as [x2 y2]. cbn [fst] in *. destruct tw_inv as (e & HI).
  apply (tw_rule e _ _ HI) in HP. apply (tw_rule e _ _ HI) in HQ.
  unfold padd. cbn [fst]. destruct DN as [N1 N2]. set (dl := tw_d * x1 * x2 * y1 * y2) in *. set (n := x1 * y2 + y1 * x2).
  replace (1 + n / (1 + dl) * (n / (1 + dl))) with (((1 + dl) * (1 + dl) + n * n) / ((1 + dl) * (1 + dl))) by (field; exact N1).
  apply square_div; [|exists (1 + dl); ring].
  apply square_mul_cancel with ((1 + x1 * x1) * (1 + x2 * x2)).
  - apply fmul_nonzero; apply one_plus_sq_nz.
  - apply square_mul; assumption.
  - exists ((1 + x1 * x1) * (1 + x2 * x2) + (1 + tw_d) * x1 * x2 * y1 * y2). apply (even_identity _ _ _ _ _ _ HI HP HQ).
Qed.
Theorem tw_group : edw_group tw_a tw_d even_tw.
Proof.
  constructor; [intros P [H _]; exact H|apply even_den|apply even_zero|apply even_neg|apply even_add].
Qed.

(** ** The isogenies *)
Definition phi (P : point) : point :=
  let (x, y) := P in (of_Z 2 * x * y / (y * y - x * x), (y * y + x * x) / (of_Z 2 - (y * y + x * x))).
Definition phihat (P : point) : point :=
  let (x, y) := P in (of_Z 2 * x * y / (y * y + x * x), (y * y - x * x) / (of_Z 2 - (y * y - x * x))).

(** d - 1 times x^2 (1 - x^2) ... : y^2 = x^2 has no solution because 39082 is not a square *)
Lemma ed_yx_nz : forall x y, on_ed (x, y) -> y * y - x * x <> 0.
Proof.
  intros x y H E. apply ed_eq in H. assert (Y : y * y = x * x) by (apply fsub_0_eq; exact E).
  (* d x^4 - 2x^2 + 1 = 0, (d x^2 - 1)^2 = 1 - d *)
  apply nsq_39082. exists (ed_d * (x * x) - 1).
  assert (X : ed_d * (x * x) * (x * x) = of_Z 2 * (x * x) - 1).
  { rewrite <- Y at 2. transitivity (ed_d * x * x * y * y); [ring|]. rewrite H, Y. ring. }
  transitivity (ed_d * (ed_d * (x * x) * (x * x)) - of_Z 2 * ed_d * (x * x) + 1); [ring|]. rewrite X, ed_d_eq. ring.
Qed.
Lemma ed_C_nz : forall x y, on_ed (x, y) -> y * y + x * x <> 0.
Proof.
  intros x y H E. assert (Y : y * y = - (x * x)) by (transitivity ((y * y + x * x) - x * x); [ring|rewrite E; ring]).
  destruct (F_eq_dec x 0) as [X|NX].
  - apply ed_eq in H. rewrite X in H, Y. replace (ed_d * 0 * 0 * y * y) with (0:F) in H by ring.
    apply F_1_neq_0. transitivity (0 * 0 + y * y - (0 * 0 + y * y - 1)); [ring|]. rewrite <- H, Y. ring.
  - apply neg1_nonsquare. exists (y / x). transitivity ((y * y) / (x * x)); [field; exact NX|]. rewrite Y. field. exact NX.
Qed.
Lemma ed_E_nz : forall x y, on_ed (x, y) -> of_Z 2 - (y * y + x * x) <> 0.
Proof.
  intros x y H. pose proof (complete_den ed_d (x, y) (x, y) nsq_ed_d H H) as [_ N]. apply ed_eq in H.
  intro E. apply N. transitivity (of_Z 2 - (y * y + x * x)); [ring [H]|exact E].
Qed.
Lemma tw_C_nz : forall x y, on_tw (x, y) -> y * y + x * x <> 0.
Proof.
  intros x y H E. assert (Y : y * y = - (x * x)) by (transitivity ((y * y + x * x) - x * x); [ring|rewrite E; ring]).
  destruct (F_eq_dec x 0) as [X|NX].
  - apply tw_eq in H. rewrite X in H, Y. replace (tw_d * 0 * 0 * y * y) with (0:F) in H by ring.
    apply F_1_neq_0. transitivity (y * y - 0 * 0 - (y * y - 0 * 0 - 1)); [ring|]. rewrite <- H, Y. ring.
  - apply neg1_nonsquare. exists (y / x). transitivity ((y * y) / (x * x)); [field; exact NX|]. rewrite Y. field. exact NX.
Qed.
Lemma tw_B_nz : forall x y, even_tw (x, y) -> y * y - x * x <> 0.
Proof.
  intros x y H. pose proof (even_den (x, y) (x, y) H H) as [N _]. destruct H as [H _]. apply tw_eq in H.
  intro E. apply N. transitivity (y * y - x * x); [ring [H]|exact E].
Qed.
Lemma tw_E_nz : forall x y, even_tw (x, y) -> of_Z 2 - (y * y - x * x) <> 0.
Proof.
  intros x y H. pose proof (even_den (x, y) (x, y) H H) as [_ N]. destruct H as [H _]. apply tw_eq in H.
  intro E. apply N. transitivity (of_Z 2 - (y * y - x * x)); [ring [H]|exact E].
Qed.

(** phi maps the curve into the even points of the twist. *)
Lemma phi_even : forall P, on_ed P -> even_tw (phi P).
Proof.
  intros [x y] H. pose proof (ed_yx_nz x y H) as NB. pose proof (ed_E_nz x y H) as NE. destruct ed_inv as (e & HI).
  apply (ed_rule e _ _ HI) in H. unfold phi. split.
  - unfold on_tw, on_curve, tw_a. rewrite tw_d_eq.
    set (A := of_Z 2 * x * y). set (B := y * y - x * x) in *. set (C := y * y + x * x) in *. set (E := of_Z 2 - C) in *.
    assert (K : - (1) * (A * A) * (E * E) + C * C * (B * B) = B * B * (E * E) + (ed_d - 1) * (A * A) * (C * C)).
    { unfold A, B, E, C. ring [HI H]. }
    transitivity ((- (1) * (A * A) * (E * E) + C * C * (B * B)) / (B * B * (E * E))); [field; auto|].
    rewrite K. field. auto.
  - cbn [fst]. exists ((y * y + x * x) / (y * y - x * x)). field. exact NB.
Qed.

Lemma phi_identity : forall d e x1 y1 x2 y2 : F, d * e = 1 -> x1 * x1 * y1 * y1 = e * (x1 * x1 + y1 * y1 - 1) ->
  x2 * x2 * y2 * y2 = e * (x2 * x2 + y2 * y2 - 1) ->
  let p := 1 + d * x1 * x2 * y1 * y2 in let q := 1 - d * x1 * x2 * y1 * y2 in
  let n := x1 * y2 + y1 * x2 in let m := y1 * y2 - 1 * x1 * x2 in
  let A1 := of_Z 2 * x1 * y1 in let B1 := y1 * y1 - x1 * x1 in let C1 := y1 * y1 + x1 * x1 in let E1 := of_Z 2 - C1 in
  let A2 := of_Z 2 * x2 * y2 in let B2 := y2 * y2 - x2 * x2 in let C2 := y2 * y2 + x2 * x2 in let E2 := of_Z 2 - C2 in
  of_Z 2 * n * m * p * q * (B1 * B2 * E1 * E2 + (d - 1) * A1 * A2 * C1 * C2) =
    (A1 * B2 * C2 * E1 + A2 * B1 * C1 * E2) * (m * m * p * p - n * n * q * q) /\
  (m * m * p * p + n * n * q * q) * (B1 * B2 * E1 * E2 - (d - 1) * A1 * A2 * C1 * C2) =
    (B1 * B2 * C1 * C2 + A1 * A2 * E1 * E2) * (of_Z 2 * p * p * q * q - (m * m * p * p + n * n * q * q)).
Proof.
  intros d e x1 y1 x2 y2 HI H1 H2 p q n m A1 B1 C1 E1 A2 B2 C2 E2. unfold p, q, n, m, A1, B1, E1, C1, A2, B2, E2, C2.
  split; ring [HI H1 H2].
Qed.

Lemma phi_add : forall P Q, on_ed P -> on_ed Q -> phi (padd ed_a ed_d P Q) = padd tw_a tw_d (phi P) (phi Q).
Proof.
  intros P Q HP HQ. pose proof (eg_add _ _ _ ed_group P Q HP HQ) as HR. pose proof (eg_den _ _ _ ed_group P Q HP HQ) as DN.
  pose proof (eg_den _ _ _ tw_group _ _ (phi_even P HP) (phi_even Q HQ)) as DT.
  destruct P as [x1 y1], Q as [x2 y2]. destruct DN as [Np Nq].
  pose proof (ed_yx_nz _ _ HP) as NB1. pose proof (ed_E_nz _ _ HP) as NE1. pose proof (ed_yx_nz _ _ HQ) as NB2. pose proof (ed_E_nz _ _ HQ) as NE2.
  destruct ed_inv as (e & HI). apply (ed_rule e _ _ HI) in HP. apply (ed_rule e _ _ HI) in HQ.
  destruct (phi_identity _ e x1 y1 x2 y2 HI HP HQ) as [K1 K2]. cbv zeta in K1, K2. clear HP HQ HI.
  unfold padd in HR. pose proof (ed_yx_nz _ _ HR) as NB3. pose proof (ed_E_nz _ _ HR) as NE3. clear HR.
  unfold phi, den_ok in DT. destruct DT as [DT1 DT2]. unfold phi, padd. rewrite tw_d_eq in *. unfold ed_a, tw_a in *.
  set (p := 1 + ed_d * x1 * x2 * y1 * y2) in *. set (q := 1 - ed_d * x1 * x2 * y1 * y2) in *.
  set (n := x1 * y2 + y1 * x2) in *. set (m := y1 * y2 - 1 * x1 * x2) in *.
  set (A1 := of_Z 2 * x1 * y1) in *. set (B1 := y1 * y1 - x1 * x1) in *. set (C1 := y1 * y1 + x1 * x1) in *. set (E1 := of_Z 2 - C1) in *.
  set (A2 := of_Z 2 * x2 * y2) in *. set (B2 := y2 * y2 - x2 * x2) in *. set (C2 := y2 * y2 + x2 * x2) in *. set (E2 := of_Z 2 - C2) in *.
  clearbody p q n m A1 B1 E1 A2 B2 E2 C1 C2. revert K1 K2 NB3 NE3 DT1 DT2. generalize (ed_d - 1). intros dd K1 K2 NB3 NE3 DT1 DT2.
  assert (U1 : m / q * (m / q) - n / p * (n / p) = (m * m * p * p - n * n * q * q) / (p * p * q * q)) by (field; auto).
  assert (U2 : of_Z 2 - (m / q * (m / q) + n / p * (n / p)) = (of_Z 2 * p * p * q * q - (m * m * p * p + n * n * q * q)) / (p * p * q * q)) by (field; auto).
  assert (U3 : 1 + dd * (A1 / B1) * (A2 / B2) * (C1 / E1) * (C2 / E2) = (B1 * B2 * E1 * E2 + dd * A1 * A2 * C1 * C2) / (B1 * B2 * E1 * E2)) by (field; auto).
  assert (U4 : 1 - dd * (A1 / B1) * (A2 / B2) * (C1 / E1) * (C2 / E2) = (B1 * B2 * E1 * E2 - dd * A1 * A2 * C1 * C2) / (B1 * B2 * E1 * E2)) by (field; auto).
  assert (DP : p * p * q * q <> 0) by (repeat apply fmul_nonzero; assumption).
  assert (DB : B1 * B2 * E1 * E2 <> 0) by (repeat apply fmul_nonzero; assumption).
  assert (W : forall u D, D <> 0 -> u / D <> 0 -> u <> 0).
  { intros u D' HD H E. apply H. rewrite E. field. exact HD. }
  rewrite U1 in NB3. rewrite U2 in NE3. rewrite U3 in DT1. rewrite U4 in DT2.
  apply (W _ _ DP) in NB3. apply (W _ _ DP) in NE3. apply (W _ _ DB) in DT1. apply (W _ _ DB) in DT2.
  rewrite U1, U2, U3, U4. clear U1 U2 U3 U4 W. apply pt_eq.
  - transitivity (of_Z 2 * n * m * p * q / (m * m * p * p - n * n * q * q)); [field; auto|].
    transitivity ((A1 * B2 * C2 * E1 + A2 * B1 * C1 * E2) / (B1 * B2 * E1 * E2 + dd * A1 * A2 * C1 * C2)); [apply fdiv_eq; assumption|field; auto 10].
  - transitivity ((m * m * p * p + n * n * q * q) / (of_Z 2 * p * p * q * q - (m * m * p * p + n * n * q * q))); [field; auto|].
    transitivity ((B1 * B2 * C1 * C2 + A1 * A2 * E1 * E2) / (B1 * B2 * E1 * E2 - dd * A1 * A2 * C1 * C2)); [apply fdiv_eq; assumption|field; auto 10].
Qed.

Lemma phi_zero : phi pzero = pzero.
Proof.
  unfold phi, pzero. apply pt_eq; apply fdiv_val; try ring.
  - replace (1 * 1 - 0 * 0) with (1 : F) by ring. exact F_1_neq_0.
  - replace (of_Z 2 - (1 * 1 + 0 * 0)) with (1 : F) by ring. exact F_1_neq_0.
Qed.
Lemma phi_neg : forall P, phi (pneg P) = pneg (phi P).
Proof.
  intros [x y]. unfold phi, pneg. apply pt_eq.
  - rewrite !(Fdiv_def F_field). replace (- x * - x) with (x * x) by ring. ring.
  - apply fdiv_cong; ring.
Qed.
Lemma phi_mul : forall n P, (0 <= n)%Z -> on_ed P -> phi (pmul ed_a ed_d n P) = pmul tw_a tw_d n (phi P).
Proof.
  intros n P Hn HP. revert n Hn. apply pmul_ind.
  - apply phi_zero.
  - intros n Hn IH. rewrite !pmul_succ by exact Hn. rewrite phi_add, IH; [reflexivity|exact HP|].
    apply (pmul_S _ _ _ ed_group). exact HP.
Qed.

Lemma ed_dbl_eq : forall x y, on_ed (x, y) -> padd ed_a ed_d (x, y) (x, y) =
  (of_Z 2 * x * y / (y * y + x * x), (y * y - x * x) / (of_Z 2 - (y * y + x * x))).
Proof.
  intros x y H. apply ed_eq in H. unfold padd, ed_a. apply pt_eq; apply fdiv_cong; try ring; ring [H].
Qed.
Lemma tw_dbl_eq : forall x y, on_tw (x, y) -> padd tw_a tw_d (x, y) (x, y) =
  (of_Z 2 * x * y / (y * y - x * x), (y * y + x * x) / (of_Z 2 - (y * y - x * x))).
Proof.
  intros x y H. apply tw_eq in H. unfold padd, tw_a. apply pt_eq; apply fdiv_cong; try ring; ring [H].
Qed.

Lemma phihat_on : forall P, even_tw P -> on_ed (phihat P).
Proof.
  intros [x y] H. pose proof (tw_E_nz x y H) as NE. destruct H as [H _]. pose proof (tw_C_nz x y H) as NB. destruct tw_inv as (e & HI).
  apply (tw_rule e _ _ HI) in H. unfold phihat. unfold on_ed, on_curve, ed_a.
  assert (DD : ed_d = tw_d + 1) by (rewrite tw_d_eq; ring). rewrite DD.
  set (A := of_Z 2 * x * y). set (B := y * y - x * x) in *. set (C := y * y + x * x) in *. set (E := of_Z 2 - B) in *.
  assert (K : 1 * (A * A) * (E * E) + B * B * (C * C) = C * C * (E * E) + (tw_d + 1) * (A * A) * (B * B)).
  { unfold B in H. unfold A, E, B, C. ring [HI H]. }
  transitivity ((1 * (A * A) * (E * E) + B * B * (C * C)) / (C * C * (E * E))); [field; auto|]. rewrite K. field. auto.
Qed.

Lemma pmul_4 : forall a d S, edw_group a d S -> forall P, S P -> pmul a d 4 P = padd a d (padd a d P P) (padd a d P P).
Proof.
  intros a d S G P HP. change 4%Z with (2 * 2)%Z. rewrite (pmul_mul _ _ _ G) by (lia || exact HP). rewrite !pmul_2. reflexivity.
Qed.

Theorem phihat_phi : forall P, on_ed P -> phihat (phi P) = pmul ed_a ed_d 4 P.
Proof.
  intros P H. rewrite (pmul_4 _ _ _ ed_group) by exact H. pose proof (phi_even P H) as HE.
  pose proof (eg_add _ _ _ ed_group P P H H) as H2. destruct P as [x y].
  pose proof (ed_yx_nz x y H) as NB. pose proof (ed_C_nz x y H) as NC. pose proof (ed_E_nz x y H) as NE.
  rewrite ed_dbl_eq in * by exact H. rewrite ed_dbl_eq by exact H2.
  unfold phi in *. pose proof (tw_C_nz _ _ (proj1 HE)) as N1. pose proof (tw_E_nz _ _ HE) as N2. clear HE.
  pose proof (ed_C_nz _ _ H2) as N3. pose proof (ed_E_nz _ _ H2) as N4. clear H2 H. unfold phihat.
  assert (K : (of_Z 2 * x * y) * (of_Z 2 * x * y) = (y * y + x * x) * (y * y + x * x) - (y * y - x * x) * (y * y - x * x)) by ring.
  set (A := of_Z 2 * x * y) in *. set (B := y * y - x * x) in *. set (C := y * y + x * x) in *. set (E := of_Z 2 - C) in *.
  clearbody A B E C.
  assert (W : forall u D, D <> 0 -> u / D <> 0 -> u <> 0).
  { intros u D' HD Hu Eu. apply Hu. rewrite Eu. field. exact HD. }
  assert (U1 : C / E * (C / E) + A / B * (A / B) = (B * B * (C * C) + (C * C - B * B) * (E * E)) / (B * B * (E * E))).
  { transitivity ((B * B * (C * C) + (A * A) * (E * E)) / (B * B * (E * E))); [field; auto|]. rewrite K. reflexivity. }
  assert (U2 : of_Z 2 - (C / E * (C / E) - A / B * (A / B)) = (of_Z 2 * B * B * E * E - (B * B * (C * C) - (C * C - B * B) * (E * E))) / (B * B * (E * E))).
  { transitivity ((of_Z 2 * B * B * E * E - (B * B * (C * C) - (A * A) * (E * E))) / (B * B * (E * E))); [field; auto|]. rewrite K. reflexivity. }
  assert (U3 : B / E * (B / E) + A / C * (A / C) = (B * B * (C * C) + (C * C - B * B) * (E * E)) / (C * C * (E * E))).
  { transitivity ((B * B * (C * C) + (A * A) * (E * E)) / (C * C * (E * E))); [field; auto|]. rewrite K. reflexivity. }
  assert (U4 : of_Z 2 - (B / E * (B / E) + A / C * (A / C)) = (of_Z 2 * C * C * E * E - (B * B * (C * C) + (C * C - B * B) * (E * E))) / (C * C * (E * E))).
  { transitivity ((of_Z 2 * C * C * E * E - (B * B * (C * C) + (A * A) * (E * E))) / (C * C * (E * E))); [field; auto|]. rewrite K. reflexivity. }
  rewrite U1 in *. rewrite U2 in *. rewrite U3 in *. rewrite U4 in *.
  apply W in N1; [|repeat apply fmul_nonzero; assumption]. apply W in N2; [|repeat apply fmul_nonzero; assumption].
  apply W in N3; [|repeat apply fmul_nonzero; assumption]. apply W in N4; [|repeat apply fmul_nonzero; assumption].
  clear U1 U2 U3 U4 W. apply pt_eq.
  - field. auto 10.
  - transitivity ((B * B * (C * C) - (A * A) * (E * E)) / (of_Z 2 * C * C * E * E - (B * B * (C * C) + (C * C - B * B) * (E * E)))).
    + transitivity ((B * B * (C * C) - (A * A) * (E * E)) / (of_Z 2 * B * B * E * E - (B * B * (C * C) - (C * C - B * B) * (E * E)))); [field; auto 10|].
      apply fdiv_cong; ring.
    + field; auto 10.
Qed.

Theorem phi_phihat : forall P, even_tw P -> phi (phihat P) = pmul tw_a tw_d 4 P.
Proof.
  intros P H. rewrite (pmul_4 _ _ _ tw_group) by exact H. pose proof (phihat_on P H) as HE.
  pose proof (eg_add _ _ _ tw_group P P H H) as H2. destruct P as [x y].
  pose proof (tw_B_nz x y H) as NB. pose proof (tw_C_nz x y (proj1 H)) as NC. pose proof (tw_E_nz x y H) as NE.
  rewrite tw_dbl_eq in * by exact (proj1 H). rewrite tw_dbl_eq by exact (proj1 H2).
  unfold phihat in *. pose proof (ed_yx_nz _ _ HE) as N1. pose proof (ed_E_nz _ _ HE) as N2. clear HE.
  pose proof (tw_B_nz _ _ H2) as N3. pose proof (tw_E_nz _ _ H2) as N4. clear H2 H. unfold phi.
  assert (K : (of_Z 2 * x * y) * (of_Z 2 * x * y) = (y * y + x * x) * (y * y + x * x) - (y * y - x * x) * (y * y - x * x)) by ring.
  set (A := of_Z 2 * x * y) in *. set (C := y * y + x * x) in *. set (B := y * y - x * x) in *. set (E := of_Z 2 - B) in *.
  clearbody A E B C.
  assert (W : forall u D, D <> 0 -> u / D <> 0 -> u <> 0).
  { intros u D' HD Hu Eu. apply Hu. rewrite Eu. field. exact HD. }
  assert (U1 : B / E * (B / E) - A / C * (A / C) = (B * B * (C * C) - (C * C - B * B) * (E * E)) / (C * C * (E * E))).
  { transitivity ((B * B * (C * C) - (A * A) * (E * E)) / (C * C * (E * E))); [field; auto|]. rewrite K. reflexivity. }
  assert (U2 : of_Z 2 - (B / E * (B / E) + A / C * (A / C)) = (of_Z 2 * C * C * E * E - (B * B * (C * C) + (C * C - B * B) * (E * E))) / (C * C * (E * E))).
  { transitivity ((of_Z 2 * C * C * E * E - (B * B * (C * C) + (A * A) * (E * E))) / (C * C * (E * E))); [field; auto|]. rewrite K. reflexivity. }
  assert (U3 : C / E * (C / E) - A / B * (A / B) = (B * B * (C * C) - (C * C - B * B) * (E * E)) / (B * B * (E * E))).
  { transitivity ((B * B * (C * C) - (A * A) * (E * E)) / (B * B * (E * E))); [field; auto|]. rewrite K. reflexivity. }
  assert (U4 : of_Z 2 - (C / E * (C / E) - A / B * (A / B)) = (of_Z 2 * B * B * E * E - (B * B * (C * C) - (C * C - B * B) * (E * E))) / (B * B * (E * E))).
  { transitivity ((of_Z 2 * B * B * E * E - (B * B * (C * C) - (A * A) * (E * E))) / (B * B * (E * E))); [field; auto|]. rewrite K. reflexivity. }
  rewrite U1 in *. rewrite U2 in *. rewrite U3 in *. rewrite U4 in *.
  apply W in N1; [|repeat apply fmul_nonzero; assumption]. apply W in N2; [|repeat apply fmul_nonzero; assumption].
  apply W in N3; [|repeat apply fmul_nonzero; assumption]. apply W in N4; [|repeat apply fmul_nonzero; assumption].
  clear U1 U2 U3 U4 W. apply pt_eq.
  - field. auto 10.
  - transitivity ((B * B * (C * C) + (A * A) * (E * E)) / (of_Z 2 * B * B * E * E - (B * B * (C * C) - (C * C - B * B) * (E * E)))).
    + transitivity ((B * B * (C * C) + (A * A) * (E * E)) / (of_Z 2 * C * C * E * E - (B * B * (C * C) + (C * C - B * B) * (E * E)))); [field; auto 10|].
      apply fdiv_cong; ring.
    + field; auto 10.
Qed.
