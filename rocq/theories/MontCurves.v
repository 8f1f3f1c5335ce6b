(** Curve448 and its twist as groups. *)
Require Import ZArith List Bool Lia Ring Field.
From Verif Require Import SpecParams SpecField SpecCurve SpecMontgomery FieldTheory EdwardsTheory CurveTheory ScalarMulProofs MontTheory Ladder LadderMont.
Import ListNotations.
Open Scope F_scope.
Local Opaque fadd fsub fmul fopp fdiv finv fpow of_Z.

Lemma A_minus_2 : mont_A = of_Z 4 * of_Z 39081 + of_Z 2.
Proof. unfold mont_A. rewrite <- of_Z_mul, <- of_Z_add. reflexivity. Qed.
Lemma A_plus_2 : mont_A + of_Z 2 = of_Z 4 * of_Z 39082.
Proof. unfold mont_A. rewrite <- of_Z_mul, <- of_Z_add. reflexivity. Qed.
Lemma nonsq_4 : forall x, ~ is_square x -> ~ is_square (of_Z 4 * x).
Proof.
  intros x N S. apply N. apply (square_mul_cancel x (of_Z 2 * of_Z 2)); [apply fmul_nonzero; exact F_2_neq_0|apply square_sq|].
  replace (x * (of_Z 2 * of_Z 2)) with (of_Z 4 * x) by ring. exact S.
Qed.
Lemma nsq_A2 : ~ is_square (mont_A + of_Z 2). Proof. rewrite A_plus_2. apply nonsq_4. exact nsq_39082. Qed.
Lemma nsq_mA2 : ~ is_square (- mont_A + of_Z 2).
Proof.
  rewrite A_minus_2. replace (- (of_Z 4 * of_Z 39081 + of_Z 2) + of_Z 2) with (of_Z 4 * - of_Z 39081) by ring. apply nonsq_4.
  rewrite <- ed_d_eq. exact nsq_ed_d.
Qed.
Lemma curve_c : exists c, mont_A = c * c + of_Z 2 /\ c <> 0.
Proof.
  destruct sq_39081 as [r Hr]. exists (of_Z 2 * r). split; [rewrite A_minus_2, <- Hr; ring|].
  apply fmul_nonzero; [exact F_2_neq_0|]. intro E. apply nz_39081. rewrite <- Hr, E. ring.
Qed.
Lemma twist_c : exists c, - mont_A = c * c + of_Z 2 /\ c <> 0.
Proof.
  destruct sq_m39082 as [r Hr0]. pose proof (eq_trans Hr0 (neg_of_Z 39082)) as Hr. clear Hr0. exists (of_Z 2 * r). split.
  - transitivity (- (mont_A + of_Z 2) + of_Z 2); [ring|]. rewrite A_plus_2. replace (of_Z 39082) with (- (r * r)) by (rewrite Hr; ring). ring.
  - apply fmul_nonzero; [exact F_2_neq_0|]. intro E. apply nz_39082. apply fopp_0_iff. rewrite <- Hr, E. ring.
Qed.
Lemma dcc : forall A c, c <> 0 -> (A + of_Z 2) / (c * c) * (c * c) = A + of_Z 2.
Proof. intros A c N. field. exact N. Qed.

Theorem ladder_exact : forall e bits P, curve_or_twist e -> on_mont mont_A e P -> P <> None -> let u := ucoord P in
  lval (lloop u bits false ((1, 0), (u, 1))) = ucoord (mont_mul mont_A e (bits_acc bits 0 + Z.b2z (last bits false)) P).
Proof.
  intros e bits P [->| ->] H NP; cbv zeta.
  - destruct curve_c as (c & HA & Nc). pose proof (mont_ladder_sg 1 mont_A c ((mont_A + of_Z 2) / (c * c))) as K.
    specialize (K ltac:(ring) ltac:(ring) HA Nc nsq_A2 (dcc _ _ Nc) bits P H NP). cbv zeta in K. rewrite !(Rmul_1_l F_ring) in K. exact K.
  - destruct twist_c as (c & HA & Nc). pose proof (mont_ladder_sg (- (1)) (- mont_A) c ((- mont_A + of_Z 2) / (c * c))) as K.
    assert (NF : flip P <> None). { destruct P as [[u v]|]; [discriminate|exact NP]. }
    specialize (K ltac:(ring) ltac:(ring) HA Nc nsq_mA2 (dcc _ _ Nc) bits (flip P) (flip_on _ _ H) NF). cbv zeta in K.
    rewrite <- flip_mul, !flip_ucoord in K. assert (M : forall x : F, - (1) * - x = x) by (intro x; ring). rewrite !M in K. exact K.
Qed.

Lemma mont_neg_flip : forall P, flip (mont_neg P) = mont_neg (flip P). Proof. intros [[u v]|]; reflexivity. Qed.
Lemma flip_inj : forall P Q, flip P = flip Q -> P = Q.
Proof. intros P Q E. rewrite <- (flip_flip P), <- (flip_flip Q), E. reflexivity. Qed.

Theorem mont_is_group : forall e, curve_or_twist e -> forall P Q R, on_mont mont_A e P -> on_mont mont_A e Q -> on_mont mont_A e R ->
  on_mont mont_A e (mont_add mont_A e P Q) /\
  mont_add mont_A e (mont_add mont_A e P Q) R = mont_add mont_A e P (mont_add mont_A e Q R) /\
  mont_add mont_A e P Q = mont_add mont_A e Q P /\ mont_add mont_A e P None = P /\ mont_add mont_A e P (mont_neg P) = None.
Proof.
  intros e [->| ->] P Q R HP HQ HR.
  - destruct curve_c as (c & HA & Nc). exact (mont_group mont_A c _ HA Nc nsq_A2 (dcc _ _ Nc) P Q R HP HQ HR).
  - destruct twist_c as (c & HA & Nc).
    destruct (mont_group (- mont_A) c _ HA Nc nsq_mA2 (dcc _ _ Nc) (flip P) (flip Q) (flip R) (flip_on _ _ HP) (flip_on _ _ HQ) (flip_on _ _ HR)) as (O & As & Co & Ze & Ne).
    rewrite <- !flip_add in *. rewrite <- mont_neg_flip, <- flip_add in Ne.
    split; [apply flip_on'; exact O|]. split; [apply flip_inj; exact As|]. split; [apply flip_inj; exact Co|].
    split; [destruct P as [[u v]|]; reflexivity|]. apply flip_inj. exact Ne.
Qed.
Theorem mont_mul_on : forall e, curve_or_twist e -> forall n P, on_mont mont_A e P -> on_mont mont_A e (mont_mul mont_A e n P).
Proof.
  intros e He n P H. unfold mont_mul. induction (Z.to_nat n) as [|k IH]; cbn [mont_mul_nat]; [exact I|].
  exact (proj1 (mont_is_group e He P _ None H IH I)).
Qed.
Theorem mont_mul_assoc : forall e, curve_or_twist e -> forall m n P, (0 <= m)%Z -> (0 <= n)%Z -> on_mont mont_A e P ->
  mont_mul mont_A e m (mont_mul mont_A e n P) = mont_mul mont_A e (m * n) P.
Proof.
  intros e [->| ->] m n P Hm Hn H.
  - destruct curve_c as (c & HA & Nc). exact (mont_mul_mul mont_A c _ HA Nc nsq_A2 (dcc _ _ Nc) m n P Hm Hn H).
  - destruct twist_c as (c & HA & Nc). apply flip_inj. rewrite !flip_mul.
    exact (mont_mul_mul (- mont_A) c _ HA Nc nsq_mA2 (dcc _ _ Nc) m n (flip P) Hm Hn (flip_on _ _ H)).
Qed.

(** Every u is on the curve or on the twist. *)
Theorem mont_u_exists : forall u, exists e v, curve_or_twist e /\ on_mont mont_A e (Some (u, v)).
Proof.
  intro u. destruct (square_or_neg (u * u * u + mont_A * (u * u) + u)) as [[v Hv]|[v Hv]].
  - exists 1, v. split; [left; reflexivity|]. cbn. rewrite Hv. ring.
  - exists (- (1)), v. split; [right; reflexivity|]. cbn. rewrite Hv. ring.
Qed.

(** Points with u = 0. *)
Lemma u0_mul : forall e, curve_or_twist e -> forall n P, on_mont mont_A e P -> ucoord P = 0 -> ucoord (mont_mul mont_A e n P) = 0.
Proof.
  intros e He n P H E. assert (K : mont_mul mont_A e n P = None \/ mont_mul mont_A e n P = P).
  { unfold mont_mul. induction (Z.to_nat n) as [|k IH]; cbn [mont_mul_nat]; [left; reflexivity|]. destruct IH as [IH|IH]; rewrite IH.
    - right. destruct P as [[u v]|]; reflexivity.
    - left. destruct P as [[u v]|]; [|reflexivity]. cbn [ucoord] in E. cbn [on_mont] in H. rewrite E in H.
      assert (V : v = 0). { apply fsq_0. assert (Z : e * (v * v) = 0) by (rewrite H; ring). destruct He as [->| ->].
        - rewrite <- Z. ring.
        - transitivity (- (- (1) * (v * v))); [ring|]. rewrite Z. ring. }
      cbn [mont_add]. rewrite feqb_refl, V. replace (- (0)) with (0 : F) by ring. rewrite feqb_refl. reflexivity. }
  destruct K as [-> | ->]; [reflexivity|exact E].
Qed.

(** Doubling: u(2P) = (u^2 - 1)^2 / (4 u (u^2 + A u + 1)), and when it is zero. *)
Definition udbl (u : F) : F := (u * u - 1) * (u * u - 1) / (of_Z 4 * u * (u * u + mont_A * u + 1)).
Lemma lval_dbl : forall u, lval (lloop u [true] false ((1, 0), (u, 1))) = udbl u.
Proof.
  intro u. cbn [lloop lswap xorb lstep fst snd]. unfold lval, udbl. cbn [fst snd]. rewrite (Fdiv_def F_field).
  replace (of_Z 4 * (u * 1) * (u * u + mont_A * (u * 1) + 1 * 1)) with (of_Z 4 * u * (u * u + mont_A * u + 1)) by ring.
  replace (u * u - 1 * 1) with (u * u - 1) by ring. reflexivity.
Qed.
Lemma ucoord_dbl : forall e, curve_or_twist e -> forall P, on_mont mont_A e P -> P <> None -> ucoord (mont_mul mont_A e 2 P) = udbl (ucoord P).
Proof. intros e He P H NP. rewrite <- lval_dbl. symmetry. exact (ladder_exact e [true] P He H NP). Qed.
Lemma quad_A : forall u, u * u + mont_A * u + 1 <> 0.
Proof. destruct curve_c as (c & HA & Nc). exact (quad_nz mont_A c HA Nc nsq_A2). Qed.
Lemma udbl_0 : forall u, udbl u = 0 <-> u = 0 \/ u = 1 \/ u = - (1).
Proof.
  intro u. unfold udbl. rewrite (Fdiv_def F_field). split.
  - intro H. apply fmul_integral in H. destruct H as [H|H].
    + apply fsq_0 in H. right. apply fsq_eq. rewrite (proj1 (fsub_0_eq _ _) H). ring.
    + left. destruct (F_eq_dec u 0) as [E|N]; [exact E|]. exfalso. revert H. apply finv_nonzero.
      repeat apply fmul_nonzero; [exact F_4_neq_0|exact N|apply quad_A].
  - intros [E|[E|E]]; rewrite E.
    + replace (of_Z 4 * 0 * (0 * 0 + mont_A * 0 + 1)) with (0 : F) by ring. rewrite finv_0. ring.
    + ring.
    + ring.
Qed.
