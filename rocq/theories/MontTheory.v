(** The chord-and-tangent law of v^2 = u^3 + A u^2 + u, carried to a complete Edwards curve. *)
Require Import ZArith Lia Ring Field.
From Verif Require Import SpecParams SpecField SpecCurve SpecMontgomery FieldTheory EdwardsTheory.
Open Scope F_scope.
Local Opaque fadd fsub fmul fopp fdiv finv fpow of_Z.

Lemma fadd_sub : forall x y z : F, x + y = z -> x = z - y.
Proof. intros x y z <-. ring. Qed.
Lemma fdiv_0_l : forall x, 0 / x = 0.
Proof. intro x. rewrite (Fdiv_def F_field). ring. Qed.
Lemma fdiv_0_r : forall x, x / 0 = 0.
Proof. intro x. rewrite (Fdiv_def F_field), finv_0. ring. Qed.
Lemma some_pt : forall x y z w : F, x = z -> y = w -> Some (x, y) = Some (z, w).
Proof. intros x y z w -> ->. reflexivity. Qed.

Lemma fdiv_opp : forall x y, x / - y = - (x / y).
Proof.
  intros x y. destruct (F_eq_dec y 0) as [E|N].
  - rewrite E. replace (- (0)) with (0 : F) by ring. rewrite fdiv_0_r. ring.
  - field. split; [exact N|]. intro E. apply N. apply fopp_0_iff. exact E.
Qed.

Section Mont.
Variables A c d : F.
Hypothesis HA : A = c * c + of_Z 2.
Hypothesis Nc : c <> 0.
Hypothesis NS : ~ is_square (A + of_Z 2).
Hypothesis Hd : d * (c * c) = A + of_Z 2.

Local Notation on := (on_mont A 1).
Local Notation add := (mont_add A 1).

Definition psi (P : mpoint) : point :=
  match P with
  | None => pzero
  | Some (u, v) => (c * u / v, (u + 1) / (u - 1))
  end.

Lemma nz_A2 : A + of_Z 2 <> 0. Proof. apply nonsquare_nonzero. exact NS. Qed.
Lemma nsq_d : ~ is_square d.
Proof. intro S. apply NS. rewrite <- Hd. apply square_mul; [exact S|apply square_sq]. Qed.
Lemma d_neq_1 : d <> 1.
Proof. intro E. apply F_4_neq_0. transitivity (A + of_Z 2 - c * c); [rewrite HA; ring|]. rewrite <- Hd, E. ring. Qed.
Lemma G : edw_group 1 d (on_curve 1 d). Proof. apply complete_group. exact nsq_d. Qed.

Lemma mont_eq : forall u v, on (Some (u, v)) -> v * v = u * u * u + A * (u * u) + u.
Proof. intros u v H. cbn in H. rewrite <- H. ring. Qed.
Lemma mont_eq' : forall u v, v * v = u * u * u + A * (u * u) + u -> on (Some (u, v)).
Proof. intros u v H. cbn. rewrite <- H. ring. Qed.
Lemma quad_nz : forall u, u * u + A * u + 1 <> 0.
Proof.
  intros u E. assert (S : (of_Z 2 * u + A) * (of_Z 2 * u + A) = (A + of_Z 2) * (c * c)).
  { transitivity (of_Z 4 * (u * u + A * u + 1) + (A * A - of_Z 4)); [ring|]. rewrite E, HA. ring. }
  apply NS. apply (square_mul_cancel _ (c * c)); [apply fmul_nonzero; exact Nc|apply square_sq|]. rewrite <- S. apply square_sq.
Qed.
Lemma v0_u0 : forall u v, on (Some (u, v)) -> v = 0 -> u = 0.
Proof.
  intros u v H E. apply mont_eq in H. assert (K : u * (u * u + A * u + 1) = 0).
  { transitivity (v * v); [rewrite H; ring|rewrite E; ring]. }
  apply fmul_integral in K. destruct K as [K|K]; [exact K|]. destruct (quad_nz u K).
Qed.
Lemma u0_v0 : forall u v, on (Some (u, v)) -> u = 0 -> v = 0.
Proof. intros u v H E. apply mont_eq in H. apply fsq_0. rewrite H, E. ring. Qed.
Lemma u_neq_1 : forall u v, on (Some (u, v)) -> u - 1 <> 0.
Proof.
  intros u v H E. apply (proj1 (fsub_0_eq _ _)) in E. apply mont_eq in H. apply NS. exists v. rewrite H, E. ring.
Qed.

Lemma psi_on : forall P, on P -> on_curve 1 d (psi P).
Proof.
  intros [[u v]|] H; [|apply on_curve_zero]. pose proof (u_neq_1 u v H) as N1. unfold psi, on_curve.
  destruct (F_eq_dec v 0) as [E|Nv].
  - pose proof (v0_u0 u v H E) as U. assert (Y : (u + 1) / (u - 1) = - (1)) by (apply fdiv_val; [exact N1|rewrite U; ring]).
    assert (X : c * u / v = 0). { rewrite (Fdiv_def F_field), U. ring. } rewrite X, Y. ring.
  - apply mont_eq in H. assert (D : d = (A + of_Z 2) / (c * c)) by (symmetry; apply fdiv_val; [apply fmul_nonzero; exact Nc|rewrite Hd; reflexivity]).
    rewrite D. subst A. field_simplify_eq; [|auto]. ring [H].
Qed.

Lemma psi_ucoord : forall P, on P -> (snd (psi P) + 1) / (snd (psi P) - 1) = ucoord P.
Proof.
  intros [[u v]|] H; cbn [psi snd ucoord pzero].
  - pose proof (u_neq_1 u v H) as N. pose proof F_2_neq_0 as N2. field. split; [exact N|].
    replace (u + 1 - (u - 1)) with (of_Z 2) by ring. exact N2.
  - replace (1 - 1) with (0 : F) by ring. apply fdiv_0_r.
Qed.

(** The sum of two points is on the curve. *)
Lemma chord_on : forall u1 v1 u2 v2, on (Some (u1, v1)) -> on (Some (u2, v2)) -> u1 <> u2 ->
  on (mont_third A 1 ((v2 - v1) / (u2 - u1)) u1 v1 u2).
Proof.
  intros u1 v1 u2 v2 H1 H2 N. apply mont_eq in H1, H2. assert (N' : u2 - u1 <> 0) by (intro E; apply N; symmetry; apply fsub_0_eq; exact E).
  apply mont_eq'. field_simplify_eq; [|exact N']. ring [H1 H2].
Qed.
Lemma tangent_on : forall u v, on (Some (u, v)) -> v <> 0 ->
  on (mont_third A 1 ((of_Z 3 * (u * u) + of_Z 2 * A * u + 1) / (of_Z 2 * 1 * v)) u v u).
Proof.
  intros u v H N. apply mont_eq in H. pose proof F_2_neq_0 as N2.
  apply mont_eq'. field_simplify_eq; [|repeat split; auto; exact F_1_neq_0]. ring [H].
Qed.

Lemma d_val : d = (c * c + of_Z 4) / (c * c).
Proof. symmetry. apply fdiv_val; [apply fmul_nonzero; exact Nc|]. rewrite Hd, HA. ring. Qed.

(** The x-coordinate follows from the y-coordinate when that is -1. *)
Lemma y_m1_x0 : forall x y, on_curve 1 d (x, y) -> y = - (1) -> x = 0.
Proof.
  intros x y H E. unfold on_curve in H. rewrite E in H. assert (K : (1 - d) * (x * x) = 0).
  { transitivity (1 * (x * x) + - (1) * - (1) - (1 + d * (x * x) * (- (1) * - (1)))); [ring|]. rewrite H. ring. }
  apply fmul_integral in K. destruct K as [K|K]; [|apply fsq_0; exact K].
  apply (proj1 (fsub_0_eq _ _)) in K. destruct d_neq_1. symmetry. exact K.
Qed.

Lemma frac_plus_1 : forall a b : F, b <> 0 -> a / b = - (1) -> a + b = 0.
Proof. intros a b N E. transitivity ((a / b + 1) * b); [field; exact N|]. rewrite E. ring. Qed.

(** A point R of the Montgomery curve goes to P + Q if its u-coordinate does, and its v-coordinate when that is not zero. *)
Lemma psi_by : forall u3 v3 P Q, on (Some (u3, v3)) -> on_curve 1 d P -> on_curve 1 d Q ->
  (u3 + 1) / (u3 - 1) = snd (padd 1 d P Q) ->
  (v3 <> 0 -> c * u3 / v3 = fst (padd 1 d P Q)) -> psi (Some (u3, v3)) = padd 1 d P Q.
Proof.
  intros u3 v3 P Q H3 HP HQ EY EX. pose proof (eg_add _ _ _ G P Q HP HQ) as HS.
  destruct (padd 1 d P Q) as [xs ys] eqn:ES. cbn [fst snd] in *. unfold psi. apply pt_eq; [|exact EY].
  destruct (F_eq_dec v3 0) as [E|N]; [|exact (EX N)]. pose proof (v0_u0 _ _ H3 E) as U.
  pose proof (u_neq_1 _ _ H3) as N1. rewrite (y_m1_x0 _ _ HS).
  - rewrite (Fdiv_def F_field), U. ring.
  - rewrite <- EY. apply fdiv_val; [exact N1|]. rewrite U. ring.
Qed.

Section Chord.
Variables u1 v1 u2 v2 : F.
Hypothesis H1 : on (Some (u1, v1)).
Hypothesis H2 : on (Some (u2, v2)).
Hypothesis N12 : u1 <> u2.
Hypothesis N1 : v1 <> 0.
Hypothesis N2 : v2 <> 0.
Let u3 := 1 * ((v2 - v1) / (u2 - u1) * ((v2 - v1) / (u2 - u1))) - A - u1 - u2.
Let v3 := (v2 - v1) / (u2 - u1) * (u1 - u3) - v1.
Lemma N21 : u2 - u1 <> 0. Proof. intro E. apply N12. symmetry. apply fsub_0_eq. exact E. Qed.
(** u1 u2 u3 is the square of the intercept. *)
Lemma chord_u3 : u3 = (v1 * u2 - v2 * u1) * (v1 * u2 - v2 * u1) / (u1 * u2 * ((u2 - u1) * (u2 - u1))).
Proof.
  pose proof N21 as N. assert (Nu1 : u1 <> 0) by (intro E; apply N1; exact (u0_v0 _ _ H1 E)).
  assert (Nu2 : u2 <> 0) by (intro E; apply N2; exact (u0_v0 _ _ H2 E)).
  unfold u3. pose proof (mont_eq _ _ H1) as E1. pose proof (mont_eq _ _ H2) as E2.
  field_simplify_eq; [|repeat split; assumption]. ring [E1 E2].
Qed.
Lemma chord_hom : psi (Some (u3, v3)) = padd 1 d (psi (Some (u1, v1))) (psi (Some (u2, v2))).
Proof.
  pose proof (chord_on u1 v1 u2 v2 H1 H2 N12) as H3. pose proof N21 as N. fold u3 in H3. unfold mont_third in H3. fold u3 in H3. fold v3 in H3.
  pose proof (u_neq_1 _ _ H1) as M1. pose proof (u_neq_1 _ _ H2) as M2. pose proof (u_neq_1 _ _ H3) as M3.
  pose proof (psi_on _ H1) as O1. pose proof (psi_on _ H2) as O2.
  pose proof (eg_den _ _ _ G _ _ O1 O2) as DN. cbn [psi den_ok] in DN. destruct DN as [D1 D2].
  assert (Ncc : c * c <> 0) by (apply fmul_nonzero; exact Nc).
  pose proof (mont_eq _ _ H1) as E1. pose proof (mont_eq _ _ H2) as E2. pose proof d_val as D.
  apply psi_by; try assumption; cbn [psi padd fst snd].
  - apply fdiv_eq; [exact M3|exact D2|]. rewrite chord_u3. rewrite D. 
    assert (Nu1 : u1 <> 0) by (intro E; apply N1; exact (u0_v0 _ _ H1 E)).
    assert (Nu2 : u2 <> 0) by (intro E; apply N2; exact (u0_v0 _ _ H2 E)).
    rewrite HA in *. field_simplify_eq; [|repeat split; assumption]. ring [E1 E2].
  - intro N3. apply fdiv_eq; [exact N3|exact D1|]. unfold v3, u3. rewrite D. rewrite HA in *.
    field_simplify_eq; [|repeat split; assumption]. ring [E1 E2].
Qed.
End Chord.

Lemma tangent_hom : forall u v, on (Some (u, v)) -> v <> 0 ->
  psi (mont_third A 1 ((of_Z 3 * (u * u) + of_Z 2 * A * u + 1) / (of_Z 2 * 1 * v)) u v u) = padd 1 d (psi (Some (u, v))) (psi (Some (u, v))).
Proof.
  intros u v H Nv. pose proof (tangent_on u v H Nv) as H3. unfold mont_third in *.
  set (l := (of_Z 3 * (u * u) + of_Z 2 * A * u + 1) / (of_Z 2 * 1 * v)) in *.
  set (u3 := 1 * (l * l) - A - u - u) in *. set (v3 := l * (u - u3) - v) in *.
  pose proof (u_neq_1 _ _ H) as M1. pose proof (u_neq_1 _ _ H3) as M3. pose proof (psi_on _ H) as O1.
  pose proof (eg_den _ _ _ G _ _ O1 O1) as DN. cbn [psi den_ok] in DN. destruct DN as [D1 D2].
  assert (Ncc : c * c <> 0) by (apply fmul_nonzero; exact Nc). pose proof F_2_neq_0 as T. pose proof F_1_neq_0 as O.
  pose proof (mont_eq _ _ H) as E1. pose proof d_val as D.
  apply psi_by; try assumption; cbn [psi padd fst snd].
  - apply fdiv_eq; [exact M3|exact D2|]. unfold u3, l. rewrite D. rewrite HA in *.
    field_simplify_eq; [|repeat split; assumption]. ring [E1].
  - intro N3. apply fdiv_eq; [exact N3|exact D1|]. unfold v3, u3, l. rewrite D. rewrite HA in *.
    field_simplify_eq; [|repeat split; assumption]. ring [E1].
Qed.

Lemma psi_T : forall v, psi (Some (0, v)) = (0, - (1)).
Proof.
  intro v. unfold psi. apply pt_eq.
  - rewrite (Fdiv_def F_field). ring.
  - apply fdiv_val; [|ring]. intro K. apply F_1_neq_0. transitivity (0 - (0 - 1)); [ring|]. rewrite K. ring.
Qed.
Lemma padd_T : forall x y, padd 1 d (0, - (1)) (x, y) = (- x, - y).
Proof.
  intros x y. unfold padd. replace (d * 0 * x * - (1) * y) with (0 : F) by ring.
  apply pt_eq; (apply fdiv_val; [|ring]); [replace (1 + 0) with (1 : F) by ring|replace (1 - 0) with (1 : F) by ring]; exact F_1_neq_0.
Qed.
(** (0, 0) + (u, v) = (1/u, -v/u^2) *)
Lemma psi_inverse : forall u v, on (Some (u, v)) -> u <> 0 -> psi (Some (1 / u, - (v / (u * u)))) = padd 1 d (0, - (1)) (psi (Some (u, v))).
Proof.
  intros u v H N. assert (Nv : v <> 0) by (intro E; apply N; exact (v0_u0 _ _ H E)). pose proof (u_neq_1 _ _ H) as N1.
  unfold psi. rewrite padd_T. apply pt_eq.
  - field. repeat split; try assumption. intro E. apply Nv. transitivity (- - v); [ring|]. rewrite E. ring.
  - field. repeat split; try assumption. intro E. apply N1. transitivity (- (1 - u)); [ring|]. rewrite E. ring.
Qed.

Theorem psi_add : forall P Q, on P -> on Q -> on (add P Q) /\ psi (add P Q) = padd 1 d (psi P) (psi Q).
Proof.
  intros [[u1 v1]|] [[u2 v2]|] HP HQ; cbn [mont_add].
  - destruct (feqb u1 u2) eqn:EU.
    + apply feqb_eq in EU. subst u2. destruct (feqb v1 (- v2)) eqn:EV.
      * apply feqb_eq in EV. split; [exact I|]. subst v1. pose proof (g_neg_r _ _ _ G _ (psi_on _ HQ)) as K.
        rewrite padd_comm in K. cbn [psi pneg] in *. rewrite fdiv_opp. symmetry. exact K.
      * apply feqb_neq in EV. pose proof (mont_eq _ _ HP) as E1. pose proof (mont_eq _ _ HQ) as E2. rewrite <- E1 in E2.
        apply fsq_eq in E2. assert (E : v2 = v1). { destruct E2 as [E|E]; [exact E|]. destruct EV. rewrite E. ring. } subst v2.
        assert (Nv : v1 <> 0) by (intro E; apply EV; rewrite E; ring).
        split; [apply tangent_on|apply tangent_hom]; assumption.
    + apply feqb_neq in EU. split; [apply chord_on; assumption|].
      destruct (F_eq_dec v1 0) as [E1|N1]; [|destruct (F_eq_dec v2 0) as [E2|N2]].
      * pose proof (v0_u0 _ _ HP E1) as U1. subst u1 v1. rewrite psi_T. assert (N : u2 <> 0) by (intro E; apply EU; symmetry; exact E).
        rewrite <- psi_inverse by assumption. unfold mont_third. apply f_equal. apply mont_eq in HQ.
        assert (M : u2 - 0 <> 0) by (intro E; apply N; rewrite <- E; ring).
        assert (K : 1 * ((v2 - 0) / (u2 - 0) * ((v2 - 0) / (u2 - 0))) - A - 0 - u2 = 1 / u2).
        { transitivity (v2 * v2 / (u2 * u2) - A - u2); [field; exact N|]. rewrite HQ. field. exact N. }
        rewrite K. apply some_pt; [reflexivity|]. field. exact N.
      * pose proof (v0_u0 _ _ HQ E2) as U2. subst u2 v2. rewrite psi_T, padd_comm.
        rewrite <- psi_inverse by assumption. unfold mont_third. apply f_equal. apply mont_eq in HP.
        assert (M : 0 - u1 <> 0). { intro E. apply EU. transitivity (- (0 - u1)); [ring|]. rewrite E. ring. }
        assert (K : 1 * ((0 - v1) / (0 - u1) * ((0 - v1) / (0 - u1))) - A - u1 - 0 = 1 / u1).
        { transitivity (v1 * v1 / (u1 * u1) - A - u1); [field; auto|]. rewrite HP. field. exact EU. }
        rewrite K. apply some_pt; [reflexivity|]. field. auto.
      * apply chord_hom; assumption.
  - split; [exact HP|]. cbn [psi]. symmetry. apply padd_0_r.
  - split; [exact HQ|]. cbn [psi]. symmetry. apply padd_0_l.
  - split; [exact I|]. cbn [psi]. symmetry. apply padd_0_l.
Qed.

Theorem psi_mul : forall n P, on P -> on (mont_mul A 1 n P) /\ psi (mont_mul A 1 n P) = pmul 1 d n (psi P).
Proof.
  intros n P H. unfold mont_mul, pmul. induction (Z.to_nat n) as [|k IH]; cbn [mont_mul_nat pmul_nat]; [split; [exact I|reflexivity]|].
  destruct IH as [IO IH]. destruct (psi_add P _ H IO) as [O E]. split; [exact O|]. rewrite E, IH. reflexivity.
Qed.
Lemma psi_inj : forall P Q, on P -> on Q -> psi P = psi Q -> P = Q.
Proof.
  assert (K : forall u v, on (Some (u, v)) -> (u + 1) / (u - 1) <> 1).
  { intros u v H E. pose proof (u_neq_1 u v H) as N. apply F_2_neq_0. transitivity (((u + 1) / (u - 1) - 1) * (u - 1)); [field; exact N|]. rewrite E. ring. }
  intros [[u1 v1]|] [[u2 v2]|] HP HQ E; [| | |reflexivity]; unfold psi, pzero in E.
  - pose proof (psi_ucoord _ HP) as U1. pose proof (psi_ucoord _ HQ) as U2. cbn [psi snd ucoord] in U1, U2.
    pose proof (f_equal snd E) as EY. pose proof (f_equal fst E) as EX. cbn [fst snd] in EX, EY. rewrite EY, U2 in U1. subst u1.
    apply some_pt; [reflexivity|]. destruct (F_eq_dec u2 0) as [Z|N].
    + rewrite (u0_v0 _ _ HP Z), (u0_v0 _ _ HQ Z). reflexivity.
    + assert (N1 : v1 <> 0) by (intro V; apply N; exact (v0_u0 _ _ HP V)). assert (N2 : v2 <> 0) by (intro V; apply N; exact (v0_u0 _ _ HQ V)).
      apply (fmul_cancel_l (c * u2)); [apply fmul_nonzero; assumption|]. transitivity (c * u2 / v2 * (v1 * v2)); [|rewrite <- EX; field; exact N1].
      field. exact N2.
  - destruct (K _ _ HP). exact (f_equal snd E).
  - destruct (K _ _ HQ). symmetry. exact (f_equal snd E).
Qed.

Lemma mont_neg_on : forall P, on P -> on (mont_neg P).
Proof. intros [[u v]|] H; [|exact I]. cbn in *. rewrite <- H. ring. Qed.
Theorem mont_group : forall P Q R, on P -> on Q -> on R ->
  on (add P Q) /\ add (add P Q) R = add P (add Q R) /\ add P Q = add Q P /\ add P None = P /\ add P (mont_neg P) = None.
Proof.
  intros P Q R HP HQ HR. destruct (psi_add P Q HP HQ) as [O1 E1]. destruct (psi_add Q R HQ HR) as [O2 E2].
  destruct (psi_add _ R O1 HR) as [O3 E3]. destruct (psi_add P _ HP O2) as [O4 E4]. destruct (psi_add Q P HQ HP) as [O5 E5].
  split; [exact O1|]. split; [|split; [|split]].
  - apply psi_inj; try assumption. rewrite E3, E4, E1, E2. apply (g_assoc _ _ _ G); apply psi_on; assumption.
  - apply psi_inj; try assumption. rewrite E1, E5. apply padd_comm.
  - destruct P as [[u v]|]; reflexivity.
  - destruct P as [[u v]|]; [|reflexivity]. cbn [mont_neg mont_add]. rewrite feqb_refl. replace (- - v) with v by ring. rewrite feqb_refl. reflexivity.
Qed.
Theorem mont_mul_mul : forall m n P, (0 <= m)%Z -> (0 <= n)%Z -> on P -> mont_mul A 1 m (mont_mul A 1 n P) = mont_mul A 1 (m * n) P.
Proof.
  intros m n P Hm Hn H. destruct (psi_mul n P H) as [O1 E1]. destruct (psi_mul m _ O1) as [O2 E2]. destruct (psi_mul (m * n) P H) as [O3 E3].
  apply psi_inj; try assumption. rewrite E2, E1, E3. symmetry. apply (pmul_mul _ _ _ G); try assumption. apply psi_on. exact H.
Qed.
End Mont.

(** ** The twist: (u, v) goes to (- u, v) on the curve with - A *)
Definition flip (P : mpoint) : mpoint := match P with None => None | Some (u, v) => Some (- u, v) end.
Lemma flip_on : forall A P, on_mont A (- (1)) P -> on_mont (- A) 1 (flip P).
Proof.
  intros A [[u v]|] H; [|exact I]. cbn in *. transitivity (- (- (1) * (v * v))); [ring|]. rewrite H. ring.
Qed.
Lemma flip_ucoord : forall P, ucoord (flip P) = - ucoord P.
Proof. intros [[u v]|]; cbn [flip ucoord]; ring. Qed.
Lemma third_flip : forall A l u1 v1 u2, flip (mont_third A (- (1)) l u1 v1 u2) = mont_third (- A) 1 (- l) (- u1) v1 (- u2).
Proof. intros A l u1 v1 u2. unfold mont_third, flip. apply some_pt; ring. Qed.
Lemma feqb_opp : forall x y, feqb (- x) (- y) = feqb x y.
Proof.
  intros x y. destruct (feqb x y) eqn:E.
  - apply feqb_eq in E. rewrite E. apply feqb_refl.
  - apply feqb_neq in E. apply feqb_neq. intro K. apply E. transitivity (- - x); [ring|]. rewrite K. ring.
Qed.
Lemma flip_add : forall A P Q, flip (mont_add A (- (1)) P Q) = mont_add (- A) 1 (flip P) (flip Q).
Proof.
  intros A [[u1 v1]|] [[u2 v2]|]; try reflexivity. cbn [mont_add flip]. rewrite feqb_opp. destruct (feqb u1 u2).
  - destruct (feqb v1 (- v2)); [reflexivity|]. rewrite third_flip. apply (f_equal (fun l => mont_third (- A) 1 l (- u1) v1 (- u1))).
    rewrite <- fdiv_opp. apply fdiv_cong; ring.
  - rewrite third_flip. apply (f_equal (fun l => mont_third (- A) 1 l (- u1) v1 (- u2))). rewrite <- fdiv_opp. apply fdiv_cong; ring.
Qed.
Lemma flip_mul : forall A n P, flip (mont_mul A (- (1)) n P) = mont_mul (- A) 1 n (flip P).
Proof.
  intros A n P. unfold mont_mul. induction (Z.to_nat n) as [|k IH]; cbn [mont_mul_nat]; [reflexivity|]. rewrite flip_add, IH. reflexivity.
Qed.
Lemma flip_flip : forall P, flip (flip P) = P.
Proof. intros [[u v]|]; [|reflexivity]. apply some_pt; [ring|reflexivity]. Qed.
Lemma flip_on' : forall A P, on_mont (- A) 1 (flip P) -> on_mont A (- (1)) P.
Proof. intros A [[u v]|] H; [|exact I]. cbn in *. transitivity (- (1 * (v * v))); [ring|]. rewrite H. ring. Qed.
