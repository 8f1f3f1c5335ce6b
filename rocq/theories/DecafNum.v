(** Adding the base point and encoding the sum, checked on integers: every equation modulo p carries its quotient, so no division is computed. *)
Require Import ZArith List Bool Lia Ring.
From Verif Require Import Base BaseProofs SpecParams SpecField SpecCurve SpecEncoding SpecDecaf FieldTheory EdwardsTheory CurveTheory BackendLaws
  TwistedMain DecafTheory DecafRun DecafFacts.
Import ListNotations.
Open Scope F_scope.
Local Opaque fadd fsub fmul fopp fdiv finv fpow of_Z padd D Dx Dy decaf_encode.

(** [a = b + k p]. *)
Definition eq_p (a b k : Z) : bool := (a =? b + (Z.shiftl k 448 - Z.shiftl k 224 - k))%Z.
Lemma eq_p_ok : forall a b k, eq_p a b k = true -> of_Z a = of_Z b.
Proof.
  intros a b k H. apply Z.eqb_eq in H. rewrite !Z.shiftl_mul_pow2 in H by lia. apply of_Z_eq. rewrite H.
  replace (b + (k * 2 ^ 448 - k * 2 ^ 224 - k))%Z with (b + k * p)%Z by (unfold p; ring). apply Z.mod_add. pose proof p_pos. lia.
Qed.
Definition dx : Z := 0x7ffffffffffffffffffffffffffffffffffffffffffffffffffffffe80000000000000000000000000000000000000000000000000000000.
Definition dy : Z := 0x8508de14f04286d48d06c13078ca240805264370504c74c393d5242c5045271414181844d73f48e5199b0c1e3ab470a1c86079b4dfdd4a64.
(** [tw_d Dx Dy]. *)
Definition dd : Z := 0x2affd38b2c86dbf557e6f84b2df8571f306c9689b4610bdb69a167f36d2ff8ed39073e1f6789da3cb38cb0eb141a0b0e8bef8e22b275198d.
Definition df : Z := 0x22d962fbeb24f7683bf68d722fa26aa0a1f1a7b8a5b8d54b64a2d780968c14ba839a66f4fd6eded260337bf6aa20ce529642ef0f45572736.
Lemma dx_eq : Dx = of_Z dx. Proof. reflexivity. Qed.
Lemma dy_eq : Dy = of_Z dy. Proof. reflexivity. Qed.
Lemma df_eq : decaf_factor = of_Z df. Proof. reflexivity. Qed.
Lemma dd_eq : tw_d * Dx * Dy = of_Z dd. Proof. apply fval_eq. vm_compute. reflexivity. Qed.

(** A point, its sum with the base point, and the roots that its encoding involves; [u], [u'] are the products of the coordinates, [v] is
    [tw_d x Dx y Dy], [s] the encoding. *)
Definition vec_check (x y u v x' y' u' t w s : Z) (k1 k2 k3 k4 k5 k6 k7 k8 : Z) : bool :=
  eq_p (x * y) u k1 && eq_p (dd * u) v k2 && eq_p (x * dy + y * dx) (x' * (1 + v)) k3 && eq_p (y * dy + x * dx) (y' * (1 - v)) k4 &&
  eq_p (x' * y') u' k5 && eq_p (t * t) (1 + x' * x') k6 && eq_p (df * u') (w * t) k7 && eq_p (s * s * (t + 1)) (t - 1) k8 &&
  (0 <=? w)%Z && (w <? p)%Z && Z.even w && (0 <=? s)%Z && (s <? p)%Z && Z.even s.
Lemma odd_even : forall v, (0 <= v < p)%Z -> Z.even v = true -> fodd (of_Z v) = false.
Proof. intros v H E. rewrite (fodd_Z v H), <- Z.negb_even, E. reflexivity. Qed.
Theorem vec_ok : forall x y u v x' y' u' t w k1 k2 k3 k4 k5 k6 k7 k8 b, even_tw (of_Z x, of_Z y) -> bytes 56 b ->
  vec_check x y u v x' y' u' t w (le_val b) k1 k2 k3 k4 k5 k6 k7 k8 = true ->
  padd tw_a tw_d (of_Z x, of_Z y) D = (of_Z x', of_Z y') /\ decaf_encode (of_Z x', of_Z y') = b.
Proof.
  intros x y u v x' y' u' t w k1 k2 k3 k4 k5 k6 k7 k8 b V Hb H. unfold vec_check in H. repeat rewrite andb_true_iff in H.
  destruct H as (((((((((((((E1 & E2) & E3) & E4) & E5) & E6) & E7) & E8) & W0) & W1) & W2) & S0) & S1) & S2).
  apply eq_p_ok in E1, E2, E3, E4, E5, E6, E7, E8. apply Z.leb_le in W0, S0. apply Z.ltb_lt in W1, S1.
  rewrite of_Z_mul in E1, E2, E5, E7. rewrite !of_Z_mul in E3, E4, E6, E8. rewrite !of_Z_add, !of_Z_mul in E3, E4. rewrite of_Z_sub in E4. rewrite of_Z_add in E3.
  rewrite of_Z_add, of_Z_mul in E6. rewrite of_Z_mul in E7. rewrite of_Z_mul, of_Z_add, of_Z_sub in E8.
  rewrite <- dd_eq in E2. rewrite <- dx_eq, <- dy_eq in E3, E4. rewrite <- df_eq in E7. change (of_Z 1) with 1 in *.
  assert (EV : tw_d * of_Z x * Dx * of_Z y * Dy = of_Z v). { rewrite <- E2, <- E1. ring. }
  pose proof (eg_den _ _ _ tw_group _ _ V even_D) as N. rewrite D_pair in N. destruct N as [N1 N2]. cbn [fst snd] in N1, N2. rewrite EV in N1, N2.
  assert (A : padd tw_a tw_d (of_Z x, of_Z y) D = (of_Z x', of_Z y')).
  { rewrite D_pair, padd_unf, EV. rewrite (div_eq _ (of_Z x') _ N1), (div_eq _ (of_Z y') _ N2); [reflexivity| |].
    - rewrite <- E4. unfold tw_a. ring.
    - exact E3. }
  split; [exact A|]. apply drel_encode; [exact Hb|exact S1| |].
  - rewrite <- A. apply even_padd; [exact V|exact even_D].
  - split; [exact (odd_even _ (conj S0 S1) S2)|]. exists (of_Z t). split; [exact E6|]. split; [|exact E8].
    change rK with decaf_factor. rewrite (div_eq _ (of_Z w)); [exact (odd_even _ (conj W0 W1) W2)|exact (root_nz _ _ E6)|].
    rewrite E5. exact E7.
Qed.
