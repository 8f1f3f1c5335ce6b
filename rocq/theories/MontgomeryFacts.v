(** The concrete cases beside the theorems of PropsMontgomery.v. *)
Require Import ZArith List Bool Lia.
From Verif Require Import Base BaseProofs SpecParams SpecField SpecCurve SpecMontgomery FieldTheory FieldBackend Backends BackendLaws FieldMain
  ScalarModel ScalarProofs ScalarMain EdwardsTheory TwistedModel ScalarMulModel EdwardsModel PointSpec EdwardsProofs EdwardsMain EdwardsCases
  EdwardsFacts MontCurves MontgomeryModel MontgomeryMain.
Import ListNotations.
Open Scope F_scope.
Open Scope res_scope.

Lemma curve_point : on_mont mont_A 1 (Some (of_Z 5, of_Z
  0x7d235d1295f5b1f66c98ab6e58326fcecbae5d34f55545d060f75dc28df3f6edb8027e2346430d211312c4b150677af76fd7223d457b5b1a)).
Proof. unfold on_mont, mont_A. rewrite <- ?of_Z_mul, <- ?of_Z_add. rewrite <- ?of_Z_mul, <- ?of_Z_add. apply of_Z_eq. vm_compute. reflexivity. Qed.
Lemma twist_point : on_mont mont_A (- (1)) (Some (of_Z 6, of_Z
  0xf7da965e96d397bcdda2a754a6f3247a4674e865f63be2b4c041755c8e64ad7f49290ba7db9f5290534a396b67b1fe45c6beba576a26710d)).
Proof. unfold on_mont, mont_A. rewrite <- ?of_Z_opp, <- ?of_Z_mul, <- ?of_Z_add. rewrite <- ?of_Z_mul, <- ?of_Z_add. apply of_Z_eq. vm_compute. reflexivity. Qed.

Section Facts.
Variable B : backend.
Hypothesis S : shipped B.
Lemma even_case : ed_valid B (ed_generator B) /\ is_scalar (digits 32 14 200) /\ Z.even (sval (digits 32 14 200)) = true.
Proof. split; [exact (proj1 (gen_valid B S))|]. split; [apply sc; split; [discriminate|reflexivity]|]. rewrite scv by (split; [discriminate|reflexivity]). reflexivity. Qed.
Lemma exact_case :
  mp_mul B (le_bytes 56 (p + 5)) (digits 32 14 (2 ^ 448 - 1)) = Ok (le_bytes 56 (fval (ucoord (mont_mul mont_A 1 (2 ^ 448)
    (Some (of_Z 5, of_Z 0x7d235d1295f5b1f66c98ab6e58326fcecbae5d34f55545d060f75dc28df3f6edb8027e2346430d211312c4b150677af76fd7223d457b5b1a)))))) /\
  mp_mul B (le_bytes 56 6) (digits 32 14 6) = Ok (le_bytes 56 (fval (ucoord (mont_mul mont_A (- (1)) 6
    (Some (of_Z 6, of_Z 0xf7da965e96d397bcdda2a754a6f3247a4674e865f63be2b4c041755c8e64ad7f49290ba7db9f5290534a396b67b1fe45c6beba576a26710d)))))).
Proof.
  split.
  - assert (R : (0 <= 2 ^ 448 - 1 < 2 ^ 448)%Z) by (split; [discriminate|reflexivity]).
    destruct (mul_exact B S (le_bytes 56 (p + 5)) _ (le_bytes_bytes _ _) (sc _ R)) as [_ K].
    rewrite le_val_le_bytes, scv in K by (exact R || (split; [discriminate|reflexivity])).
    assert (E : of_Z (p + 5) = of_Z 5) by (apply of_Z_eq; reflexivity). rewrite E in K.
    assert (E2 : (2 ^ 448 - 1 + (2 ^ 448 - 1) mod 2 = 2 ^ 448)%Z) by reflexivity. rewrite E2 in K. exact (K 1 _ (or_introl eq_refl) curve_point).
  - assert (R : (0 <= 6 < 2 ^ 448)%Z) by (split; [discriminate|reflexivity]).
    destruct (mul_exact B S (le_bytes 56 6) _ (le_bytes_bytes _ _) (sc _ R)) as [_ K]. rewrite le_val_le_bytes, scv in K by exact R.
    exact (K (- (1)) _ (or_intror eq_refl) twist_point).
Qed.
Lemma low_case : bytes 56 LOW_C /\ (le_val LOW_C < p)%Z /\ mp_is_low_order LOW_C = true /\ mp_is_low_order mp_generator = false /\
  exists s, is_scalar s /\ mp_mul B mp_generator s <> Ok zeros.
Proof.
  assert (BC : LOW_C = le_bytes 56 (p - 1)) by (vm_compute; reflexivity). assert (R : (0 <= p - 1 < 2 ^ 448)%Z) by (split; [discriminate|reflexivity]).
  split; [rewrite BC; apply le_bytes_bytes|]. split; [rewrite BC, le_val_le_bytes by exact R; reflexivity|]. split; [reflexivity|]. split; [reflexivity|].
  assert (BG : mp_generator = le_bytes 56 5) by reflexivity. rewrite BG. exists scalar_one. split; [exact (proj1 scalar_one_ok)|].
  assert (R5 : (0 <= 5 < 2 ^ 448)%Z) by (split; [discriminate|reflexivity]).
  destruct (mul_exact B S (le_bytes 56 5) _ (le_bytes_bytes _ _) (proj1 scalar_one_ok)) as [_ K].
  rewrite le_val_le_bytes, (proj2 scalar_one_ok) in K by exact R5. rewrite (K 1 _ (or_introl eq_refl) curve_point). change (1 + 1 mod 2)%Z with 2%Z.
  rewrite (ucoord_dbl 1 (or_introl eq_refl) _ curve_point ltac:(discriminate)). intro E. apply zero_out in E. apply udbl_0 in E. cbn [ucoord] in E.
  rewrite <- of_Z_opp in E. rewrite !of_Z_eq in E. revert E. vm_compute. intuition discriminate.
Qed.
End Facts.
Lemma clamp_case : clamp448 (repeat 255%Z 56) = 252%Z :: repeat 255%Z 55 /\ clamp448 (repeat 0%Z 56) = repeat 0%Z 55 ++ [128%Z].
Proof. split; reflexivity. Qed.
