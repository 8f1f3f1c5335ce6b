(** The exact value of the scalar operations on every input, and which root the square root functions return
    (statements are repeated in PropsScalar.v and PropsField.v). *)
Require Import ZArith List Bool Lia Ring Field.
From Verif Require Import Base BaseProofs SpecParams SpecField SpecCurve FieldTheory FieldBackend FieldModel Backends
  BackendLaws FieldProofs FieldMain Wp ScalarModel ScalarProofs ScalarProofs2.
Import ListNotations.
Open Scope Z_scope.
Open Scope res_scope.

(** ** Scalars *)
Lemma low_bits_digits : mod_low_bits = eval 32 (map (fun d => d mod 2) (digits 32 14 ell)).
Proof. vm_compute. reflexivity. Qed.

Lemma low_bits_range : 0 <= mod_low_bits < 2 ^ 417 /\ 2 ^ 417 < ell.
Proof. repeat split; vm_compute; congruence. Qed.

Lemma scalar_add_value : forall a b, is_scalar a -> is_scalar b ->
  exists r, scalar_add a b = Ok r /\ is_scalar r /\
    sval r = (if sval a + sval b <? ell then sval a + sval b
              else if sval a + sval b <? 2 ^ 448 + ell then sval a + sval b - ell
              else sval a + sval b - ell - 2 ^ 448 + eval 32 (map (fun d => d mod 2) (digits 32 14 ell))).
Proof.
  intros a b Ha Hb. rewrite <- low_bits_digits.
  pose proof (scalar_range a Ha). pose proof (scalar_range b Hb). pose proof ell_pos. pose proof low_bits_range as [LB LE].
  destruct (Z_lt_le_dec (sval a + sval b) (2 ^ 448 + ell)) as [L|L].
  - destruct (scalar_add_ok a b Ha Hb L) as (r & E & Hr & V). exists r. split; [exact E|]. split; [exact Hr|].
    rewrite V. destruct (Z.ltb_spec (sval a + sval b) ell); [reflexivity|].
    destruct (Z.ltb_spec (sval a + sval b) (2 ^ 448 + ell)); [reflexivity|lia].
  - destruct (scalar_add_overflow a b Ha Hb L) as (r & E & Hr & V). exists r. split; [exact E|]. split; [exact Hr|].
    rewrite V. destruct (Z.ltb_spec (sval a + sval b) ell); [lia|].
    destruct (Z.ltb_spec (sval a + sval b) (2 ^ 448 + ell)); [lia|].
    rewrite Z.mod_small; lia.
Qed.

Lemma scalar_sub_value : forall a b, is_scalar a -> is_scalar b ->
  exists r, scalar_sub a b = Ok r /\ is_scalar r /\
    sval r = (if sval b <=? sval a then sval a - sval b
              else if sval b <=? sval a + ell then sval a - sval b + ell
              else sval a - sval b + ell + 2 ^ 448).
Proof.
  intros a b Ha Hb. pose proof ell_pos.
  destruct (Z_lt_le_dec (sval a + ell) (sval b)) as [L|L].
  - destruct (scalar_sub_underflow a b Ha Hb L) as (r & E & Hr & V). exists r. split; [exact E|]. split; [exact Hr|].
    rewrite V. destruct (Z.leb_spec (sval b) (sval a)); [lia|].
    destruct (Z.leb_spec (sval b) (sval a + ell)); [lia|reflexivity].
  - destruct (scalar_sub_ok a b Ha Hb L) as (r & E & Hr & V). exists r. split; [exact E|]. split; [exact Hr|].
    rewrite V. destruct (Z.leb_spec (sval b) (sval a)); [reflexivity|].
    destruct (Z.leb_spec (sval b) (sval a + ell)); [reflexivity|lia].
Qed.

Lemma scalar_halve_value : forall s, is_scalar s ->
  exists r, scalar_halve s = Ok r /\ is_scalar r /\
    sval r = (if Z.even (sval s) then sval s else sval s + ell) / 2.
Proof.
  intros s Hs. destruct (scalar_halve_ok s Hs) as (r & E & Hr & V). exists r. split; [exact E|]. split; [exact Hr|].
  rewrite <- V. rewrite Z.mul_comm, Z.div_mul by lia. reflexivity.
Qed.

(** ** Roots *)
Lemma isr_exp_odd : isr_exp = 2 * ((p - 7) / 8) + 1.
Proof. Transparent isr_exp. vm_compute. reflexivity. Qed.

Lemma isr_nonzero : forall x, x <> of_Z 0 -> isr x <> of_Z 0.
Proof.
  intros x N Z0. pose proof (isr_sq x) as I. rewrite Z0 in I.
  destruct (chi_cases x N) as [C|C]; rewrite C in I; apply F_1_neq_0.
  - rewrite <- I. ring.
  - replace (of_Z 1) with (- (- of_Z 1))%F by ring. rewrite <- I. ring.
Qed.

Lemma isr_split : forall x, exists y, isr x = (y * y * x)%F.
Proof.
  intro x. exists (fpow x ((p - 7) / 8)). unfold isr. rewrite isr_exp_odd. set (k := (p - 7) / 8).
  assert (K : 0 <= k) by (unfold k; vm_compute; congruence).
  rewrite fpow_add, fpow_1 by lia. rewrite (Z.mul_comm 2 k), fpow_mul by lia. rewrite fpow_2. reflexivity.
Qed.

Lemma isr_is_square : forall x, is_square (isr x) <-> is_square x.
Proof.
  intro x. destruct (F_eq_dec x (of_Z 0)) as [->|N]; [rewrite isr_0; tauto|].
  destruct (isr_split x) as [y Y]. pose proof (isr_nonzero x N) as Ni. rewrite Y in *.
  assert (Ny : y <> of_Z 0) by (intros ->; apply Ni; ring).
  split; intro S.
  - apply (square_mul_cancel x (y * y)%F).
    + apply fmul_nonzero; exact Ny.
    + apply square_sq.
    + replace (x * (y * y))%F with (y * y * x)%F by ring. exact S.
  - apply square_mul; [apply square_sq|exact S].
Qed.

Lemma field_inverse_square_root_root : forall B, shipped B -> forall a, fe_tight B a ->
  exists r b, fe_inverse_square_root B a = Ok (r, b) /\
    (is_square (fv B r) <-> is_square (fv B a)) /\ (fv B a = of_Z 0 -> fv B r = of_Z 0 /\ b = false).
Proof.
  intros B S a Ha. destruct (inverse_square_root_ok B (shipped_laws B S) a Ha) as ([r b] & E & [T V] & Eb).
  cbn [fst snd] in *. exists r, b. split; [exact E|]. rewrite V. split; [apply isr_is_square|].
  intro Z0. rewrite Z0 in *. split; [apply isr_0|]. rewrite Eb, chi_0. apply feqb_neq. intro C. apply F_1_neq_0. symmetry. exact C.
Qed.

(** With v = 0 the answer is zero, and the flag says whether u is zero as well. *)
Lemma field_sqrt_ratio_root : forall B, shipped B -> forall u v, fe_tight B u -> fe_tight B v ->
  exists r b, fe_sqrt_ratio B u v = Ok (r, b) /\
    (b = false -> fv B v <> of_Z 0 -> fv B v * (fv B r * fv B r) = - fv B u)%F /\
    (fv B v = of_Z 0 -> fv B r = of_Z 0 /\ (b = true <-> fv B u = of_Z 0)) /\
    (fv B u = of_Z 0 -> fv B r = of_Z 0 /\ b = true) /\
    (is_square (fv B r) <-> fv B u = of_Z 0 \/ fv B v = of_Z 0 \/ is_square (fv B v)).
Proof.
  intros B S u v Hu Hv. destruct (sqrt_ratio_ok B (shipped_laws B S) u v Hu Hv) as ([r b] & E & [T V] & Eb).
  cbn [fst snd] in *. exists r, b. split; [exact E|]. rewrite V, Eb. generalize (fv B u), (fv B v). clear. intros u v.
  split; [|split; [|split]].
  - intros Q N. apply orb_false_iff in Q as [Q1 Q2].
    assert (Nu : u <> of_Z 0) by (intros ->; rewrite feqb_refl in Q1; discriminate).
    assert (C : chi (u * v)%F = (- of_Z 1)%F).
    { destruct (chi_cases (u * v)%F (fmul_nonzero _ _ Nu N)) as [C|C]; [|exact C]. rewrite C, feqb_refl in Q2. exact (False_ind _ (diff_true_false Q2)). }
    pose proof (isr_sq (u * v)%F) as I. rewrite C in I.
    transitivity (isr (u * v) * isr (u * v) * (u * v) * u)%F; [ring|rewrite I; ring].
  - intros ->. replace (u * of_Z 0)%F with (of_Z 0) by ring. rewrite isr_0. split; [ring|].
    assert (feqb (chi (of_Z 0)) (of_Z 1) = false) as ->.
    { rewrite chi_0. apply feqb_neq. intro C. apply F_1_neq_0. symmetry. exact C. }
    rewrite orb_false_r. apply feqb_eq.
  - intros ->. rewrite feqb_refl. split; [ring|reflexivity].
  - destruct (F_eq_dec u (of_Z 0)) as [->|Nu].
    { split; [auto|intros _]. replace (isr (of_Z 0 * v) * of_Z 0)%F with (of_Z 0) by ring. exact square_0. }
    destruct (F_eq_dec v (of_Z 0)) as [->|Nv].
    { split; [auto|intros _]. replace (u * of_Z 0)%F with (of_Z 0) by ring. rewrite isr_0.
      replace (of_Z 0 * u)%F with (of_Z 0) by ring. exact square_0. }
    assert (K : is_square (isr (u * v) * u)%F <-> is_square v); [|rewrite K; tauto].
    destruct (square_dec u) as [Su|Su].
    + split; intro Q.
      * apply (square_mul_cancel _ u Nu Su). apply square_mul_cancel in Q; [|exact Nu|exact Su].
        apply (proj1 (isr_is_square _)) in Q. replace (v * u)%F with (u * v)%F by ring. exact Q.
      * apply square_mul; [apply isr_is_square; apply square_mul; assumption|exact Su].
    + split; intro Q.
      * destruct (square_dec v) as [Sv|Sv]; [exact Sv|exfalso].
        assert (Q2 : is_square (isr (u * v))) by (apply isr_is_square; apply nonsquare_mul; assumption).
        pose proof (isr_nonzero _ (fmul_nonzero _ _ Nu Nv)) as N2.
        apply (nonsquare_mul_square u _ Su Q2 N2). replace (u * isr (u * v))%F with (isr (u * v) * u)%F by ring. exact Q.
      * apply nonsquare_mul; [|exact Su]. rewrite isr_is_square. apply nonsquare_mul_square; assumption.
Qed.
