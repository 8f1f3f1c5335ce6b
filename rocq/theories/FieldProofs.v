(** The functions of src/field/mod.rs compute what they should, over any backend that satisfies [laws]. *)
Require Import ZArith List Bool Lia Ring Field.
From Verif Require Import Base BaseProofs SpecParams SpecField FieldTheory FieldBackend FieldModel BackendLaws Wp.
Import ListNotations.
Open Scope Z_scope.
Open Scope res_scope.

Definition isr_exp : Z := (p - 3) / 4.
(** The value [inverse_square_root] returns, residue or not. *)
Definition isr (x : F) : F := fpow x isr_exp.

Lemma isr_exp_spec : (isr_exp * 2 + 1 = half_p)%Z.
Proof. Transparent half_p. reflexivity. Qed.
Global Opaque half_p.
Lemma isr_exp_pos : 0 < isr_exp. Proof. reflexivity. Qed.
Global Opaque isr_exp.

Lemma isr_sq : forall x, (isr x * isr x * x = chi x)%F.
Proof.
  intro x. unfold isr, chi. pose proof isr_exp_pos. rewrite <- fpow_2. rewrite <- fpow_mul by lia.
  rewrite <- (fpow_1 x) at 2. rewrite <- fpow_add by lia. rewrite isr_exp_spec. reflexivity.
Qed.
Lemma isr_0 : isr (of_Z 0) = of_Z 0.
Proof. apply fpow_zero. exact isr_exp_pos. Qed.
Lemma isr_square : forall x, x <> of_Z 0 -> is_square x -> (isr x * isr x * x = of_Z 1)%F.
Proof. intros x N S. rewrite isr_sq. apply chi_square. auto. Qed.

Section WithLaws.
Variable B : backend.
Hypothesis L : laws B.

Lemma ct_eq_ok : forall a b, fe_tight B a -> fe_tight B b -> fe_ct_eq B a b = Ok (feqb (fv B a) (fv B b)).
Proof.
  intros a b Ha Hb. unfold fe_ct_eq. rewrite !(l_to B L) by assumption. cbn [bind]. f_equal.
  destruct (feqb (fv B a) (fv B b)) eqn:E.
  - apply feqb_eq in E. rewrite E. apply list_eqb_refl.
  - destruct (list_eqb _ _) eqn:E'; [|reflexivity]. exfalso. apply list_eqb_eq in E'.
    apply (f_equal (eval 8)) in E'. unfold le_bytes in E'. rewrite !eval_digits in E' by lia.
    change (2 ^ (8 * Z.of_nat 56)) with (2 ^ 448) in E'.
    pose proof (fval_range (fv B a)). pose proof (fval_range (fv B b)).
    rewrite !Z.mod_small in E' by (unfold p in *; lia). apply F_eq in E'. rewrite E' in E. rewrite feqb_refl in E. discriminate.
Qed.
Lemma is_zero_ok : forall a, fe_tight B a -> fe_is_zero B a = Ok (feqb (fv B a) (of_Z 0)).
Proof.
  intros a Ha. destruct (l_zero B L) as [T V]. unfold fe_is_zero. rewrite ct_eq_ok by assumption. rewrite V. reflexivity.
Qed.

(** Powers of a fixed element. *)
Definition is_pow (x : F) (e : Z) (r : fe B) : Prop := fe_tight B r /\ fv B r = fpow x e.

Lemma pow_mul_ok : forall x e f a b g, 0 <= e -> 0 <= f -> g = e + f -> is_pow x e a -> is_pow x f b ->
  okp (fe_mul B a b) (is_pow x g).
Proof.
  intros x e f a b g He Hf -> [Ta Va] [Tb Vb]. eapply okp_weaken.
  - apply (l_mul B L); apply (l_loose B L); assumption.
  - intros r [Tr Vr]. split; [exact Tr|]. rewrite Vr, Va, Vb. symmetry. apply fpow_add; assumption.
Qed.
Lemma pow_square_ok : forall x e a g, 0 <= e -> g = e * 2 -> is_pow x e a -> okp (fe_square B a) (is_pow x g).
Proof.
  intros x e a g He -> [Ta Va]. eapply okp_weaken.
  - apply (l_square B L); apply (l_loose B L); assumption.
  - intros r [Tr Vr]. split; [exact Tr|]. rewrite Vr, Va. rewrite <- fpow_2. symmetry. apply fpow_mul; lia.
Qed.
Lemma square_loop_ok : forall n x e a, 0 <= e -> is_pow x e a -> okp (square_loop B n a) (is_pow x (e * 2 ^ Z.of_nat n)).
Proof.
  induction n as [|n IH]; intros x e a He Ha.
  - apply okp_ret. rewrite Z.mul_1_r. exact Ha.
  - cbn [square_loop]. eapply okp_bind; [eapply pow_square_ok; [exact He|reflexivity|exact Ha]|].
    intros r Hr. replace (e * 2 ^ Z.of_nat (S n)) with (e * 2 * 2 ^ Z.of_nat n).
    + apply IH; [lia|exact Hr].
    + rewrite Nat2Z.inj_succ, Z.pow_succ_r by lia. ring.
Qed.
Lemma square_n_ok : forall n x e a g, 0 <= e -> g = e * 2 ^ Z.of_nat (S n) -> is_pow x e a -> okp (square_n B a (S n)) (is_pow x g).
Proof.
  intros n x e a g He -> Ha. unfold square_n. eapply okp_bind; [eapply pow_square_ok; [exact He|reflexivity|exact Ha]|].
  intros r Hr. replace (e * 2 ^ Z.of_nat (S n)) with (e * 2 * 2 ^ Z.of_nat n).
  - apply square_loop_ok; [lia|exact Hr].
  - rewrite Nat2Z.inj_succ, Z.pow_succ_r by lia. ring.
Qed.
Lemma square_n_value : forall a n, fe_tight B a ->
  okp (square_n B a (S n)) (fun r => fe_tight B r /\ fv B r = fpow (fv B a) (2 ^ Z.of_nat (S n))).
Proof.
  intros a n T. refine (square_n_ok n (fv B a) 1 a _ _ _ _); [lia|ring|]. split; [exact T|]. symmetry. apply fpow_1.
Qed.

Ltac pw := match goal with
  | |- okp (bind (fe_mul B ?a ?b) _) _ =>
      eapply okp_bind; [eapply pow_mul_ok; [| | |eassumption|eassumption]; [vm_compute; congruence|vm_compute; congruence|vm_compute; reflexivity]|intros ? ?]
  | |- okp (bind (fe_square B ?a) _) _ =>
      eapply okp_bind; [eapply pow_square_ok; [| |eassumption]; [vm_compute; congruence|vm_compute; reflexivity]|intros ? ?]
  | |- okp (bind (square_n B ?a ?n) _) _ =>
      eapply okp_bind; [eapply square_n_ok; [| |eassumption]; [vm_compute; congruence|vm_compute; reflexivity]|intros ? ?]
  end.

Theorem invert_ok : forall a, fe_tight B a -> okp (fe_invert B a) (fun r => is_val B r (finv (fv B a))).
Proof.
  intros a Ha. assert (H1 : is_pow (fv B a) 1 a) by (split; [exact Ha|symmetry; apply fpow_1]).
  unfold fe_invert. cbv zeta. do 25 pw. change (finv (fv B a)) with (fpow (fv B a) (p - 2)).
  eapply okp_weaken; [eapply pow_mul_ok; [| | |eassumption|eassumption]; [vm_compute; congruence|vm_compute; congruence|reflexivity]|].
  intros r [Tr Vr]. split; [exact Tr|]. rewrite Vr. Transparent finv. unfold finv. apply (f_equal (fpow (fv B a))). vm_compute. reflexivity.
Qed.
Global Opaque finv.

Theorem inverse_square_root_ok : forall a, fe_tight B a ->
  okp (fe_inverse_square_root B a) (fun rb => is_val B (fst rb) (isr (fv B a)) /\ snd rb = feqb (chi (fv B a)) (of_Z 1)).
Proof.
  intros a Ha. assert (H1 : is_pow (fv B a) 1 a) by (split; [exact Ha|symmetry; apply fpow_1]).
  unfold fe_inverse_square_root. do 26 pw.
  match goal with H : is_pow _ _ ?x |- context [fe_ct_eq B ?x (fe_one B)] => destruct H as [Tx Vx] end.
  destruct (l_one B L) as [T1 V1]. rewrite ct_eq_ok by assumption. cbn [bind]. apply okp_ret. cbn [fst snd]. split.
  - match goal with H : is_pow _ _ ?x |- is_val B ?x _ => destruct H as [Ty Vy] end. split; [exact Ty|]. rewrite Vy.
    unfold isr. apply (f_equal (fpow (fv B a))). vm_compute. reflexivity.
  - rewrite Vx, V1. unfold chi. apply (f_equal (fun e => feqb (fpow (fv B a) e) (of_Z 1))). vm_compute. reflexivity.
Qed.

Theorem sqrt_ratio_ok : forall u v, fe_tight B u -> fe_tight B v ->
  okp (fe_sqrt_ratio B u v) (fun rb =>
    is_val B (fst rb) (isr (fv B u * fv B v) * fv B u)%F /\
    snd rb = orb (feqb (fv B u) (of_Z 0)) (feqb (chi (fv B u * fv B v)%F) (of_Z 1))).
Proof.
  intros u v Hu Hv. unfold fe_sqrt_ratio.
  eapply okp_bind; [apply (l_mul B L); apply (l_loose B L); assumption|]. intros x [Tx Vx].
  eapply okp_bind; [apply inverse_square_root_ok; exact Tx|]. intros [i b] [[Ti Vi] Eb]. cbn [fst snd] in *.
  destruct (l_zero B L) as [T0 V0]. rewrite ct_eq_ok by assumption. cbn [bind].
  eapply okp_bind; [apply (l_mul B L); apply (l_loose B L); assumption|]. intros r [Tr Vr]. apply okp_ret. cbn [fst snd].
  split; [split; [exact Tr|]|].
  - rewrite Vr, Vi, Vx. reflexivity.
  - rewrite V0, Eb, Vx. reflexivity.
Qed.
End WithLaws.

(** Reading the outcome of [sqrt_ratio] for v <> 0. *)
Lemma ratio_square : forall u v, v <> of_Z 0 ->
  (orb (feqb u (of_Z 0)) (feqb (chi (u * v)%F) (of_Z 1)) = true <-> is_square (u / v)%F) /\
  (is_square (u / v)%F -> (v * (isr (u * v) * u) * (isr (u * v) * u) = u)%F).
Proof.
  intros u v N.
  assert (E : (u / v = u * v * (finv v * finv v))%F) by (field; exact N).
  assert (S : u <> of_Z 0 -> (chi (u * v)%F = of_Z 1 <-> is_square (u / v)%F)).
  { intro Nu. rewrite chi_square, E. split.
    - intros [_ Sq]. apply square_mul; [exact Sq|apply square_sq].
    - intro Sq. split; [apply fmul_nonzero; assumption|]. apply (square_mul_cancel _ (finv v * finv v)%F).
      + apply fmul_nonzero; apply finv_nonzero; exact N.
      + apply square_sq.
      + exact Sq. }
  destruct (F_eq_dec u (of_Z 0)) as [->|Nu].
  - rewrite feqb_refl. cbn [orb]. split.
    + split; [intros _|reflexivity]. exists (of_Z 0). field. exact N.
    + intros _. ring.
  - assert (feqb u (of_Z 0) = false) as -> by (apply feqb_neq; exact Nu). cbn [orb]. specialize (S Nu). split.
    + rewrite <- S. apply feqb_eq.
    + intro Sq. apply S in Sq. pose proof (isr_sq (u * v)%F) as I. rewrite Sq in I.
      transitivity (isr (u * v) * isr (u * v) * (u * v) * u)%F; [ring|rewrite I; ring].
Qed.
