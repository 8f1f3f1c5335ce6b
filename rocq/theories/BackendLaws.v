(** What the curve code relies on, proved for the 32-bit backend and for the fiat backend under its contract. *)
Require Import ZArith List Bool Lia.
From Verif Require Import Base BaseProofs SpecParams SpecField SpecCurve FieldTheory FieldBackend FieldU32Model FieldU32Mul
  FieldU32Proofs FieldFiatModel Backends Wp.
Import ListNotations.
Open Scope Z_scope.
Open Scope res_scope.

Definition decaf_factor : F := of_Z
  0x22d962fbeb24f7683bf68d722fa26aa0a1f1a7b8a5b8d54b64a2d780968c14ba839a66f4fd6eded260337bf6aa20ce529642ef0f45572736.

Definition is_const (B : backend) (c : fe B) (v : F) : Prop := fe_loose B c /\ fv B c = v.
Definition is_val (B : backend) (c : fe B) (v : F) : Prop := fe_tight B c /\ fv B c = v.

Record laws (B : backend) : Prop := {
  l_loose : forall a, fe_tight B a -> fe_loose B a;
  l_zero : is_val B (fe_zero B) (of_Z 0);
  l_one : is_val B (fe_one B) (of_Z 1);
  l_minus_one : is_const B (fe_minus_one B) (- of_Z 1)%F;
  l_add : forall a b, fe_tight B a -> fe_tight B b -> okp (fe_add B a b) (fun r => is_val B r (fv B a + fv B b)%F);
  l_sub : forall a b, fe_tight B a -> fe_tight B b -> okp (fe_sub B a b) (fun r => is_val B r (fv B a - fv B b)%F);
  l_mul : forall a b, fe_loose B a -> fe_loose B b -> okp (fe_mul B a b) (fun r => is_val B r (fv B a * fv B b)%F);
  l_square : forall a, fe_loose B a -> okp (fe_square B a) (fun r => is_val B r (fv B a * fv B a)%F);
  l_negate : forall a, fe_tight B a -> okp (fe_negate B a) (fun r => is_val B r (- fv B a)%F);
  l_strong : forall a, fe_tight B a -> okp (fe_strong_reduce B a) (fun r => is_val B r (fv B a));
  l_select : forall a b c, fe_tight B a -> fe_tight B b -> fe_select B a b c = Ok (if c then b else a);
  l_cneg : forall a c, fe_tight B a ->
    okp (fe_cond_negate B a c) (fun r => is_val B r (if c then - fv B a else fv B a)%F);
  l_isneg : forall a, fe_tight B a -> fe_is_negative B a = Ok (fodd (fv B a));
  l_from : forall b, bytes 56 b -> okp (fe_from_bytes B b) (fun r => is_val B r (of_Z (le_val b)));
  l_to : forall a, fe_tight B a -> fe_to_bytes B a = Ok (le_bytes 56 (fval (fv B a)));
  l_neg4d : is_const B (NEG_FOUR_TIMES_TWISTED_D B) (of_Z 156328);
  l_d : is_const B (EDWARDS_D B) ed_d;
  l_negd : is_const B (NEG_EDWARDS_D B) (of_Z 39081);
  l_twd : is_const B (TWISTED_D B) tw_d;
  l_2twd : is_const B (TWO_TIMES_TWISTED_D B) (of_Z (-78164));
  l_factor : is_const B (DECAF_FACTOR B) decaf_factor;
  l_a24 : is_const B (A_PLUS_TWO_OVER_FOUR B) (of_Z 39082);
  l_bx : is_val B (BASE_X B) Gx;
  l_by : is_val B (BASE_Y B) Gy;
  l_bz : is_val B (BASE_Z B) (of_Z 1);
  l_bt : is_val B (BASE_T B) (Gx * Gy)%F;
  l_tx : is_val B (TWBASE_X B) Dx;
  l_ty : is_val B (TWBASE_Y B) Dy;
  l_tz : is_val B (TWBASE_Z B) (of_Z 1);
  l_tt : is_val B (TWBASE_T B) (Dx * Dy)%F
}.

Ltac forall_num := repeat (apply Forall_cons; [unfold limb_bound; cbv beta; lia|]); apply Forall_nil.
Ltac wf_num := split; [reflexivity|forall_num].
Ltac val_num := apply of_Z_eq; vm_compute; reflexivity.
Ltac const_num := split; [wf_num|unfold fv; val_num].

Lemma GT_val : (Gx * Gy)%F = of_Z
  (0x4f1970c66bed0ded221d15a622bf36da9e146570470f1767ea6de324a3d3a46412ae1af72ab66511433b80e18b00938e2626a82bc70cc05e *
   0x693f46716eb6bc248876203756c9c7624bea73736ca3984087789c1e05a0c2d73ad3ff1ce67c39c4fdbd132c4ed7c8ad9808795bf230fa14).
Proof. unfold Gx, Gy. rewrite <- of_Z_mul. reflexivity. Qed.
Lemma DT_val : (Dx * Dy)%F = of_Z
  (0x7ffffffffffffffffffffffffffffffffffffffffffffffffffffffe80000000000000000000000000000000000000000000000000000000 *
   0x8508de14f04286d48d06c13078ca240805264370504c74c393d5242c5045271414181844d73f48e5199b0c1e3ab470a1c86079b4dfdd4a64).
Proof. unfold Dx, Dy. rewrite <- of_Z_mul. reflexivity. Qed.
Lemma m1_val : (- of_Z 1)%F = of_Z (-1).
Proof. rewrite <- of_Z_opp. reflexivity. Qed.

Theorem u32_laws : laws u32_backend.
Proof.
  constructor; try rewrite GT_val; try rewrite DT_val; try rewrite m1_val; unfold ed_d, tw_d;
    try (change (fe_tight u32_backend) with wf28); try (change (fe_loose u32_backend) with wf28); unfold is_val, fv;
    cbn [fe_val fe_tight fe_loose u32_backend].
  - auto.
  - const_num.
  - const_num.
  - const_num.
  - intros a b Ha Hb. apply add28_ok; assumption.
  - intros a b Ha Hb. apply sub28_ok; assumption.
  - intros a b Ha Hb. apply mul28_F; assumption.
  - intros a Ha. apply square28_F; assumption.
  - intros a Ha. apply negate28_ok; assumption.
  - intros a Ha. eapply okp_weaken; [apply strong_reduce28_ok; exact Ha|]. intros r [[L A] V]. split.
    + split; [exact L|]. eapply Forall_impl; [|exact A]. unfold limb_bound. cbn. lia.
    + apply of_Z_eq. unfold val28 in *. rewrite V. apply Zmod_mod.
  - intros a b c Ha Hb. cbn. f_equal. apply conditional_select28_ok; assumption.
  - intros a c Ha. apply conditional_negate28_ok; assumption.
  - intros a Ha. apply is_negative28_ok; assumption.
  - intros b Hb. apply from_bytes28_ok; assumption.
  - intros a Ha. destruct (to_bytes28_ok a Ha) as (r & E & ->). exact E.
  - const_num.
  - const_num.
  - const_num.
  - const_num.
  - const_num.
  - const_num.
  - const_num.
  - const_num.
  - const_num.
  - const_num.
  - const_num.
  - const_num.
  - const_num.
  - const_num.
  - const_num.
Qed.

Lemma tight_loose56 : forall a, tight56 a -> loose56 a.
Proof. intros a [L H]. split; [exact L|]. eapply Forall_impl; [|exact H]. cbn. lia. Qed.
Lemma tight_array : forall a, tight56 a -> array 64 8 a.
Proof. intros a [L H]. split; [exact L|]. eapply Forall_impl; [|exact H]. cbn. lia. Qed.

Theorem fiat_laws : forall P, fiat_contract P -> laws (fiat_backend P).
Proof.
  intros P C.
  assert (NEG : forall a, tight56 a -> okp (negate56 P a) (fun r => tight56 r /\ of_Z (val56 r) = (- of_Z (val56 a))%F)).
  { intros a Ha. unfold negate56. destruct (fc_opp P C a Ha) as (r & -> & Lr & Vr). cbn [bind].
    destruct (fc_carry P C r Lr) as (r' & -> & Tr & Vr'). apply okp_ret. split; [exact Tr|].
    rewrite <- of_Z_opp. apply of_Z_eq. congruence. }
  assert (SEL : forall a b c, tight56 a -> tight56 b -> conditional_select56 P a b c = Ok (if c then b else a)).
  { intros a b c Ha Hb. unfold conditional_select56. rewrite (fc_selectznz P C); try (apply tight_array; assumption).
    - destruct c; reflexivity.
    - destruct c; auto. }
  constructor; try rewrite GT_val; try rewrite DT_val; try rewrite m1_val; unfold ed_d, tw_d, is_val, is_const, fv;
    cbn [fe_val fe_tight fe_loose fiat_backend fe_zero fe_one fe_minus_one fe_add fe_sub fe_mul fe_square fe_negate
      fe_strong_reduce fe_select fe_cond_negate fe_is_negative fe_from_bytes fe_to_bytes].
  - apply tight_loose56.
  - const_num.
  - const_num.
  - const_num.
  - intros a b Ha Hb. unfold add56. destruct (fc_add P C a b Ha Hb) as (r & -> & Lr & Vr). cbn [bind].
    destruct (fc_carry P C r Lr) as (r' & -> & Tr & Vr'). apply okp_ret. split; [exact Tr|].
    rewrite <- of_Z_add. apply of_Z_eq. congruence.
  - intros a b Ha Hb. unfold sub56. destruct (fc_sub P C a b Ha Hb) as (r & -> & Lr & Vr). cbn [bind].
    destruct (fc_carry P C r Lr) as (r' & -> & Tr & Vr'). apply okp_ret. split; [exact Tr|].
    rewrite <- of_Z_sub. apply of_Z_eq. congruence.
  - intros a b Ha Hb. unfold mul56. rewrite !(fc_relax P C) by assumption. cbn [bind].
    destruct (fc_carry_mul P C a b Ha Hb) as (r & -> & Tr & Vr). apply okp_ret. split; [exact Tr|].
    rewrite <- of_Z_mul. apply of_Z_eq. exact Vr.
  - intros a Ha. unfold square56. rewrite !(fc_relax P C) by assumption. cbn [bind].
    destruct (fc_carry_square P C a Ha) as (r & -> & Tr & Vr). apply okp_ret. split; [exact Tr|].
    rewrite <- of_Z_mul. apply of_Z_eq. exact Vr.
  - exact NEG.
  - intros a Ha. unfold strong_reduce56. rewrite !(fc_relax P C) by (apply tight_loose56; assumption). cbn [bind].
    destruct (fc_carry P C a (tight_loose56 _ Ha)) as (r & -> & Tr & Vr). apply okp_ret. split; [exact Tr|].
    apply of_Z_eq. exact Vr.
  - exact SEL.
  - intros a c Ha. unfold conditional_negate56. eapply okp_bind; [apply NEG; exact Ha|]. intros n [Tn Vn].
    rewrite SEL by assumption. apply okp_ret. destruct c; split; assumption || reflexivity.
  - intros a Ha. unfold is_negative56, to_bytes56. rewrite (fc_to_bytes P C) by assumption. cbn [bind]. f_equal.
    unfold le_bytes. cbn [digits nth]. change 1 with (2 ^ 1 - 1) at 1. rewrite land_mask by lia.
    rewrite <- Znumtheory.Zmod_div_mod; [|lia|lia|exists (2 ^ 7); reflexivity].
    change (2 ^ 1) with 2. unfold fodd. rewrite fval_of_Z, Zmod_odd. destruct (Z.odd _); reflexivity.
  - intros b Hb. destruct (fc_from_bytes P C b Hb) as (r & E & Tr & Vr). exists r. split; [exact E|].
    split; [exact Tr|]. apply of_Z_eq. exact Vr.
  - intros a Ha. unfold to_bytes56. rewrite (fc_to_bytes P C) by assumption. rewrite fval_of_Z. reflexivity.
  - const_num.
  - const_num.
  - const_num.
  - const_num.
  - const_num.
  - const_num.
  - const_num.
  - const_num.
  - const_num.
  - const_num.
  - const_num.
  - const_num.
  - const_num.
  - const_num.
  - const_num.
Qed.

Theorem shipped_laws : forall B, shipped B -> laws B.
Proof. intros B []; [exact u32_laws|apply fiat_laws; assumption]. Qed.

(** The contract can be met. *)
Lemma to56_ok : forall v, tight56 (to56 v) /\ val56 (to56 v) mod p = v mod p.
Proof.
  intros v. unfold to56. split.
  - split; [apply digits_length|]. eapply Forall_impl; [|apply digits_range; lia]. cbn. lia.
  - unfold val56. rewrite eval_digits by lia. rewrite (Z.mod_small (v mod p)); [apply Zmod_mod|].
    pose proof (Z.mod_pos_bound v p ltac:(reflexivity)). change (2 ^ (56 * Z.of_nat 8)) with (2 ^ 448). unfold p in *. lia.
Qed.
Lemma to56_tight : forall v, exists r, Ok (to56 v) = Ok r /\ tight56 r /\ val56 r mod p = v mod p.
Proof. intros v. exists (to56 v). split; [reflexivity|apply to56_ok]. Qed.
Lemma to56_loose : forall v, exists r, Ok (to56 v) = Ok r /\ loose56 r /\ val56 r mod p = v mod p.
Proof. intros v. exists (to56 v). split; [reflexivity|]. destruct (to56_ok v) as [T E]. split; [apply tight_loose56; exact T|exact E]. Qed.
Theorem fiat_reference_contract : fiat_contract fiat_reference.
Proof.
  constructor; intros; cbn [fiat_relax fiat_carry_mul fiat_carry_square fiat_carry fiat_add fiat_sub fiat_opp
    fiat_selectznz fiat_to_bytes fiat_from_bytes fiat_reference]; reflexivity || apply to56_tight || apply to56_loose.
Qed.
