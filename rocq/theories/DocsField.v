(** Proofs for C76: what the comments of src/field say. *)
Require Import ZArith List Bool Lia.
From Verif Require Import Base BaseProofs SpecParams SpecField FieldTheory Wp FieldBackend FieldModel FieldU32Model FieldFiatModel Backends BackendLaws FieldProofs
  FieldU32Mul FieldU32Square FieldU32Proofs ScalarModel ScalarProofs FiatCode FiatMain.
Import ListNotations.
Open Scope Z_scope.

(** ** Scalars *)
Lemma order_text : sval MODULUS = 2 ^ 446 - 0x8335dc163bb124b65129c96fde933d8d723a70aadc873d6d54a7bb0d /\
  sval MODULUS <> 2 ^ 446 + 0x8335dc163bb124b65129c96fde933d8d723a70aadc873d6d54a7bb0d.
Proof. split; [reflexivity|]. intro E. vm_compute in E. discriminate E. Qed.

Lemma borrow_sub : forall a b carry, is_scalar a -> is_scalar b -> 0 <= carry <= 1 ->
  exists r chain, sub_loop a b 0 = Ok (r, chain) /\ -1 <= chain + carry <= 1 /\ (chain + carry = 1 <-> carry = 1 /\ sval b <= sval a).
Proof.
  intros a b carry Ha Hb Hc. destruct (sub_loop_ok 14 a b 0 Ha Hb) as (r & out & E & Hr & Ho & Ev); [lia|].
  change (32 * Z.of_nat 14) with 448 in Ev. fold (sval a) in Ev. fold (sval b) in Ev. fold (sval r) in Ev. pose proof (scalar_range r Hr).
  exists r, out. split; [exact E|]. split; [lia|]. lia.
Qed.
Theorem borrow_add : forall a b, is_scalar a -> is_scalar b ->
  exists r carry d chain, add_loop a b 0 = Ok (r, carry) /\ sub_loop r MODULUS 0 = Ok (d, chain) /\
    -1 <= chain + carry <= 1 /\ (chain + carry = 1 <-> 2 ^ 448 + ell <= sval a + sval b).
Proof.
  intros a b Ha Hb. destruct (add_loop_ok 14 a b 0 Ha Hb) as (r & out & E & Hr & Ho & Ev); [lia|].
  change (32 * Z.of_nat 14) with 448 in Ev. fold (sval a) in Ev. fold (sval b) in Ev. fold (sval r) in Ev. pose proof (scalar_range r Hr). pose proof ell_pos.
  destruct (borrow_sub r MODULUS out Hr MODULUS_scalar Ho) as (d & chain & E2 & B & I). rewrite MODULUS_val in I.
  exists r, out, d, chain. split; [exact E|]. split; [exact E2|]. split; [exact B|]. rewrite I. lia.
Qed.
Theorem borrow_mul : forall x y, is_scalar x -> is_scalar y ->
  exists r carry d chain, mont_loop x y (scalar_zero, 0) = Ok (r, carry) /\ sub_loop r MODULUS 0 = Ok (d, chain) /\
    0 <= carry <= 1 /\ -1 <= chain + carry <= 0.
Proof.
  intros x y Hx Hy. destruct (mont_loop_ok 14 x y (scalar_zero, 0) Hx Hy) as (st & k & E & [Hst Hc] & Hlt & _).
  { split; [apply scalar_zero_ok|cbn; lia]. }
  { unfold stval. cbn [fst snd]. fold (sval scalar_zero). destruct scalar_zero_ok as [_ ->]. pose proof (scalar_range y Hy). pose proof ell_pos. lia. }
  destruct st as [r carry]. unfold stval in Hlt. cbn [fst snd] in *. fold (sval r) in Hlt. pose proof (scalar_range y Hy).
  destruct (borrow_sub r MODULUS carry Hst MODULUS_scalar Hc) as (d & chain & E2 & B & I). rewrite MODULUS_val in I.
  exists r, carry, d, chain. split; [exact E|]. split; [exact E2|]. split; [exact Hc|]. lia.
Qed.
Lemma borrow_refuted : exists a b r d, is_scalar a /\ is_scalar b /\ add_loop a b 0 = Ok (r, 1) /\ sub_loop r MODULUS 0 = Ok (d, 0).
Proof.
  assert (H : is_scalar (repeat (2 ^ 32 - 1) 14)) by (split; [reflexivity|apply Forall_forall; intros x H; apply repeat_spec in H; subst x; lia]).
  destruct (borrow_add _ _ H H) as (r & c & d & b & E & E2 & R & I). exists (repeat (2 ^ 32 - 1) 14), (repeat (2 ^ 32 - 1) 14), r, d.
  split; [exact H|]. split; [exact H|]. pose proof E as E3. vm_compute in E3. injection E3 as E3 Ec. rewrite <- Ec in *. split; [exact E|].
  assert (2 ^ 448 + ell <= sval (repeat (2 ^ 32 - 1) 14) + sval (repeat (2 ^ 32 - 1) 14)) as K by (vm_compute; discriminate).
  apply I in K. replace 0 with b at 2 by lia. exact E2.
Qed.

(** ** The 32-bit field *)
Theorem weak_bounds : forall a, length a = 16%nat -> Forall (fun x => 0 <= x < 2 ^ 31 - 8) a ->
  exists r, weak_reduce28 a = Ok r /\ 0 <= val28 r < 2 * p /\ val28 r mod p = val28 a mod p /\ Forall (fun x => 0 <= x < 2 ^ 28 + 8) r.
Proof.
  intros a L H. destruct (weak_reduce28_ok a (conj L H)) as (r & E & Lr & q & Q). exists r. split; [exact E|]. split; [exact (lim_val_range r Lr)|]. split.
  - rewrite <- Q. symmetry. apply Z.mod_add. discriminate.
  - exact (proj2 Lr).
Qed.
Lemma weak_refuted : exists a, wf28 a /\ weak_reduce28 a = Ok a /\ ~ 0 < val28 a.
Proof. exists zero28. split; [exact zero28_wf|]. split; [reflexivity|]. vm_compute. discriminate. Qed.

(** The two chains of strong_reduce, as its comments number them. *)
Theorem strong_chains : forall a, wf28 a ->
  exists w s borrow, weak_reduce28 a = Ok w /\ - p <= val28 w - p < p /\
    borrow_chain w p_limbs 0 = Ok (s, borrow) /\ (borrow = 0 /\ p <= val28 w \/ borrow = -1 /\ val28 w < p) /\
    exists r carry, carry_chain s (if borrow =? 0 then repeat 0 16 else p_limbs) 0 = Ok (r, carry) /\ carry + borrow = 0 /\
      strong_reduce28 a = Ok r /\ val28 r = val28 a mod p.
Proof.
  intros a Ha. destruct (strong_reduce28_ok a Ha) as (r & Er & Ar & Vr). pose proof Er as Er'. unfold strong_reduce28 in Er'.
  destruct (weak_reduce28_ok a) as (w & Ew & Lw & q & Q); [apply (lim_weaken limb_bound); [unfold limb_bound; lia|exact Ha]|].
  pose proof (lim_val_range w Lw) as R. rewrite Ew in Er'. cbn [bind] in Er'.
  destruct (borrow_chain_ok 16 w p_limbs 0) as ([s b] & Eb & As & Hb & Vs); [apply Lw|reflexivity| |exact p_limbs_ok|lia|].
  { eapply Forall_impl; [|exact (proj2 Lw)]. cbn. lia. }
  rewrite Eb in Er'. cbn [bind] in Er'. rewrite p_limbs_val in Vs. fold (val28 w) in Vs.
  pose proof (array_range 28 16 s ltac:(lia) As) as Rs. change (28 * Z.of_nat 16) with 448 in *.
  assert (P1 : 2 ^ 447 < p < 2 ^ 448) by (split; reflexivity).
  assert (C : b = 0 /\ p <= val28 w \/ b = -1 /\ val28 w < p) by lia.
  exists w, s, b. split; [exact Ew|]. split; [lia|]. split; [exact Eb|]. split; [exact C|].
  destruct C as [[-> C]|[-> C]].
  - change (Z.land (as_u32 0) mask28) with 0 in Er'. cbv zeta in Er'. change (Z.land 0 18446744073709551614) with 0 in Er'.
    change (if 0 =? 0 then repeat 0 16 else p_limbs) with [0; 0; 0; 0; 0; 0; 0; 0; 0; 0; 0; 0; 0; 0; 0; 0].
    destruct (carry_chain s [0; 0; 0; 0; 0; 0; 0; 0; 0; 0; 0; 0; 0; 0; 0; 0] 0) as [[d t]|] eqn:E; cbn [bind] in Er'; [|discriminate Er'].
    exists d, t. split; [reflexivity|]. destruct (negb (t <? 2)); [discriminate Er'|]. destruct (i64_add t 0) as [u|] eqn:U; cbn [bind] in Er'; [|discriminate Er'].
    unfold i64_add, chk_i in U. destruct (Z.eqb_spec u 0) as [->|]; cbn [negb] in Er'; [|discriminate Er'].
    match type of U with (if ?c then _ else _) = _ => destruct c; [|discriminate U] end. injection U as U. injection Er' as ->.
    split; [lia|]. split; [exact Er|exact Vr].
  - change (Z.land (as_u32 (-1)) mask28) with 268435455 in Er'. cbv zeta in Er'. change (Z.land 268435455 18446744073709551614) with 268435454 in Er'.
    change (if -1 =? 0 then repeat 0 16 else p_limbs) with p_limbs. change [268435455; 268435455; 268435455; 268435455; 268435455; 268435455; 268435455; 268435455; 268435454; 268435455; 268435455; 268435455; 268435455; 268435455; 268435455; 268435455] with p_limbs in Er'.
    destruct (carry_chain s p_limbs 0) as [[d t]|] eqn:E; cbn [bind] in Er'; [|discriminate Er'].
    exists d, t. split; [reflexivity|]. destruct (negb (t <? 2)); [discriminate Er'|]. destruct (i64_add t (-1)) as [u|] eqn:U; cbn [bind] in Er'; [|discriminate Er'].
    unfold i64_add, chk_i in U. destruct (Z.eqb_spec u 0) as [->|]; cbn [negb] in Er'; [|discriminate Er'].
    match type of U with (if ?c then _ else _) = _ => destruct c; [|discriminate U] end. injection U as U. injection Er' as ->.
    split; [lia|]. split; [exact Er|exact Vr].
Qed.

Theorem bias_multiple : forall a b, wf28 a -> 0 <= b <= 14 -> exists r, bias28 a b = Ok r /\ length r = 16%nat /\ val28 r = val28 a + b * p.
Proof.
  intros a b Ha Hb. destruct (wf28_inv a Ha) as (a0&a1&a2&a3&a4&a5&a6&a7&a8&a9&a10&a11&a12&a13&a14&a15&->&HF).
  destruct_limbs HF. unfold bias28, u32_mul, mask28. rewrite chk_u_ok by lia. cbn [bind]. unfold u32_sub. rewrite chk_u_ok by lia. cbn [bind].
  rewrite !wrap_small by lia. eexists. split; [reflexivity|]. split; [reflexivity|]. unfold val28. cbn [eval]. rewrite p_X. ring.
Qed.
Lemma bias_refuted : (exists a r, wf28 a /\ bias28 a 15 = Ok r /\ val28 r <> val28 a + 15 * p) /\ forall a, wf28 a -> bias28 a 17 = Panic.
Proof.
  split.
  - exists (repeat (2 ^ 28 + 511) 16). eexists. split; [split; [reflexivity|repeat constructor; vm_compute; congruence]|]. split; [vm_compute; reflexivity|vm_compute; congruence].
  - intros a Ha. destruct (wf28_inv a Ha) as (a0&a1&a2&a3&a4&a5&a6&a7&a8&a9&a10&a11&a12&a13&a14&a15&->&HF). reflexivity.
Qed.

(** ** The 64-bit field *)
Lemma fiat_strong_refuted : exists a r, tight56 a /\ strong_reduce56 fiat_code a = Ok r /\ val56 a mod p = 0 /\ val56 r = p.
Proof.
  exists (digits 56 8 p). eexists. split; [split; [reflexivity|repeat constructor; vm_compute; congruence]|]. split; [vm_compute; reflexivity|split; vm_compute; reflexivity].
Qed.

(** ** Square roots of ratios *)
Theorem ratio_zero : forall B, shipped B -> forall u v, fe_tight B u -> fe_tight B v ->
  (fv B u = of_Z 0 -> exists x i r, fe_mul B u v = Ok x /\ fe_inverse_square_root B x = Ok (i, false) /\ fv B i = of_Z 0 /\
     fe_sqrt_ratio B u v = Ok (r, true) /\ fv B r = of_Z 0) /\
  (fv B u <> of_Z 0 -> fv B v = of_Z 0 -> exists r, fe_sqrt_ratio B u v = Ok (r, false) /\ fv B r = of_Z 0).
Proof.
  intros B S u v Hu Hv. pose proof (shipped_laws B S) as L.
  destruct (l_mul B L u v (l_loose B L _ Hu) (l_loose B L _ Hv)) as (x & Ex & Tx & Vx).
  destruct (inverse_square_root_ok B L x Tx) as ([i b] & Ei & [Ti Vi] & Eb). destruct (sqrt_ratio_ok B L u v Hu Hv) as ([r c] & Er & [Tr Vr] & Ec). cbn [fst snd] in *.
  assert (Z0 : forall y : F, (y = of_Z 0 -> feqb (chi y) (of_Z 1) = false)%F).
  { intros y ->. apply feqb_neq. rewrite chi_0. apply not_eq_sym. exact F_1_neq_0. }
  split.
  - intro U. assert (M : (fv B u * fv B v = of_Z 0)%F) by (rewrite U; ring). rewrite M in *. rewrite Vx in *. rewrite Z0 in Eb by reflexivity. rewrite isr_0 in *. subst b.
    exists x, i, r. split; [exact Ex|]. split; [exact Ei|]. split; [exact Vi|]. assert (feqb (fv B u) (of_Z 0) = true) as K by (apply feqb_eq; exact U). rewrite K in Ec. cbn [orb] in Ec. subst c.
    split; [exact Er|]. rewrite Vr, U. ring.
  - intros U V. assert (M : (fv B u * fv B v = of_Z 0)%F) by (rewrite V; ring). rewrite M in *. rewrite Z0 in Ec by reflexivity. rewrite isr_0 in *.
    assert (feqb (fv B u) (of_Z 0) = false) as K by (apply feqb_neq; exact U). rewrite K in Ec. cbn [orb] in Ec. subst c. exists r. split; [exact Er|]. rewrite Vr. ring.
Qed.
