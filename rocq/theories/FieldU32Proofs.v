(** Proofs for the 32-bit backend: carries, addition, subtraction, strong reduction, bytes. *)
Require Import ZArith List Bool Lia.
From Verif Require Import Base BaseProofs SpecParams SpecField FieldTheory FieldU32Model Wp FieldU32Mul FieldU32Square.
Import ListNotations.
Open Scope Z_scope.
Open Scope res_scope.

Definition fv28 (a : fe28) : F := of_Z (val28 a).

Lemma of_Z_mulp : forall x q y, x + q * p = y -> of_Z x = of_Z y.
Proof. intros x q y <-. apply of_Z_eq. symmetry. apply Z.mod_add. pose proof p_pos. lia. Qed.

(** ** Carries *)
Definition lim (B : Z) (a : fe28) : Prop := length a = 16%nat /\ Forall (fun x => 0 <= x < B) a.
Lemma lim_weaken : forall B B' a, B <= B' -> lim B a -> lim B' a.
Proof. intros B B' a L [H F]. split; [exact H|]. eapply Forall_impl; [|exact F]. cbn. intros. lia. Qed.
Lemma lim_wf : forall B a, B <= limb_bound -> lim B a -> wf28 a.
Proof. intros. apply (lim_weaken B limb_bound); assumption. Qed.

Lemma div28 : forall x, 0 <= x < 2 ^ 31 -> exists r q, x = r + 2 ^ 28 * q /\ 0 <= r < 2 ^ 28 /\ 0 <= q < 8 /\
  Z.land x mask28 = r /\ shr x 28 = q.
Proof.
  intros x Hx. exists (x mod 2 ^ 28), (x / 2 ^ 28).
  pose proof (Z.div_mod x (2 ^ 28) ltac:(lia)). pose proof (Z.mod_pos_bound x (2 ^ 28) ltac:(lia)).
  split; [lia|]. split; [lia|]. split; [lia|]. split; [apply land_mask; lia|apply shr_div; lia].
Qed.

Lemma chk32 : forall r q, 0 <= r < 2 ^ 28 -> 0 <= q < 8 -> u32_add r q = Ok (r + q).
Proof. intros. unfold u32_add. apply chk_u_ok. lia. Qed.

Lemma weak_reduce28_ok : forall a, lim (2 ^ 31 - 8) a ->
  okp (weak_reduce28 a) (fun r => lim (2 ^ 28 + 8) r /\ exists q, val28 r + q * p = val28 a).
Proof.
  intros a [HL HF]. destruct (list16_inv a HL) as (a0&a1&a2&a3&a4&a5&a6&a7&a8&a9&a10&a11&a12&a13&a14&a15&->).
  destruct_limbs HF. unfold weak_reduce28.
  destruct (div28 a15) as (r15 & q15 & E15 & R15 & Q15 & -> & ->); [lia|]. cbv zeta.
  unfold u32_add at 1. rewrite chk_u_ok by lia. cbn [bind].
  destruct (div28 (a8 + q15)) as (r8 & q8 & E8 & R8 & Q8 & -> & ->); [lia|].
  destruct (div28 a0) as (r0 & q0 & E0 & R0 & Q0 & -> & ->); [lia|].
  destruct (div28 a1) as (r1 & q1 & E1 & R1 & Q1 & -> & ->); [lia|].
  destruct (div28 a2) as (r2 & q2 & E2 & R2 & Q2 & -> & ->); [lia|].
  destruct (div28 a3) as (r3 & q3 & E3 & R3 & Q3 & -> & ->); [lia|].
  destruct (div28 a4) as (r4 & q4 & E4 & R4 & Q4 & -> & ->); [lia|].
  destruct (div28 a5) as (r5 & q5 & E5 & R5 & Q5 & -> & ->); [lia|].
  destruct (div28 a6) as (r6 & q6 & E6 & R6 & Q6 & -> & ->); [lia|].
  destruct (div28 a7) as (r7 & q7 & E7 & R7 & Q7 & -> & ->); [lia|].
  destruct (div28 a9) as (r9 & q9 & E9 & R9 & Q9 & -> & ->); [lia|].
  destruct (div28 a10) as (r10 & q10 & E10 & R10 & Q10 & -> & ->); [lia|].
  destruct (div28 a11) as (r11 & q11 & E11 & R11 & Q11 & -> & ->); [lia|].
  destruct (div28 a12) as (r12 & q12 & E12 & R12 & Q12 & -> & ->); [lia|].
  destruct (div28 a13) as (r13 & q13 & E13 & R13 & Q13 & -> & ->); [lia|].
  destruct (div28 a14) as (r14 & q14 & E14 & R14 & Q14 & -> & ->); [lia|].
  rewrite !chk32 by assumption. cbn [bind]. apply okp_ret. split.
  - split; [reflexivity|]. clear E0 E1 E2 E3 E4 E5 E6 E7 E8 E9 E10 E11 E12 E13 E14 E15. repeat constructor; lia.
  - exists q15. assert (E8' : a8 = r8 + 2 ^ 28 * q8 - q15) by lia.
    unfold val28. cbn [eval]. rewrite E0, E1, E2, E3, E4, E5, E6, E7, E8', E9, E10, E11, E12, E13, E14, E15.
    rewrite p_X. ring.
Qed.

(** ** Addition *)
Lemma add_limbs_ok : forall n B a b, B <= 2 ^ 31 -> length a = n -> length b = n ->
  Forall (fun x => 0 <= x < B) a -> Forall (fun x => 0 <= x < B) b ->
  okp (add_limbs a b) (fun r => length r = n /\ Forall (fun x => 0 <= x < 2 * B) r /\ val28 r = val28 a + val28 b).
Proof.
  induction n; intros B a b HB La Lb Fa Fb.
  - destruct a; [|discriminate]. destruct b; [|discriminate]. apply okp_ret. split; [reflexivity|]. split; [constructor|reflexivity].
  - destruct a as [|x a]; [discriminate|]. destruct b as [|y b]; [discriminate|]. cbn [add_limbs].
    inversion Fa; subst. inversion Fb; subst. unfold u32_add. rewrite chk_u_ok by lia. cbn [bind].
    eapply okp_bind; [apply (IHn B); cbn in *; try lia; assumption|]. intros r (L & F' & V). apply okp_ret.
    split; [cbn; congruence|]. split; [constructor; [lia|exact F']|]. unfold val28 in *. cbn [eval]. rewrite V. ring.
Qed.
Lemma add28_ok : forall a b, wf28 a -> wf28 b ->
  okp (add28 a b) (fun r => wf28 r /\ fv28 r = (fv28 a + fv28 b)%F).
Proof.
  intros a b [La Fa] [Lb Fb]. unfold add28. eapply okp_bind.
  - apply (add_limbs_ok 16 limb_bound); try assumption. unfold limb_bound. lia.
  - intros r (L & F' & V). eapply okp_weaken.
    + apply weak_reduce28_ok. apply (lim_weaken (2 * limb_bound)); [unfold limb_bound; lia|]. split; assumption.
    + intros r' (L' & q & E). split; [revert L'; apply lim_wf; unfold limb_bound; lia|].
      unfold fv28. rewrite <- of_Z_add. eapply of_Z_mulp. rewrite E. exact V.
Qed.

(** ** Subtraction *)
Lemma bias28_ok : forall a, wf28 a ->
  okp (bias28 a 2) (fun r => length r = 16%nat /\ Forall (fun x => 2 ^ 29 - 4 <= x < 2 ^ 30) r /\ val28 r = val28 a + 2 * p).
Proof.
  intros a Ha. destruct (wf28_inv a Ha) as (a0&a1&a2&a3&a4&a5&a6&a7&a8&a9&a10&a11&a12&a13&a14&a15&->&HF).
  destruct_limbs HF. unfold bias28. change (u32_mul 2 mask28) with (Ok (2 * (2 ^ 28 - 1))). cbn [bind].
  unfold u32_sub. rewrite chk_u_ok by lia. cbn [bind]. rewrite !wrap_small by lia. apply okp_ret.
  split; [reflexivity|]. split; [repeat constructor; lia|]. unfold val28. cbn [eval]. rewrite p_X. ring.
Qed.
Lemma sub_limbs_ok : forall n a b, length a = n -> length b = n ->
  Forall (fun x => 2 ^ 29 - 4 <= x < 2 ^ 30) a -> Forall (fun x => 0 <= x < limb_bound) b ->
  okp (sub_limbs a b) (fun r => length r = n /\ Forall (fun x => 0 <= x < 2 ^ 30) r /\ val28 r = val28 a - val28 b).
Proof.
  induction n; intros a b La Lb Fa Fb.
  - destruct a; [|discriminate]. destruct b; [|discriminate]. apply okp_ret. split; [reflexivity|]. split; [constructor|reflexivity].
  - destruct a as [|x a]; [discriminate|]. destruct b as [|y b]; [discriminate|]. cbn [sub_limbs].
    inversion Fa; subst. inversion Fb; subst. unfold limb_bound in *.
    eapply okp_bind; [apply IHn; cbn in *; try lia; assumption|]. intros r (L & F' & V). apply okp_ret.
    rewrite wrap_small by lia.
    split; [cbn; congruence|]. split; [constructor; [lia|exact F']|]. unfold val28 in *. cbn [eval]. rewrite V. ring.
Qed.
Lemma sub28_ok : forall a b, wf28 a -> wf28 b ->
  okp (sub28 a b) (fun r => wf28 r /\ fv28 r = (fv28 a - fv28 b)%F).
Proof.
  intros a b Ha [Lb Fb]. unfold sub28. eapply okp_bind; [apply bias28_ok; exact Ha|]. intros a' (La' & Fa' & Va').
  eapply okp_bind; [apply (sub_limbs_ok 16); assumption|]. intros r (L & F' & V). eapply okp_weaken.
  - apply weak_reduce28_ok. apply (lim_weaken (2 ^ 30)); [lia|]. split; assumption.
  - intros r' (L' & q & E). split; [revert L'; apply lim_wf; unfold limb_bound; lia|].
    unfold fv28. rewrite <- of_Z_sub. apply of_Z_mulp with (q - 2). rewrite Va' in V. lia.
Qed.
Lemma zero28_wf : wf28 zero28.
Proof. split; [reflexivity|]. repeat constructor; vm_compute; congruence. Qed.
Lemma negate28_ok : forall a, wf28 a -> okp (negate28 a) (fun r => wf28 r /\ fv28 r = (- fv28 a)%F).
Proof.
  intros a Ha. eapply okp_weaken; [apply sub28_ok; [exact zero28_wf|exact Ha]|]. intros r [W V]. split; [exact W|].
  rewrite V. change (fv28 zero28) with (of_Z 0). ring.
Qed.

(** ** Multiplication, squaring *)
Lemma mul28_F : forall a b, wf28 a -> wf28 b -> okp (mul28 a b) (fun r => wf28 r /\ fv28 r = (fv28 a * fv28 b)%F).
Proof.
  intros a b Ha Hb. eapply okp_weaken; [apply mul28_ok; assumption|]. intros r (W & q & E). split; [exact W|].
  unfold fv28. rewrite <- of_Z_mul. eapply of_Z_mulp. exact E.
Qed.
Lemma square28_F : forall a, wf28 a -> okp (square28 a) (fun r => wf28 r /\ fv28 r = (fv28 a * fv28 a)%F).
Proof.
  intros a Ha. eapply okp_weaken; [apply square28_ok; assumption|]. intros r (W & q & E). split; [exact W|].
  unfold fv28. rewrite <- of_Z_mul. eapply of_Z_mulp. exact E.
Qed.

(** ** Strong reduction *)
Lemma as_u32_mask : forall z, Z.land (as_u32 z) mask28 = z mod 2 ^ 28.
Proof.
  intro z. unfold mask28. rewrite land_mask by lia. unfold as_u32, wrap.
  symmetry. apply Znumtheory.Zmod_div_mod; [lia|lia|exists 16; reflexivity].
Qed.

Lemma borrow_chain_ok : forall n a k s, length a = n -> length k = n ->
  Forall (fun x => 0 <= x < 2 ^ 29) a -> Forall (fun x => 0 <= x < 2 ^ 28) k -> -4 <= s <= 4 ->
  okp (borrow_chain a k s) (fun '(r, s') => array 28 n r /\ -4 <= s' <= 4 /\
    eval 28 r + 2 ^ (28 * Z.of_nat n) * s' = eval 28 a - eval 28 k + s).
Proof.
  induction n; intros a k s La Lk Fa Fk Hs.
  - destruct a; [|discriminate]. destruct k; [|discriminate]. apply okp_ret. split; [split; [reflexivity|constructor]|]. split; [lia|].
    cbn [eval Z.of_nat]. rewrite Z.mul_0_r, Z.pow_0_r. lia.
  - destruct a as [|x a]; [discriminate|]. destruct k as [|y k]; [discriminate|]. cbn [borrow_chain].
    inversion Fa; subst. inversion Fk; subst. unfold i64_sub, i64_add.
    rewrite (chk_i_ok 64 (x - y)) by lia. cbn [bind]. rewrite (chk_i_ok 64) by lia. cbn [bind].
    rewrite as_u32_mask, shr_div by lia. set (t := s + (x - y)).
    pose proof (Z.div_mod t (2 ^ 28) ltac:(lia)) as D. pose proof (Z.mod_pos_bound t (2 ^ 28) ltac:(lia)) as M.
    assert (T : -4 <= t / 2 ^ 28 <= 4) by (unfold t in *; lia).
    eapply okp_bind; [apply (IHn a k (t / 2 ^ 28)); [cbn [length] in *; lia|cbn [length] in *; lia|assumption..]|].
    intros [r s'] (A & Hs' & E). apply okp_ret. split; [apply array_cons; split; [lia|exact A]|]. split; [exact Hs'|].
    rewrite pow_len_S by lia. cbn [eval]. unfold t in *. lia.
Qed.

Lemma carry_chain_ok : forall n a k s, length a = n -> length k = n ->
  Forall (fun x => 0 <= x < 2 ^ 28) a -> Forall (fun x => 0 <= x < 2 ^ 28) k -> 0 <= s <= 4 ->
  okp (carry_chain a k s) (fun '(r, s') => array 28 n r /\ 0 <= s' <= 4 /\
    eval 28 r + 2 ^ (28 * Z.of_nat n) * s' = eval 28 a + eval 28 k + s).
Proof.
  induction n; intros a k s La Lk Fa Fk Hs.
  - destruct a; [|discriminate]. destruct k; [|discriminate]. apply okp_ret. split; [split; [reflexivity|constructor]|]. split; [lia|].
    cbn [eval Z.of_nat]. rewrite Z.mul_0_r, Z.pow_0_r. lia.
  - destruct a as [|x a]; [discriminate|]. destruct k as [|y k]; [discriminate|]. cbn [carry_chain].
    inversion Fa; subst. inversion Fk; subst. unfold u64_add.
    rewrite (chk_u_ok 64 (x + y)) by lia. cbn [bind]. rewrite (chk_u_ok 64) by lia. cbn [bind].
    rewrite as_u32_mask, shr_div by lia. set (t := s + (x + y)).
    pose proof (Z.div_mod t (2 ^ 28) ltac:(lia)) as D. pose proof (Z.mod_pos_bound t (2 ^ 28) ltac:(lia)) as M.
    assert (T : 0 <= t / 2 ^ 28 <= 4) by (unfold t in *; lia).
    eapply okp_bind; [apply (IHn a k (t / 2 ^ 28)); [cbn [length] in *; lia|cbn [length] in *; lia|assumption..]|].
    intros [r s'] (A & Hs' & E). apply okp_ret. split; [apply array_cons; split; [lia|exact A]|]. split; [exact Hs'|].
    rewrite pow_len_S by lia. cbn [eval]. unfold t in *. lia.
Qed.

Lemma p_limbs_val : eval 28 p_limbs = p. Proof. reflexivity. Qed.
Lemma p_limbs_ok : Forall (fun x => 0 <= x < 2 ^ 28) p_limbs.
Proof. repeat constructor; vm_compute; congruence. Qed.

Lemma lim_val_range : forall a, lim (2 ^ 28 + 8) a -> 0 <= val28 a < 2 * p.
Proof.
  intros a [HL HF]. destruct (list16_inv a HL) as (a0&a1&a2&a3&a4&a5&a6&a7&a8&a9&a10&a11&a12&a13&a14&a15&->).
  destruct_limbs HF. unfold val28. cbn [eval]. unfold p. lia.
Qed.

Lemma strong_reduce28_ok : forall a, wf28 a ->
  okp (strong_reduce28 a) (fun r => array 28 16 r /\ eval 28 r = val28 a mod p).
Proof.
  intros a Ha. unfold strong_reduce28. eapply okp_bind.
  { apply weak_reduce28_ok. apply (lim_weaken limb_bound); [unfold limb_bound; lia|exact Ha]. }
  intros b (Lb & q & Eq). pose proof (lim_val_range b Lb) as R. destruct Lb as [Lb Fb].
  eapply okp_bind.
  { apply (borrow_chain_ok 16 b p_limbs 0); [exact Lb|reflexivity| |exact p_limbs_ok|lia].
    eapply Forall_impl; [|exact Fb]. cbn. lia. }
  intros [c s] (Ac & Hs & Ec). rewrite p_limbs_val in Ec. fold (val28 b) in Ec.
  pose proof (array_range 28 16 c ltac:(lia) Ac) as Rc. change (28 * Z.of_nat 16) with 448 in *.
  assert (P1 : 2 ^ 447 < p < 2 ^ 448) by (split; reflexivity).
  assert (VM : val28 a mod p = val28 b mod p).
  { rewrite <- Eq. apply Z.mod_add. lia. }
  cbv zeta. rewrite as_u32_mask.
  assert (C : s = 0 /\ p <= val28 b \/ s = -1 /\ val28 b < p) by lia.
  destruct C as [[-> L]|[-> L]].
  - change (0 mod 2 ^ 28) with 0. change (Z.land 0 18446744073709551614) with 0.
    eapply okp_bind.
    { apply (carry_chain_ok 16 c); [apply Ac|reflexivity|apply Ac|repeat constructor; lia|lia]. }
    intros [d t] (Ad & Ht & Ed). change (28 * Z.of_nat 16) with 448 in *.
    pose proof (array_range 28 16 d ltac:(lia) Ad) as Rd. change (28 * Z.of_nat 16) with 448 in *.
    match type of Ed with _ = _ + eval 28 ?l + _ => change (eval 28 l) with 0 in Ed end.
    assert (t = 0) by lia. subst t. cbn [negb Z.ltb Z.compare]. change (i64_add 0 0) with (Ok 0). cbn [bind negb Z.eqb].
    apply okp_ret. split; [exact Ad|]. rewrite VM. apply Z.mod_unique with 1; [left; lia|lia].
  - change (-1 mod 2 ^ 28) with 268435455. change (Z.land 268435455 18446744073709551614) with 268435454.
    eapply okp_bind.
    { apply (carry_chain_ok 16 c p_limbs 0); [apply Ac|reflexivity|apply Ac|exact p_limbs_ok|lia]. }
    intros [d t] (Ad & Ht & Ed). change (28 * Z.of_nat 16) with 448 in *. rewrite p_limbs_val in Ed.
    pose proof (array_range 28 16 d ltac:(lia) Ad) as Rd. change (28 * Z.of_nat 16) with 448 in *.
    assert (t = 1) by lia. subst t. cbn [negb Z.ltb Z.compare]. change (i64_add 1 (-1)) with (Ok 0). cbn [bind negb Z.eqb].
    apply okp_ret. split; [exact Ad|]. rewrite VM. symmetry. rewrite Z.mod_small by lia. lia.
Qed.

(** ** Bytes *)
Lemma push_bytes_digits : forall n l, push_bytes n l = digits 8 n l.
Proof.
  induction n; intro l; [reflexivity|]. cbn [push_bytes digits]. rewrite IHn. rewrite shr_div by lia. reflexivity.
Qed.
Lemma to_bytes_loop_ok : forall n a, array 28 (2 * n) a ->
  okp (to_bytes_loop a) (fun r => array 8 (7 * n) r /\ eval 8 r = eval 28 a).
Proof.
  induction n; intros a Ha.
  - destruct a; [|destruct Ha; discriminate]. apply okp_ret. split; [split; [reflexivity|constructor]|reflexivity].
  - replace (2 * S n)%nat with (S (S (2 * n))) in Ha by lia.
    destruct a as [|x a]; [destruct Ha; discriminate|]. apply array_cons in Ha. destruct Ha as [Hx Ha].
    destruct a as [|y a]; [destruct Ha; discriminate|]. apply array_cons in Ha. destruct Ha as [Hy Ha].
    cbn [to_bytes_loop]. rewrite shl_u_mul by lia. rewrite (Z.mod_small (y * 2 ^ 28)) by lia.
    unfold u64_add. rewrite chk_u_ok by lia. cbn [bind].
    eapply okp_bind; [apply IHn; exact Ha|]. intros r [Ar Er]. apply okp_ret. rewrite push_bytes_digits.
    pose proof (digits_array 8 7 (x + y * 2 ^ 28) ltac:(lia)) as D. split.
    + replace (7 * S n)%nat with (7 + 7 * n)%nat by lia. apply array_app; assumption.
    + rewrite eval_app by lia. rewrite eval_digits by lia. rewrite digits_length. rewrite Er. cbn [eval].
      change (8 * Z.of_nat 7) with 56. rewrite Z.mod_small by lia. lia.
Qed.
Lemma to_bytes28_ok : forall a, wf28 a -> okp (to_bytes28 a) (fun b => b = le_bytes 56 (fval (fv28 a))).
Proof.
  intros a Ha. unfold to_bytes28. eapply okp_bind; [apply strong_reduce28_ok; exact Ha|]. intros r [Ar Er].
  eapply okp_weaken; [apply (to_bytes_loop_ok 8); exact Ar|]. intros b [Ab Eb].
  rewrite <- (array_digits_eval 8 56 b) by (lia || exact Ab). unfold le_bytes. f_equal. rewrite Eb, Er. reflexivity.
Qed.

Lemma load7_ok : forall b, array 8 7 (firstn 7 b) -> load7 b = Ok (eval 8 (firstn 7 b)).
Proof.
  intros b [HL HF].
  do 7 (destruct b as [|? b]; [discriminate|]). clear HL. cbn [firstn] in *.
  repeat (let H := fresh "L" in apply Forall_cons_iff in HF; destruct HF as [H HF]). clear HF.
  unfold load7. rewrite !shl_u_mul by lia.
  rewrite !(Z.mod_small (_ * 2 ^ _)) by lia.
  f_equal.
  repeat match goal with
  | |- context [Z.lor ?x (?y * 2 ^ ?n)] =>
      lazymatch x with context [Z.lor _ _] => fail | _ => rewrite (lor_add x y n) by lia end
  end.
  cbn [eval]. lia.
Qed.
Lemma from_bytes_loop_ok : forall n b, array 8 (7 * n) b ->
  okp (from_bytes_loop n b) (fun r => array 28 (2 * n) r /\ eval 28 r = eval 8 b).
Proof.
  induction n; intros b Hb.
  - destruct b; [|destruct Hb; discriminate]. apply okp_ret. split; [split; [reflexivity|constructor]|reflexivity].
  - pose proof (array_firstn 8 (7 * S n) 7 b ltac:(lia) Hb) as H7.
    pose proof (array_skipn 8 (7 * S n) 7 b Hb) as HS. replace (7 * S n - 7)%nat with (7 * n)%nat in HS by lia.
    cbn [from_bytes_loop]. rewrite load7_ok by exact H7. cbn [bind].
    eapply okp_bind; [apply IHn; exact HS|]. intros r [Ar Er]. apply okp_ret.
    rewrite as_u32_mask, shr_div by lia.
    pose proof (array_range 8 7 _ ltac:(lia) H7) as R. change (8 * Z.of_nat 7) with 56 in R.
    set (v := eval 8 (firstn 7 b)) in *.
    pose proof (Z.div_mod v (2 ^ 28) ltac:(lia)) as D. pose proof (Z.mod_pos_bound v (2 ^ 28) ltac:(lia)) as M.
    unfold as_u32. rewrite wrap_small by lia.
    replace (2 * S n)%nat with (S (S (2 * n))) by lia. split.
    + apply array_cons. split; [lia|]. apply array_cons. split; [lia|exact Ar].
    + rewrite (eval_firstn_skipn 8 (7 * S n) 7 b) by (try lia; apply Hb). fold v. cbn [eval]. rewrite Er.
      change (8 * Z.of_nat 7) with 56. lia.
Qed.
Lemma from_bytes28_ok : forall b, bytes 56 b -> okp (from_bytes28 b) (fun r => wf28 r /\ fv28 r = of_Z (le_val b)).
Proof.
  intros b Hb. eapply okp_weaken; [apply (from_bytes_loop_ok 8); exact Hb|]. intros r [Ar Er]. split.
  - destruct Ar as [L F']. split; [exact L|]. eapply Forall_impl; [|exact F']. unfold limb_bound. cbn. lia.
  - unfold fv28, val28. rewrite Er. reflexivity.
Qed.

Lemma is_negative28_ok : forall a, wf28 a -> is_negative28 a = Ok (fodd (fv28 a)).
Proof.
  intros a Ha. unfold is_negative28. destruct (to_bytes28_ok a Ha) as (b & -> & ->). cbn [bind]. f_equal.
  unfold le_bytes. cbn [digits nth]. change 1 with (2 ^ 1 - 1) at 1. rewrite land_mask by lia.
  rewrite <- Znumtheory.Zmod_div_mod; [|lia|lia|exists (2 ^ 7); reflexivity].
  change (2 ^ 1) with 2. unfold fodd. rewrite Zmod_odd. destruct (Z.odd (fval (fv28 a))); reflexivity.
Qed.

(** ** Selection *)
Lemma select_limbs_eq : forall a b c, length a = length b -> select_limbs a b c = if c then b else a.
Proof.
  induction a as [|x a IH]; intros [|y b] c H; try discriminate; [destruct c; reflexivity|].
  cbn [select_limbs]. rewrite IH by (cbn in H; lia). destruct c; reflexivity.
Qed.
Lemma conditional_select28_ok : forall a b c, wf28 a -> wf28 b -> conditional_select28 a b c = if c then b else a.
Proof. intros a b c [La _] [Lb _]. apply select_limbs_eq. congruence. Qed.
Lemma conditional_negate28_ok : forall a c, wf28 a ->
  okp (conditional_negate28 a c) (fun r => wf28 r /\ fv28 r = if c then (- fv28 a)%F else fv28 a).
Proof.
  intros a c Ha. unfold conditional_negate28. eapply okp_bind; [apply negate28_ok; exact Ha|]. intros n [Wn Vn].
  apply okp_ret. rewrite conditional_select28_ok by assumption. destruct c; split; assumption || reflexivity.
Qed.
