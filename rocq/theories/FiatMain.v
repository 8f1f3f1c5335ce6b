(** The fiat-crypto code of FiatCode.v meets the contract of FieldFiatModel.v. *)
Require Import ZArith List Bool Lia.
From Verif Require Import Base BaseProofs SpecParams FieldBackend FieldFiatModel FiatCode Wp Backends ApiExpr SpecApi ApiRun ApiMeaning.
Import ListNotations.
Open Scope Z_scope.
Open Scope res_scope.

Lemma land56 : forall x, Z.land x mask56 = x mod 2 ^ 56. Proof. intro x. change mask56 with (Z.ones 56). apply Z.land_ones. lia. Qed.
(** A number cut in two. *)
Lemma cut56 : forall x B, 0 <= x < 2 ^ 56 * B -> exists q r, r = x - 2 ^ 56 * q /\ 0 <= r < 2 ^ 56 /\ 0 <= q < B /\ shr x 56 = q /\ Z.land x mask56 = r.
Proof.
  intros x B H. exists (x / 2 ^ 56), (x mod 2 ^ 56). rewrite shr_div, land56 by lia.
  pose proof (Z.div_mod x (2 ^ 56) ltac:(lia)). pose proof (Z.mod_pos_bound x (2 ^ 56) ltac:(lia)).
  assert (0 <= x / 2 ^ 56 < B) by (split; [apply Z.div_pos; lia|apply Z.div_lt_upper_bound; lia]).
  repeat split; lia.
Qed.
Lemma as_u64_small : forall x, 0 <= x < 2 ^ 64 -> as_u64 x = x. Proof. intros x H. apply Z.mod_small. exact H. Qed.
Lemma as_u8_small : forall x, 0 <= x < 2 ^ 8 -> as_u8 x = x. Proof. intros x H. apply Z.mod_small. exact H. Qed.
Lemma u64_add_bind : forall {A} x y (f : Z -> res A) Q, 0 <= x + y < 2 ^ 64 -> (forall z, z = x + y -> okp (f z) Q) -> okp (bind (u64_add x y) f) Q.
Proof. intros A x y f Q H K. unfold u64_add. rewrite chk_u_ok by exact H. apply K. reflexivity. Qed.
Lemma u64_sub_bind : forall {A} x y (f : Z -> res A) Q, 0 <= x - y < 2 ^ 64 -> (forall z, z = x - y -> okp (f z) Q) -> okp (bind (u64_sub x y) f) Q.
Proof. intros A x y f Q H K. unfold u64_sub. rewrite chk_u_ok by exact H. apply K. reflexivity. Qed.
Lemma u64_mul_bind : forall {A} x y (f : Z -> res A) Q, 0 <= x * y < 2 ^ 64 -> (forall z, z = x * y -> okp (f z) Q) -> okp (bind (u64_mul x y) f) Q.
Proof. intros A x y f Q H K. unfold u64_mul. rewrite chk_u_ok by exact H. apply K. reflexivity. Qed.
Lemma u128_bind : forall {A} x y (f : Z -> res A) Q, 0 <= x + y < 2 ^ 128 -> (forall z, z = x + y -> okp (f z) Q) -> okp (bind (add128 (Ok x) (Ok y)) f) Q.
Proof. intros A x y f Q H K. cbn [add128 bind]. unfold u128_add. rewrite chk_u_ok by exact H. apply K. reflexivity. Qed.

Lemma p_X : p = (2 ^ 56) ^ 8 - (2 ^ 56) ^ 4 - 1. Proof. reflexivity. Qed.
Lemma list8_inv : forall (a : list Z), length a = 8%nat -> exists a0 a1 a2 a3 a4 a5 a6 a7, a = [a0; a1; a2; a3; a4; a5; a6; a7].
Proof. intros a H. do 8 (destruct a as [|? a]; [discriminate|]). destruct a; [|discriminate]. repeat eexists. Qed.
Lemma val56_eq : forall a0 a1 a2 a3 a4 a5 a6 a7, let X := 2 ^ 56 in
  val56 [a0; a1; a2; a3; a4; a5; a6; a7] = a0 + X * a1 + X ^ 2 * a2 + X ^ 3 * a3 + X ^ 4 * a4 + X ^ 5 * a5 + X ^ 6 * a6 + X ^ 7 * a7.
Proof. intros. unfold val56. cbn [eval]. subst X. ring. Qed.
Lemma mod_p_eq : forall x y q, x = y + q * p -> x mod p = y mod p.
Proof. intros x y q ->. apply Z_mod_plus_full. Qed.
Ltac limbs F := repeat (let H := fresh "L" in apply Forall_cons_iff in F; destruct F as [H F]); clear F.
Ltac cut x B q r :=
  let E := fresh "C" in let R := fresh "R" in let Q := fresh "Q" in let S := fresh "S" in let T := fresh "T" in
  destruct (cut56 x B ltac:(lia)) as (q & r & E & R & Q & S & T); rewrite ?S, ?T; clear S T.

Ltac no_bounds := repeat match goal with H : _ /\ _ |- _ => clear H end; repeat match goal with H : @eq nat _ _ |- _ => clear H end.

(** ** Carries *)
Lemma carry_ok : forall a, loose56 a -> okp (fcode_carry a) (fun r => tight56 r /\ val56 r mod p = val56 a mod p).
Proof.
  intros a [Hl F]. destruct (list8_inv a Hl) as (a0 & a1 & a2 & a3 & a4 & a5 & a6 & a7 & ->). limbs F.
  change 0x300000000000000 with (3 * 2 ^ 56) in *.
  unfold fcode_carry.
  cut a7 4 q7 r7. cut a3 4 q3 r3.
  apply u64_add_bind; [lia|]; intros x4 E4. apply u64_add_bind; [lia|]; intros x4' E4'. apply u64_add_bind; [lia|]; intros x5 E5.
  cut x4' 5 qx4 rx4. apply u64_add_bind; [lia|]; intros x6 E6.
  cut x5 5 qx5 rx5. apply u64_add_bind; [lia|]; intros x7 E7.
  cut x6 5 qx6 rx6. apply u64_add_bind; [lia|]; intros x8 E8.
  cut x7 5 qx7 rx7. apply u64_add_bind; [lia|]; intros x9 E9.
  cut x8 5 qx8 rx8. apply u64_add_bind; [lia|]; intros x10 E10.
  cut x9 5 qx9 rx9. apply u64_add_bind; [lia|]; intros x11 E11.
  cut x10 2 qx10 rx10. rewrite (as_u8_small qx10) by lia. apply u64_add_bind; [lia|]; intros x13 E13.
  cut x11 2 qx11 rx11. rewrite (as_u8_small qx11) by lia. apply u64_add_bind; [lia|]; intros x14 E14. apply u64_add_bind; [lia|]; intros x14' E14'.
  cut x13 2 qx13 rx13. rewrite (as_u8_small qx13) by lia. apply u64_add_bind; [lia|]; intros x16 E16.
  cut x14' 2 qx14 rx14. rewrite (as_u8_small qx14) by lia. apply u64_add_bind; [lia|]; intros x20 E20.
  apply okp_ret. split.
  - split; [reflexivity|]. repeat apply Forall_cons; try apply Forall_nil; change 0x100000000000000 with (2 ^ 56); lia.
  - apply (mod_p_eq _ _ (- q7 - qx10)). rewrite !val56_eq, p_X. no_bounds. subst. ring.
Qed.

Definition sums_ok (c : list Z) : Prop := length c = 8%nat /\ Forall (fun x => 0 <= x < 200 * 2 ^ 112) c.
Lemma carry_sums_ok : forall c, sums_ok c -> okp (carry_sums c) (fun r => tight56 r /\ val56 r mod p = val56 c mod p).
Proof.
  intros c [Hl F]. destruct (list8_inv c Hl) as (c0 & c1 & c2 & c3 & c4 & c5 & c6 & c7 & ->). limbs F. unfold carry_sums.
  cut c3 (200 * 2 ^ 56) k3 x3. cut c7 (200 * 2 ^ 56) k7 x7.
  rewrite (as_u64_small k3), (as_u64_small x3), (as_u64_small k7), (as_u64_small x7) by lia.
  apply u128_bind; [lia|]; intros d4 E4. apply u128_bind; [lia|]; intros d4' E4'. apply u128_bind; [lia|]; intros d0 E0.
  cut d4' (201 * 2 ^ 56) k4 x4. cut d0 (201 * 2 ^ 56) k0 x0.
  rewrite (as_u64_small k4), (as_u64_small x4), (as_u64_small k0), (as_u64_small x0) by lia.
  apply u128_bind; [lia|]; intros d5 E5. apply u128_bind; [lia|]; intros d1 E1.
  cut d5 (201 * 2 ^ 56) k5 x5. cut d1 (201 * 2 ^ 56) k1 x1.
  rewrite (as_u64_small k5), (as_u64_small x5), (as_u64_small k1), (as_u64_small x1) by lia.
  apply u128_bind; [lia|]; intros d6 E6. apply u128_bind; [lia|]; intros d2 E2.
  cut d6 (201 * 2 ^ 56) k6 x6. cut d2 (201 * 2 ^ 56) k2 x2.
  rewrite (as_u64_small k6), (as_u64_small x6), (as_u64_small k2), (as_u64_small x2) by lia.
  apply u64_add_bind; [lia|]; intros y7 F7. apply u64_add_bind; [lia|]; intros y3 F3.
  cut y7 202 m7 z7. cut y3 202 m3 z3.
  apply u64_add_bind; [lia|]; intros y0 F0. apply u64_add_bind; [lia|]; intros y4 F4. apply u64_add_bind; [lia|]; intros y4' F4'.
  cut y4' 2 m4 z4. cut y0 2 m0 z0.
  rewrite (as_u8_small m4), (as_u8_small m0) by lia.
  apply u64_add_bind; [lia|]; intros y5 F5. apply u64_add_bind; [lia|]; intros y1 F1.
  apply okp_ret. split.
  - split; [reflexivity|]. repeat apply Forall_cons; try apply Forall_nil; change 0x100000000000000 with (2 ^ 56); lia.
  - apply (mod_p_eq _ _ (- k7 - m7)). rewrite !val56_eq, p_X. no_bounds. subst. ring.
Qed.

(** ** Products *)
(** A sum of n products. *)
Definition bo (e : res Z) (v n : Z) : Prop := e = Ok v /\ 0 <= v <= n * (9 * 2 ^ 112).
Lemma bo_m : forall x y, 0 <= x <= 3 * 2 ^ 56 -> 0 <= y <= 3 * 2 ^ 56 -> bo (u128_mul x y) (x * y) 1.
Proof. intros x y Hx Hy. assert (0 <= x * y <= 9 * 2 ^ 112) by nia. split; [|lia]. apply chk_u_ok. lia. Qed.
Lemma bo_d : forall x y d, d = y * 2 -> 0 <= x <= 3 * 2 ^ 56 -> 0 <= y <= 3 * 2 ^ 56 -> bo (u128_mul x d) (2 * (x * y)) 2.
Proof. intros x y d -> Hx Hy. assert (0 <= x * y <= 9 * 2 ^ 112) by nia. split; [|lia]. unfold u128_mul. rewrite chk_u_ok by lia. f_equal. ring. Qed.
Lemma bo_add : forall e v n e' v' n', bo e v n -> bo e' v' n' -> (n + n' <? 22) = true -> bo (add128 e e') (v + v') (n + n').
Proof. intros e v n e' v' n' [-> H] [-> H'] L. apply Z.ltb_lt in L. split; [|lia]. cbn [add128 bind]. apply chk_u_ok. lia. Qed.
Lemma bo_bind : forall {B} e v n (f : Z -> res B) Q, bo e v n -> (n <? 22) = true -> (forall z, z = v -> 0 <= z < 200 * 2 ^ 112 -> okp (f z) Q) -> okp (bind e f) Q.
Proof. intros B e v n f Q [-> H] L K. apply Z.ltb_lt in L. cbn [bind]. apply K; [reflexivity|lia]. Qed.
Ltac solve_bo :=
  lazymatch goal with
  | |- bo (add128 _ _) _ _ => eapply bo_add; [solve_bo|solve_bo|vm_compute; reflexivity]
  | |- bo (u128_mul _ _) _ _ => first [apply bo_m; assumption | eapply bo_d; eassumption]
  end.
Ltac sum z E L := eapply bo_bind; [solve_bo|vm_compute; reflexivity|]; intros z E L.
Lemma carry_mul_ok : forall a b, loose56 a -> loose56 b -> okp (fcode_carry_mul a b) (fun r => tight56 r /\ val56 r mod p = (val56 a * val56 b) mod p).
Proof.
  intros a b [Hl F] [Hl' F']. change 0x300000000000000 with (3 * 2 ^ 56) in *.
  destruct (list8_inv a Hl) as (a0 & a1 & a2 & a3 & a4 & a5 & a6 & a7 & ->). destruct (list8_inv b Hl') as (b0 & b1 & b2 & b3 & b4 & b5 & b6 & b7 & ->).
  limbs F. limbs F'. unfold fcode_carry_mul.
  sum c3 E3 B3. sum c7 E7 B7. sum c4 E4 B4. sum c0 E0 B0. sum c5 E5 B5. sum c1 E1 B1. sum c6 E6 B6. sum c2 E2 B2.
  eapply okp_weaken; [apply carry_sums_ok|].
  - split; [reflexivity|]. repeat apply Forall_cons; try apply Forall_nil; assumption.
  - intros r [T V]. split; [exact T|]. rewrite V.
    apply (mod_p_eq _ _ (- ((a7 * b1 + a6 * b2 + a5 * b3 + a4 * b4 + a3 * b5 + a2 * b6 + a1 * b7) +
      (a7 * b2 + a6 * b3 + a5 * b4 + a4 * b5 + a3 * b6 + a2 * b7) * 2 ^ 56 +
      (a7 * b3 + a6 * b4 + a5 * b5 + a4 * b6 + a3 * b7) * (2 ^ 56) ^ 2 +
      (a7 * b4 + a6 * b5 + a5 * b6 + a4 * b7) * (2 ^ 56) ^ 3 +
      (a7 * b5 + a6 * b6 + a5 * b7) * ((2 ^ 56) ^ 4 + 1) +
      (a7 * b6 + a6 * b7) * ((2 ^ 56) ^ 5 + 2 ^ 56) +
      (a7 * b7) * ((2 ^ 56) ^ 6 + (2 ^ 56) ^ 2)))).
    rewrite !val56_eq, p_X. no_bounds. subst. clear V. generalize (2 ^ 56). intro X. ring.
Qed.
Lemma carry_square_ok : forall a, loose56 a -> okp (fcode_carry_square a) (fun r => tight56 r /\ val56 r mod p = (val56 a * val56 a) mod p).
Proof.
  intros a [Hl F]. change 0x300000000000000 with (3 * 2 ^ 56) in *.
  destruct (list8_inv a Hl) as (a0 & a1 & a2 & a3 & a4 & a5 & a6 & a7 & ->). limbs F. unfold fcode_carry_square.
  apply u64_mul_bind; [lia|]; intros d7 D7. apply u64_mul_bind; [lia|]; intros d6 D6. apply u64_mul_bind; [lia|]; intros d5 D5. apply u64_mul_bind; [lia|]; intros d4 D4.
  apply u64_mul_bind; [lia|]; intros d3 D3. apply u64_mul_bind; [lia|]; intros d2 D2. apply u64_mul_bind; [lia|]; intros d1 D1.
  sum c3 E3 B3. sum c7 E7 B7. sum c4 E4 B4. sum c0 E0 B0. sum c5 E5 B5. sum c1 E1 B1. sum c6 E6 B6. sum c2 E2 B2.
  eapply okp_weaken; [apply carry_sums_ok|].
  - split; [reflexivity|]. repeat apply Forall_cons; try apply Forall_nil; assumption.
  - intros r [T V]. split; [exact T|]. rewrite V.
    apply (mod_p_eq _ _ (- (2 * (a7 * a1 + a6 * a2 + a5 * a3) + a4 * a4 +
      2 * (a7 * a2 + a6 * a3 + a5 * a4) * 2 ^ 56 +
      (2 * (a7 * a3 + a6 * a4) + a5 * a5) * (2 ^ 56) ^ 2 +
      2 * (a7 * a4 + a6 * a5) * (2 ^ 56) ^ 3 +
      (2 * (a7 * a5) + a6 * a6) * ((2 ^ 56) ^ 4 + 1) +
      2 * (a7 * a6) * ((2 ^ 56) ^ 5 + 2 ^ 56) +
      (a7 * a7) * ((2 ^ 56) ^ 6 + (2 ^ 56) ^ 2)))).
    rewrite !val56_eq, p_X. no_bounds. subst. clear V. generalize (2 ^ 56). intro X. ring.
Qed.

(** ** Sums and differences *)
Ltac eight H F a := let L := fresh "Hl" in destruct H as [L F]; destruct (list8_inv a L) as (?a & ?a & ?a & ?a & ?a & ?a & ?a & ?a & ->); limbs F; clear L.
Ltac run64 := unfold u64_add, u64_sub; repeat (rewrite chk_u_ok by lia; cbn [bind]).
Lemma add_ok : forall a b, tight56 a -> tight56 b -> okp (fcode_add a b) (fun r => loose56 r /\ val56 r mod p = (val56 a + val56 b) mod p).
Proof.
  intros a b Ha Hb. eight Ha F a. eight Hb F' b. change 0x100000000000000 with (2 ^ 56) in *. unfold fcode_add. cbn [fadd_limbs]. run64.
  apply okp_ret. split.
  - split; [reflexivity|]. change 0x300000000000000 with (3 * 2 ^ 56). repeat apply Forall_cons; try apply Forall_nil; lia.
  - f_equal. rewrite !val56_eq. ring.
Qed.
Lemma sub_ok : forall a b, tight56 a -> tight56 b -> okp (fcode_sub a b) (fun r => loose56 r /\ val56 r mod p = (val56 a - val56 b) mod p).
Proof.
  intros a b Ha Hb. eight Ha F a. eight Hb F' b. change 0x100000000000000 with (2 ^ 56) in *. unfold fcode_sub, two_p_limbs. cbn [fsub_limbs].
  change 0x1fffffffffffffe with (2 ^ 57 - 2). change 0x1fffffffffffffc with (2 ^ 57 - 4). run64.
  apply okp_ret. split.
  - split; [reflexivity|]. change 0x300000000000000 with (3 * 2 ^ 56). repeat apply Forall_cons; try apply Forall_nil; lia.
  - apply (mod_p_eq _ _ 2). rewrite !val56_eq, p_X. replace (2 ^ 57) with (2 * 2 ^ 56) by reflexivity. ring.
Qed.
Lemma opp_ok : forall a, tight56 a -> okp (fcode_opp a) (fun r => loose56 r /\ val56 r mod p = (- val56 a) mod p).
Proof.
  intros a Ha. eight Ha F a. change 0x100000000000000 with (2 ^ 56) in *. unfold fcode_opp, two_p_limbs. cbn [fopp_limbs].
  change 0x1fffffffffffffe with (2 ^ 57 - 2). change 0x1fffffffffffffc with (2 ^ 57 - 4). run64.
  apply okp_ret. split.
  - split; [reflexivity|]. change 0x300000000000000 with (3 * 2 ^ 56). repeat apply Forall_cons; try apply Forall_nil; lia.
  - apply (mod_p_eq _ _ 2). rewrite !val56_eq, p_X. replace (2 ^ 57) with (2 * 2 ^ 56) by reflexivity. ring.
Qed.

(** ** Selection *)
Lemma cmov_ok : forall c x y, c = 0 \/ c = 1 -> 0 <= x < 2 ^ 64 -> 0 <= y < 2 ^ 64 -> cmovznz_u64 c x y = Ok (if c =? 0 then x else y).
Proof.
  intros c x y Hc Hx Hy. assert (M : forall z, 0 <= z < 2 ^ 64 -> Z.land mask64 z = z).
  { intros z Hz. rewrite Z.land_comm. change mask64 with (Z.ones 64). rewrite Z.land_ones by lia. apply Z.mod_small. exact Hz. }
  unfold cmovznz_u64. destruct Hc as [-> | ->].
  - change (i8_sub 0 0) with (Ok 0). cbn [bind]. change (as_u64 (Z.land 0 mask64)) with 0. rewrite Z.land_0_l, Z.lxor_0_l, Z.lor_0_l, M by exact Hx. reflexivity.
  - change (i8_sub 0 1) with (Ok (-1)). cbn [bind]. change (as_u64 (Z.land (-1) mask64)) with mask64. rewrite Z.lxor_nilpotent, Z.land_0_l, Z.lor_0_r, M by exact Hy. reflexivity.
Qed.
Lemma selectznz_ok : forall c n a b, c = 0 \/ c = 1 -> array 64 n a -> array 64 n b -> fcode_selectznz c a b = Ok (if c =? 0 then a else b).
Proof.
  intros c n a. revert n. induction a as [|x a IH]; intros n b Hc [La Fa] [Lb Fb]; destruct b as [|y b]; cbn [length] in *; try lia.
  - cbn [fcode_selectznz]. destruct (c =? 0); reflexivity.
  - apply Forall_cons_iff in Fa. apply Forall_cons_iff in Fb. cbn [fcode_selectznz]. rewrite cmov_ok by tauto. cbn [bind].
    rewrite (IH (length a) b Hc) by (split; [lia|tauto]). cbn [bind]. destruct (c =? 0); reflexivity.
Qed.

(** ** Bytes *)
Lemma as_i_small : forall w x, 0 < w -> - 2 ^ (w - 1) <= x < 2 ^ (w - 1) -> as_i w x = x.
Proof.
  intros w x Hw H. assert (E : 2 ^ w = 2 * 2 ^ (w - 1)) by (rewrite <- Z.pow_succ_r by lia; f_equal; lia). unfold as_i, wrap.
  destruct (Z.lt_ge_cases x 0) as [N|N].
  - rewrite <- (Z_mod_plus_full x 1 (2 ^ w)), Z.mod_small by lia. rewrite (proj2 (Z.ltb_ge _ _)) by lia. lia.
  - rewrite Z.mod_small by lia. rewrite (proj2 (Z.ltb_lt _ _)) by lia. reflexivity.
Qed.
Lemma subborrow_ok : forall b x k, b = 0 \/ b = 1 -> 0 <= x <= 2 ^ 56 -> 2 ^ 56 - 2 <= k < 2 ^ 56 ->
  exists y b', subborrowx_u56 b x k = Ok (y, b') /\ 0 <= y < 2 ^ 56 /\ (b' = 0 \/ b' = 1) /\ x - k - b = y - 2 ^ 56 * b'.
Proof.
  intros b x k Hb Hx Hk. unfold subborrowx_u56, i128_sub. rewrite chk_i_ok by lia. cbn [bind]. rewrite (as_i_small 64) by lia. rewrite chk_i_ok by lia. cbn [bind].
  rewrite (as_i_small 64) by lia. set (v := x - b - k). rewrite land56, shr_div by lia.
  pose proof (Z.div_mod v (2 ^ 56) ltac:(lia)) as D. pose proof (Z.mod_pos_bound v (2 ^ 56) ltac:(lia)) as R.
  assert (Q : v / 2 ^ 56 = 0 \/ v / 2 ^ 56 = -1) by lia.
  rewrite (as_u64_small (v mod 2 ^ 56)) by lia.
  destruct Q as [Q|Q]; rewrite Q in *.
  - exists (v mod 2 ^ 56), 0. split; [reflexivity|]. lia.
  - exists (v mod 2 ^ 56), 1. split; [reflexivity|]. lia.
Qed.
Lemma addcarry_ok : forall c x k, c = 0 \/ c = 1 -> 0 <= x < 2 ^ 56 -> 0 <= k < 2 ^ 56 ->
  exists y c', addcarryx_u56 c x k = Ok (y, c') /\ 0 <= y < 2 ^ 56 /\ (c' = 0 \/ c' = 1) /\ x + k + c = y + 2 ^ 56 * c'.
Proof.
  intros c x k Hc Hx Hk. unfold addcarryx_u56, u64_add. rewrite chk_u_ok by lia. cbn [bind]. rewrite chk_u_ok by lia. cbn [bind].
  destruct (cut56 (c + x + k) 2 ltac:(lia)) as (q & r & C & R & Q & -> & ->). rewrite as_u8_small by lia. exists r, q. split; [reflexivity|]. lia.
Qed.
Lemma sub_chain_ok : forall a k b, length a = length k -> b = 0 \/ b = 1 -> Forall (fun x => 0 <= x <= 2 ^ 56) a -> Forall (fun x => 2 ^ 56 - 2 <= x < 2 ^ 56) k ->
  exists y b', sub_chain a k b = Ok (y, b') /\ array 56 (length a) y /\ (b' = 0 \/ b' = 1) /\ eval 56 a - eval 56 k - b = eval 56 y - 2 ^ (56 * Z.of_nat (length a)) * b'.
Proof.
  induction a as [|x a IH]; intros [|z k] b L Hb Fa Fk; cbn [length] in L; try discriminate.
  - exists [], b. split; [reflexivity|]. split; [split; [reflexivity|constructor]|]. split; [exact Hb|]. destruct Hb as [-> | ->]; reflexivity.
  - apply Forall_cons_iff in Fa. destruct Fa as [Hx Fa]. apply Forall_cons_iff in Fk. destruct Fk as [Hz Fk].
    destruct (subborrow_ok b x z Hb Hx Hz) as (y & b1 & E1 & Hy & Hb1 & V1).
    destruct (IH k b1 ltac:(lia) Hb1 Fa Fk) as (r & b2 & E2 & Hr & Hb2 & V2).
    exists (y :: r), b2. cbn [sub_chain]. rewrite E1. cbn [bind]. rewrite E2. cbn [bind]. split; [reflexivity|]. split; [apply array_cons; split; assumption|]. split; [exact Hb2|].
    cbn [eval length]. rewrite pow_len_S by lia. set (P := 2 ^ (56 * Z.of_nat (length a))) in *. clearbody P. destruct Hb2 as [-> | ->]; lia.
Qed.
Lemma add_chain_ok : forall a k s c, length a = length k -> c = 0 \/ c = 1 -> Forall (fun x => 0 <= x < 2 ^ 56) a -> Forall (fun x => 0 <= Z.land s x < 2 ^ 56) k ->
  exists y c', add_chain a k s c = Ok (y, c') /\ array 56 (length a) y /\ (c' = 0 \/ c' = 1) /\
    eval 56 a + eval 56 (map (Z.land s) k) + c = eval 56 y + 2 ^ (56 * Z.of_nat (length a)) * c'.
Proof.
  induction a as [|x a IH]; intros [|z k] s c L Hc Fa Fk; cbn [length] in L; try discriminate.
  - exists [], c. split; [reflexivity|]. split; [split; [reflexivity|constructor]|]. split; [exact Hc|]. destruct Hc as [-> | ->]; reflexivity.
  - apply Forall_cons_iff in Fa. destruct Fa as [Hx Fa]. apply Forall_cons_iff in Fk. destruct Fk as [Hz Fk].
    destruct (addcarry_ok c x (Z.land s z) Hc Hx Hz) as (y & c1 & E1 & Hy & Hc1 & V1).
    destruct (IH k s c1 ltac:(lia) Hc1 Fa Fk) as (r & c2 & E2 & Hr & Hc2 & V2).
    exists (y :: r), c2. cbn [add_chain]. rewrite E1. cbn [bind]. rewrite E2. cbn [bind]. split; [reflexivity|]. split; [apply array_cons; split; assumption|]. split; [exact Hc2|].
    cbn [eval length map]. rewrite pow_len_S by lia. set (P := 2 ^ (56 * Z.of_nat (length a))) in *. clearbody P. destruct Hc2 as [-> | ->]; lia.
Qed.
Lemma limb_bytes_ok : forall n x, limb_bytes n x = digits 8 (S n) x.
Proof.
  induction n as [|n IH]; intro x; [reflexivity|]. change (digits 8 (S (S n)) x) with (x mod 2 ^ 8 :: digits 8 (S n) (x / 2 ^ 8)). cbn [limb_bytes]. rewrite IH, shr_div by lia. f_equal.
  change 0xff with (Z.ones 8). rewrite Z.land_ones by lia. unfold as_u8, wrap. apply Zmod_mod.
Qed.
Lemma limb_bytes_all : forall y, Forall (fun x => 0 <= x < 2 ^ 56) y -> flat_map (limb_bytes 6) y = digits 8 (7 * length y) (eval 56 y).
Proof.
  induction y as [|x y IH]; intro F; [reflexivity|]. apply Forall_cons_iff in F. destruct F as [Hx F]. cbn [flat_map length]. rewrite IH by exact F.
  rewrite limb_bytes_ok.
  assert (A : array 8 7 (digits 8 7 x)) by (apply digits_array; lia). assert (A' : array 8 (7 * length y) (digits 8 (7 * length y) (eval 56 y))) by (apply digits_array; lia).
  pose proof (eval_range 56 y ltac:(lia) F) as R.
  apply (eval_inj 8 (7 + 7 * length y)); [lia|apply array_app; assumption| |].
  - replace (7 * S (length y))%nat with (7 + 7 * length y)%nat by lia. apply digits_array. lia.
  - rewrite eval_app by lia. rewrite digits_length, !eval_digits by lia.
    assert (P : 2 ^ (8 * Z.of_nat (7 * length y)) = 2 ^ (56 * Z.of_nat (length y))) by (f_equal; lia).
    rewrite P. rewrite (Z.mod_small (eval 56 y)) by lia. change (8 * Z.of_nat 7) with 56. rewrite (Z.mod_small x) by exact Hx.
    symmetry. apply Z.mod_small. replace (8 * Z.of_nat (7 * S (length y))) with (56 + 56 * Z.of_nat (length y)) by lia. rewrite Z.pow_add_r by lia. cbn [eval]. nia.
Qed.
Lemma tight_range : forall a, tight56 a -> 0 <= val56 a < 2 * p.
Proof.
  intros a Ha. eight Ha F a. change 0x100000000000000 with (2 ^ 56) in *. rewrite val56_eq. unfold p. lia.
Qed.
Lemma to_bytes_ok : forall a, tight56 a -> fcode_to_bytes a = Ok (le_bytes 56 (val56 a mod p)).
Proof.
  intros a Ha. pose proof (tight_range a Ha) as V. destruct Ha as [L F]. change 0x100000000000000 with (2 ^ 56) in F. unfold fcode_to_bytes.
  destruct (sub_chain_ok a p_limbs56 0 L ltac:(lia) F) as (x & b & E & [Lx Fx] & Hb & Vx); [repeat constructor; lia|]. rewrite E. cbn [bind].
  rewrite L in Vx. change (eval 56 p_limbs56) with p in Vx. change (2 ^ (56 * Z.of_nat 8)) with (2 ^ 448) in Vx. fold (val56 a) in Vx. rewrite L in Lx.
  rewrite cmov_ok by (exact Hb || unfold mask64; lia). cbn [bind].
  assert (Rx : 0 <= eval 56 x < 2 ^ 448) by (apply (array_range 56 8); [lia|split; assumption]).
  destruct Hb as [-> | ->]; cbn [Z.eqb].
  - destruct (add_chain_ok x p_limbs56 0 0 Lx ltac:(lia) Fx) as (y & c & E2 & [Ly Fy] & Hc & Vy); [repeat constructor; vm_compute; congruence|]. rewrite E2. cbn [bind].
    rewrite Lx in *. change (eval 56 (map (Z.land 0) p_limbs56)) with 0 in Vy. change (2 ^ (56 * Z.of_nat 8)) with (2 ^ 448) in Vy.
    rewrite limb_bytes_all, Ly by exact Fy. f_equal. unfold le_bytes. change (7 * 8)%nat with 56%nat. f_equal.
    assert (Ry : 0 <= eval 56 y < 2 ^ 448) by (apply (array_range 56 8); [lia|split; assumption]).
    apply (Z.mod_unique _ _ 1); lia.
  - destruct (add_chain_ok x p_limbs56 mask64 0 Lx ltac:(lia) Fx) as (y & c & E2 & [Ly Fy] & Hc & Vy); [repeat constructor; vm_compute; congruence|]. rewrite E2. cbn [bind].
    rewrite Lx in *. change (eval 56 (map (Z.land mask64) p_limbs56)) with p in Vy. change (2 ^ (56 * Z.of_nat 8)) with (2 ^ 448) in Vy.
    rewrite limb_bytes_all, Ly by exact Fy. f_equal. unfold le_bytes. change (7 * 8)%nat with 56%nat. f_equal.
    assert (Ry : 0 <= eval 56 y < 2 ^ 448) by (apply (array_range 56 8); [lia|split; assumption]).
    apply (Z.mod_unique _ _ 0); unfold p in *; lia.
Qed.
Lemma load56_ok : forall b0 b1 b2 b3 b4 b5 b6 b, Forall (fun x => 0 <= x < 2 ^ 8) [b0; b1; b2; b3; b4; b5; b6] ->
  load56 (b0 :: b1 :: b2 :: b3 :: b4 :: b5 :: b6 :: b) = Ok (eval 8 [b0; b1; b2; b3; b4; b5; b6]).
Proof.
  intros b0 b1 b2 b3 b4 b5 b6 b F. limbs F. unfold load56. rewrite !shl_u_mul by lia.
  rewrite !(Z.mod_small (_ * 2 ^ _)) by lia. run64. f_equal. cbn [eval]. lia.
Qed.
Lemma from_bytes_loop_ok : forall n b, array 8 (7 * n) b -> exists r, fcode_from_bytes_loop n b = Ok r /\ array 56 n r /\ eval 56 r = eval 8 b.
Proof.
  induction n as [|n IH]; intros b Hb.
  - exists []. destruct Hb as [Lb _]. destruct b; [|discriminate]. split; [reflexivity|]. split; [split; [reflexivity|constructor]|reflexivity].
  - replace (7 * S n)%nat with (7 + 7 * n)%nat in Hb by lia. pose proof (array_firstn 8 (7 + 7 * n) 7 b ltac:(lia) Hb) as H1. pose proof (array_skipn 8 _ 7 b Hb) as H2.
    replace (7 + 7 * n - 7)%nat with (7 * n)%nat in H2 by lia. destruct Hb as [Lb Fb].
    destruct (IH _ H2) as (r & E & Hr & V).
    pose proof (eval_firstn_skipn 8 (7 + 7 * n) 7 b ltac:(lia) ltac:(lia) Lb) as S.
    assert (G : load56 b = Ok (eval 8 (firstn 7 b))).
    { do 7 (destruct b as [|? b]; [cbn [length] in Lb; lia|]). cbn [firstn]. apply load56_ok. exact (proj2 H1). }
    exists (eval 8 (firstn 7 b) :: r). cbn [fcode_from_bytes_loop]. rewrite G. cbn [bind]. rewrite E. cbn [bind]. split; [reflexivity|]. split.
    + apply array_cons. split; [|exact Hr]. exact (array_range 8 7 _ ltac:(lia) H1).
    + cbn [eval]. rewrite V, S. reflexivity.
Qed.
Lemma from_bytes_ok : forall b, bytes 56 b -> okp (fcode_from_bytes b) (fun r => tight56 r /\ val56 r = le_val b).
Proof.
  intros b Hb. destruct (from_bytes_loop_ok 8 b Hb) as (r & E & [Lr Fr] & V). exists r. split; [exact E|]. split.
  - split; [exact Lr|]. eapply Forall_impl; [|exact Fr]. cbn. lia.
  - unfold val56, le_val. rewrite V. reflexivity.
Qed.
Theorem fiat_code_contract : fiat_contract fiat_code.
Proof.
  constructor; cbn [fiat_relax fiat_carry_mul fiat_carry_square fiat_carry fiat_add fiat_sub fiat_opp fiat_selectznz fiat_to_bytes fiat_from_bytes fiat_code].
  - reflexivity.
  - exact carry_mul_ok.
  - exact carry_square_ok.
  - exact carry_ok.
  - exact add_ok.
  - exact sub_ok.
  - exact opp_ok.
  - intros c a b Ha Hb Hc. exact (selectznz_ok c 8 a b Hc Ha Hb).
  - exact to_bytes_ok.
  - intros b Hb. destruct (from_bytes_ok b Hb) as (r & E & T & V). exists r. rewrite V. auto.
Qed.
Lemma fiat_code_linear : forall a b, tight56 a -> tight56 b ->
  okp (fcode_add a b) (fun r => loose56 r /\ val56 r mod p = (val56 a + val56 b) mod p) /\
  okp (fcode_sub a b) (fun r => loose56 r /\ val56 r mod p = (val56 a - val56 b) mod p) /\
  okp (fcode_opp a) (fun r => loose56 r /\ val56 r mod p = (- val56 a) mod p).
Proof. intros a b Ha Hb. split; [exact (add_ok a b Ha Hb)|]. split; [exact (sub_ok a b Ha Hb)|exact (opp_ok a Ha)]. Qed.
Lemma fiat_code_select : forall n c a b, array 64 n a -> array 64 n b -> c = 0 \/ c = 1 -> fcode_selectznz c a b = Ok (if c =? 0 then a else b).
Proof. intros n c a b Ha Hb Hc. exact (selectznz_ok c n a b Hc Ha Hb). Qed.
Lemma fiat_code_bytes : (forall a, tight56 a -> fcode_to_bytes a = Ok (le_bytes 56 (val56 a mod p))) /\
  (forall b, bytes 56 b -> okp (fcode_from_bytes b) (fun r => tight56 r /\ val56 r = le_val b)).
Proof. split; [exact to_bytes_ok|exact from_bytes_ok]. Qed.
Lemma fiat_code_case :
  let a := repeat 0x300000000000000 8 in
  let t := repeat 0x100000000000000 8 in
  loose56 a /\ tight56 t /\
  (exists r, fcode_carry_mul a a = Ok r /\ fcode_carry_square a = Ok r /\ val56 r mod p = (val56 a * val56 a) mod p) /\
  fcode_sub (repeat 0 8) t = Ok (map (fun x => x - 0x100000000000000) two_p_limbs) /\
  ~ tight56 minus_one56 /\ fcode_to_bytes minus_one56 = Ok (le_bytes 56 (p - 1)) /\
  fcode_to_bytes t = Ok (le_bytes 56 (val56 t mod p)) /\ val56 t > p.
Proof.
  intros a t. split; [|split; [|split; [|split; [|split; [|split; [|split]]]]]].
  - split; [reflexivity|]. repeat constructor; vm_compute; congruence.
  - split; [reflexivity|]. repeat constructor; vm_compute; congruence.
  - exists [126; 108; 99; 90; 207; 180; 162; 144]. split; [|split]; vm_compute; reflexivity.
  - vm_compute. reflexivity.
  - intros [_ F]. inversion F as [|x l H _]. destruct H as [_ H]. vm_compute in H. apply H. reflexivity.
  - vm_compute. reflexivity.
  - vm_compute. reflexivity.
  - vm_compute. reflexivity.
Qed.
Theorem fiat_code_agrees : forall d (e : api (TData d)), api_ok e ->
  api_run u32_backend e = Ok (meaning e) /\ api_run (fiat_backend fiat_code) e = Ok (meaning e).
Proof.
  intros d e H. split; [exact (data_meaning _ shipped_u32 d e H)|exact (data_meaning _ (shipped_fiat fiat_code fiat_code_contract) d e H)].
Qed.
