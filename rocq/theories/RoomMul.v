(** The multiplication of the 32-bit backend on limbs beyond the bound: it is exact as long as the sums of the two halves of an
    operand fit into u32.  The steps are those of FieldU32Mul.v, with wider bounds. *)
Require Import ZArith List Bool Lia.
From Verif Require Import Base BaseProofs SpecParams FieldU32Model Wp FieldU32Mul FieldU32Proofs WidthSpec RoomSpec.
Import ListNotations.
Open Scope Z_scope.

Lemma wrap_sum : forall x y, 0 <= x < 2 ^ 32 -> 0 <= y < 2 ^ 32 -> x + y < 2 ^ 32 -> wrap 32 (x + y) = x + y.
Proof. intros. apply wrap_small. lia. Qed.

(** Checked i128 expressions: value and a bound on its size. *)
Definition bo (e : res Z) (v n : Z) : Prop := e = Ok v /\ Z.abs v <= n * 2 ^ 64.
Lemma bo_m : forall x y, 0 <= x < 2 ^ 32 -> 0 <= y < 2 ^ 32 -> bo (m x y) (x * y) 1.
Proof.
  intros x y Hx Hy. assert (0 <= x * y < 2 ^ 64) by nia. split; [|lia].
  unfold m, i128_mul. apply chk_i_ok. lia.
Qed.
Lemma bo_m1 : forall x y, 0 <= x < 2 ^ 32 -> 0 <= y < 2 ^ 32 -> bo (m x y) (x * y) 1.
Proof. intros. apply bo_m; lia. Qed.
Lemma bo_m2 : forall x x' y y', 0 <= x < 2 ^ 32 -> 0 <= x' < 2 ^ 32 -> 0 <= y < 2 ^ 32 ->
  0 <= y' < 2 ^ 32 -> x + x' < 2 ^ 32 -> y + y' < 2 ^ 32 -> bo (m (x + x') (y + y')) ((x + x') * (y + y')) 1.
Proof. intros. apply bo_m; lia. Qed.
Lemma bo_vark : forall k, 0 <= k <= 2 ^ 42 -> bo (Ok k) k 1.
Proof. intros. split; [reflexivity|lia]. Qed.
Lemma bo_varc : forall k, 0 <= k < 2 ^ 28 -> bo (Ok k) k 1.
Proof. intros. split; [reflexivity|lia]. Qed.
Lemma bo_var0 : bo (Ok 0) 0 1.
Proof. split; [reflexivity|lia]. Qed.
Lemma bo_var : forall z n, Z.abs z <= n * 2 ^ 64 -> bo (Ok z) z n.
Proof. intros. split; [reflexivity|assumption]. Qed.
Lemma bo_add : forall e v n e' v' n', bo e v n -> bo e' v' n' -> (n + n' <? 2 ^ 60) = true ->
  bo (lift2 i128_add e e') (v + v') (n + n').
Proof.
  intros e v n e' v' n' [-> H] [-> H'] L. apply Z.ltb_lt in L. split; [|lia].
  cbn [lift2 bind]. apply chk_i_ok. lia.
Qed.
Lemma bo_sub : forall e v n e' v' n', bo e v n -> bo e' v' n' -> (n + n' <? 2 ^ 60) = true ->
  bo (lift2 i128_sub e e') (v - v') (n + n').
Proof.
  intros e v n e' v' n' [-> H] [-> H'] L. apply Z.ltb_lt in L. split; [|lia].
  cbn [lift2 bind]. apply chk_i_ok. lia.
Qed.
Lemma bo_bind : forall {B} e v n (f : Z -> res B) Q, bo e v n ->
  (forall z, z = v -> Z.abs z <= n * 2 ^ 64 -> okp (f z) Q) -> okp (bind e f) Q.
Proof. intros B e v n f Q [-> H] K. cbn [bind]. apply K; [reflexivity|exact H]. Qed.

Ltac solve_bo :=
  lazymatch goal with
  | |- bo (m (_ + _) (_ + _)) _ _ => apply bo_m2; assumption
  | |- bo (m _ _) _ _ => apply bo_m1; assumption
  | |- bo (lift2 i128_add _ _) _ _ => eapply bo_add; [solve_bo|solve_bo|vm_compute; reflexivity]
  | |- bo (lift2 i128_sub _ _) _ _ => eapply bo_sub; [solve_bo|solve_bo|vm_compute; reflexivity]
  | |- bo (Ok ?z) _ _ => first [exact bo_var0 | apply bo_vark; assumption | apply bo_varc; assumption | eapply bo_var; eassumption]
  end.
Ltac step z E := eapply bo_bind; [solve_bo|]; intros z E ?; cbv beta.

(** Sums of products. *)
Definition bd (x n : Z) : Prop := 0 <= x <= n * 2 ^ 64.
Lemma bd_mul : forall x y, 0 <= x < 2 ^ 32 -> 0 <= y < 2 ^ 32 -> bd (x * y) 1.
Proof. intros. unfold bd. nia. Qed.
Lemma bd_var : forall k, 0 <= k <= 2 ^ 42 -> bd k 1.
Proof. intros. unfold bd. lia. Qed.
Lemma bd_add : forall x n y k, bd x n -> bd y k -> bd (x + y) (n + k).
Proof. unfold bd. intros. lia. Qed.
Lemma bd_le : forall x n, bd x n -> (n <=? 40) = true -> 0 <= x <= 2 ^ 70.
Proof. unfold bd. intros x n H L. apply Z.leb_le in L. nia. Qed.
Ltac solve_bd :=
  lazymatch goal with
  | |- bd (_ + _) _ => eapply bd_add; solve_bd
  | |- bd (_ * _) _ => apply bd_mul; assumption
  | |- bd _ _ => apply bd_var; assumption
  end.

Lemma split28_lem : forall z, 0 <= z <= 2 ^ 70 ->
  exists c k, z = c + 2 ^ 28 * k /\ 0 <= c < 2 ^ 28 /\ 0 <= k <= 2 ^ 42 /\
    as_u32 (Z.land z mask28) = c /\ shr z 28 = k /\ Z.land (as_u32 z) mask28 = c.
Proof.
  intros z Hz. exists (z mod 2 ^ 28), (z / 2 ^ 28).
  pose proof (Z.div_mod z (2 ^ 28) ltac:(lia)). pose proof (Z.mod_pos_bound z (2 ^ 28) ltac:(lia)).
  split; [lia|]. split; [lia|]. split; [lia|].
  unfold mask28. rewrite !land_mask by lia. split; [apply wrap_small; lia|].
  split; [apply shr_div; lia|]. unfold as_u32, wrap.
  rewrite <- Znumtheory.Zmod_div_mod; [reflexivity|lia|lia|exists 16; reflexivity].
Qed.

Ltac split28 z N c k Hc Hk :=
  let B := fresh "B" in
  assert (B : 0 <= z <= 2 ^ 70) by (rewrite N; eapply bd_le; [solve_bd|vm_compute; reflexivity]);
  let E := fresh "S" in let R1 := fresh in let R2 := fresh in let R3 := fresh in
  destruct (split28_lem z B) as (c & k & E & Hc & Hk & R1 & R2 & R3);
  rewrite ?R1, ?R2, ?R3; clear R1 R2 R3; rewrite N in E; clear N.

Ltac final28 z N c k Hc Hk H36 :=
  let E := fresh "S" in let R1 := fresh in let R2 := fresh in let R3 := fresh in
  destruct (split28_lem z ltac:(clear - H36; lia)) as (c & k & E & Hc & Hk & R1 & R2 & R3);
  rewrite ?R1, ?R2, ?R3; clear R1 R2 R3;
  let H := fresh in assert (H : 0 <= k < 2 ^ 16) by (clear - E Hc Hk H36; lia); clear Hk; rename H into Hk; rewrite N in E; clear N.





Lemma room_mul : forall a b, halves_fit a -> halves_fit b ->
  okp (mul28 a b) (fun r => lim (2 ^ 28 + 2 ^ 16) r /\ exists q, val28 r + q * p = val28 a * val28 b).
Proof.
  intros a b [[Ha Fa] Sa] [[Hb Fb] Sb]. destruct (list16_inv a Ha) as (a0 & a1 & a2 & a3 & a4 & a5 & a6 & a7 & a8 & a9 & a10 & a11 & a12 & a13 & a14 & a15 & ->). destruct (list16_inv b Hb) as (b0 & b1 & b2 & b3 & b4 & b5 & b6 & b7 & b8 & b9 & b10 & b11 & b12 & b13 & b14 & b15 & ->).
  clear Ha Hb. destruct_limbs Fa. destruct_limbs Fb. cbn [firstn skipn combine] in Sa, Sb. destruct_limbs Sa. destruct_limbs Sb. cbn [fst snd] in *.
  unfold mul28. rewrite (wrap_sum a0 a8) by assumption. rewrite (wrap_sum a1 a9) by assumption. rewrite (wrap_sum a2 a10) by assumption. rewrite (wrap_sum a3 a11) by assumption. rewrite (wrap_sum a4 a12) by assumption. rewrite (wrap_sum a5 a13) by assumption. rewrite (wrap_sum a6 a14) by assumption. rewrite (wrap_sum a7 a15) by assumption. rewrite (wrap_sum b0 b8) by assumption. rewrite (wrap_sum b1 b9) by assumption. rewrite (wrap_sum b2 b10) by assumption. rewrite (wrap_sum b3 b11) by assumption. rewrite (wrap_sum b4 b12) by assumption. rewrite (wrap_sum b5 b13) by assumption. rewrite (wrap_sum b6 b14) by assumption. rewrite (wrap_sum b7 b15) by assumption.
  cbv zeta.
  step z2_1 Ez2_1.
  step z1_1 Ez1_1.
  step z0_1 Ez0_1.
  step z2_2 Ez2_2.
  step z1_2 Ez1_2.
  step z0_2 Ez0_2.
  assert (Nz0_2 : z0_2 = (a8 * b8 + a0 * b0 + a1 * b15 + a9 * b7 + a9 * b15 + a2 * b14 + a10 * b6 + a10 * b14 + a3 * b13 + a11 * b5 + a11 * b13 + a4 * b12 + a12 * b4 + a12 * b12 + a5 * b11 + a13 * b3 + a13 * b11 + a6 * b10 + a14 * b2 + a14 * b10 + a7 * b9 + a15 * b1 + a15 * b9)) by (rewrite ?Ez0_2, ?Ez1_2, ?Ez2_2, ?Ez0_1, ?Ez1_1, ?Ez2_1; ring).
  split28 z0_2 Nz0_2 c0 k0 Bc0 Bk0.
  assert (Nz1_2 : z1_2 = (a0 * b8 + a8 * b0 + a8 * b8 + a9 * b15 + a1 * b7 + a1 * b15 + a9 * b7 + a9 * b15 + a10 * b14 + a2 * b6 + a2 * b14 + a10 * b6 + a10 * b14 + a11 * b13 + a3 * b5 + a3 * b13 + a11 * b5 + a11 * b13 + a12 * b12 + a4 * b4 + a4 * b12 + a12 * b4 + a12 * b12 + a13 * b11 + a5 * b3 + a5 * b11 + a13 * b3 + a13 * b11 + a14 * b10 + a6 * b2 + a6 * b10 + a14 * b2 + a14 * b10 + a15 * b9 + a7 * b1 + a7 * b9 + a15 * b1 + a15 * b9)) by (rewrite ?Ez0_2, ?Ez1_2, ?Ez2_2, ?Ez0_1, ?Ez1_1, ?Ez2_1; ring).
  split28 z1_2 Nz1_2 c8 l0 Bc8 Bl0.
  step z2_3 Ez2_3.
  step z1_3 Ez1_3.
  step z0_3 Ez0_3.
  step z2_4 Ez2_4.
  step z1_4 Ez1_4.
  step z0_4 Ez0_4.
  assert (Nz0_4 : z0_4 = k0 + (a8 * b9 + a0 * b1 + a9 * b8 + a1 * b0 + a2 * b15 + a10 * b7 + a10 * b15 + a3 * b14 + a11 * b6 + a11 * b14 + a4 * b13 + a12 * b5 + a12 * b13 + a5 * b12 + a13 * b4 + a13 * b12 + a6 * b11 + a14 * b3 + a14 * b11 + a7 * b10 + a15 * b2 + a15 * b10)) by (rewrite ?Ez0_4, ?Ez1_4, ?Ez2_4, ?Ez0_3, ?Ez1_3, ?Ez2_3; ring).
  split28 z0_4 Nz0_4 c1 k1 Bc1 Bk1.
  assert (Nz1_4 : z1_4 = l0 + (a0 * b9 + a8 * b1 + a8 * b9 + a1 * b8 + a9 * b0 + a9 * b8 + a10 * b15 + a2 * b7 + a2 * b15 + a10 * b7 + a10 * b15 + a11 * b14 + a3 * b6 + a3 * b14 + a11 * b6 + a11 * b14 + a12 * b13 + a4 * b5 + a4 * b13 + a12 * b5 + a12 * b13 + a13 * b12 + a5 * b4 + a5 * b12 + a13 * b4 + a13 * b12 + a14 * b11 + a6 * b3 + a6 * b11 + a14 * b3 + a14 * b11 + a15 * b10 + a7 * b2 + a7 * b10 + a15 * b2 + a15 * b10)) by (rewrite ?Ez0_4, ?Ez1_4, ?Ez2_4, ?Ez0_3, ?Ez1_3, ?Ez2_3; ring).
  split28 z1_4 Nz1_4 c9 l1 Bc9 Bl1.
  step z2_5 Ez2_5.
  step z1_5 Ez1_5.
  step z0_5 Ez0_5.
  step z2_6 Ez2_6.
  step z1_6 Ez1_6.
  step z0_6 Ez0_6.
  assert (Nz0_6 : z0_6 = k1 + (a8 * b10 + a0 * b2 + a9 * b9 + a1 * b1 + a10 * b8 + a2 * b0 + a3 * b15 + a11 * b7 + a11 * b15 + a4 * b14 + a12 * b6 + a12 * b14 + a5 * b13 + a13 * b5 + a13 * b13 + a6 * b12 + a14 * b4 + a14 * b12 + a7 * b11 + a15 * b3 + a15 * b11)) by (rewrite ?Ez0_6, ?Ez1_6, ?Ez2_6, ?Ez0_5, ?Ez1_5, ?Ez2_5; ring).
  split28 z0_6 Nz0_6 c2 k2 Bc2 Bk2.
  assert (Nz1_6 : z1_6 = l1 + (a0 * b10 + a8 * b2 + a8 * b10 + a1 * b9 + a9 * b1 + a9 * b9 + a2 * b8 + a10 * b0 + a10 * b8 + a11 * b15 + a3 * b7 + a3 * b15 + a11 * b7 + a11 * b15 + a12 * b14 + a4 * b6 + a4 * b14 + a12 * b6 + a12 * b14 + a13 * b13 + a5 * b5 + a5 * b13 + a13 * b5 + a13 * b13 + a14 * b12 + a6 * b4 + a6 * b12 + a14 * b4 + a14 * b12 + a15 * b11 + a7 * b3 + a7 * b11 + a15 * b3 + a15 * b11)) by (rewrite ?Ez0_6, ?Ez1_6, ?Ez2_6, ?Ez0_5, ?Ez1_5, ?Ez2_5; ring).
  split28 z1_6 Nz1_6 c10 l2 Bc10 Bl2.
  step z2_7 Ez2_7.
  step z1_7 Ez1_7.
  step z0_7 Ez0_7.
  step z2_8 Ez2_8.
  step z0_8 Ez0_8.
  step z1_8 Ez1_8.
  assert (Nz0_8 : z0_8 = k2 + (a8 * b11 + a0 * b3 + a9 * b10 + a1 * b2 + a10 * b9 + a2 * b1 + a11 * b8 + a3 * b0 + a4 * b15 + a12 * b7 + a12 * b15 + a5 * b14 + a13 * b6 + a13 * b14 + a6 * b13 + a14 * b5 + a14 * b13 + a7 * b12 + a15 * b4 + a15 * b12)) by (rewrite ?Ez1_8, ?Ez0_8, ?Ez2_8, ?Ez0_7, ?Ez1_7, ?Ez2_7; ring).
  split28 z0_8 Nz0_8 c3 k3 Bc3 Bk3.
  assert (Nz1_8 : z1_8 = l2 + (a0 * b11 + a8 * b3 + a8 * b11 + a1 * b10 + a9 * b2 + a9 * b10 + a2 * b9 + a10 * b1 + a10 * b9 + a3 * b8 + a11 * b0 + a11 * b8 + a12 * b15 + a4 * b7 + a4 * b15 + a12 * b7 + a12 * b15 + a13 * b14 + a5 * b6 + a5 * b14 + a13 * b6 + a13 * b14 + a14 * b13 + a6 * b5 + a6 * b13 + a14 * b5 + a14 * b13 + a15 * b12 + a7 * b4 + a7 * b12 + a15 * b4 + a15 * b12)) by (rewrite ?Ez1_8, ?Ez0_8, ?Ez2_8, ?Ez0_7, ?Ez1_7, ?Ez2_7; ring).
  split28 z1_8 Nz1_8 c11 l3 Bc11 Bl3.
  step z2_9 Ez2_9.
  step z1_9 Ez1_9.
  step z0_9 Ez0_9.
  step z2_10 Ez2_10.
  step z1_10 Ez1_10.
  step z0_10 Ez0_10.
  assert (Nz0_10 : z0_10 = k3 + (a8 * b12 + a0 * b4 + a9 * b11 + a1 * b3 + a10 * b10 + a2 * b2 + a11 * b9 + a3 * b1 + a12 * b8 + a4 * b0 + a5 * b15 + a13 * b7 + a13 * b15 + a6 * b14 + a14 * b6 + a14 * b14 + a7 * b13 + a15 * b5 + a15 * b13)) by (rewrite ?Ez0_10, ?Ez1_10, ?Ez2_10, ?Ez0_9, ?Ez1_9, ?Ez2_9; ring).
  split28 z0_10 Nz0_10 c4 k4 Bc4 Bk4.
  assert (Nz1_10 : z1_10 = l3 + (a0 * b12 + a8 * b4 + a8 * b12 + a1 * b11 + a9 * b3 + a9 * b11 + a2 * b10 + a10 * b2 + a10 * b10 + a3 * b9 + a11 * b1 + a11 * b9 + a4 * b8 + a12 * b0 + a12 * b8 + a13 * b15 + a5 * b7 + a5 * b15 + a13 * b7 + a13 * b15 + a14 * b14 + a6 * b6 + a6 * b14 + a14 * b6 + a14 * b14 + a15 * b13 + a7 * b5 + a7 * b13 + a15 * b5 + a15 * b13)) by (rewrite ?Ez0_10, ?Ez1_10, ?Ez2_10, ?Ez0_9, ?Ez1_9, ?Ez2_9; ring).
  split28 z1_10 Nz1_10 c12 l4 Bc12 Bl4.
  step z2_11 Ez2_11.
  step z1_11 Ez1_11.
  step z0_11 Ez0_11.
  step z2_12 Ez2_12.
  step z1_12 Ez1_12.
  step z0_12 Ez0_12.
  assert (Nz0_12 : z0_12 = k4 + (a8 * b13 + a0 * b5 + a9 * b12 + a1 * b4 + a10 * b11 + a2 * b3 + a11 * b10 + a3 * b2 + a12 * b9 + a4 * b1 + a13 * b8 + a5 * b0 + a6 * b15 + a14 * b7 + a14 * b15 + a7 * b14 + a15 * b6 + a15 * b14)) by (rewrite ?Ez0_12, ?Ez1_12, ?Ez2_12, ?Ez0_11, ?Ez1_11, ?Ez2_11; ring).
  split28 z0_12 Nz0_12 c5 k5 Bc5 Bk5.
  assert (Nz1_12 : z1_12 = l4 + (a0 * b13 + a8 * b5 + a8 * b13 + a1 * b12 + a9 * b4 + a9 * b12 + a2 * b11 + a10 * b3 + a10 * b11 + a3 * b10 + a11 * b2 + a11 * b10 + a4 * b9 + a12 * b1 + a12 * b9 + a5 * b8 + a13 * b0 + a13 * b8 + a14 * b15 + a6 * b7 + a6 * b15 + a14 * b7 + a14 * b15 + a15 * b14 + a7 * b6 + a7 * b14 + a15 * b6 + a15 * b14)) by (rewrite ?Ez0_12, ?Ez1_12, ?Ez2_12, ?Ez0_11, ?Ez1_11, ?Ez2_11; ring).
  split28 z1_12 Nz1_12 c13 l5 Bc13 Bl5.
  step z2_13 Ez2_13.
  step z1_13 Ez1_13.
  step z0_13 Ez0_13.
  step z2_14 Ez2_14.
  step z1_14 Ez1_14.
  step z0_14 Ez0_14.
  assert (Nz0_14 : z0_14 = k5 + (a8 * b14 + a0 * b6 + a9 * b13 + a1 * b5 + a10 * b12 + a2 * b4 + a11 * b11 + a3 * b3 + a12 * b10 + a4 * b2 + a13 * b9 + a5 * b1 + a14 * b8 + a6 * b0 + a7 * b15 + a15 * b7 + a15 * b15)) by (rewrite ?Ez0_14, ?Ez1_14, ?Ez2_14, ?Ez0_13, ?Ez1_13, ?Ez2_13; ring).
  split28 z0_14 Nz0_14 c6 k6 Bc6 Bk6.
  assert (Nz1_14 : z1_14 = l5 + (a0 * b14 + a8 * b6 + a8 * b14 + a1 * b13 + a9 * b5 + a9 * b13 + a2 * b12 + a10 * b4 + a10 * b12 + a3 * b11 + a11 * b3 + a11 * b11 + a4 * b10 + a12 * b2 + a12 * b10 + a5 * b9 + a13 * b1 + a13 * b9 + a6 * b8 + a14 * b0 + a14 * b8 + a15 * b15 + a7 * b7 + a7 * b15 + a15 * b7 + a15 * b15)) by (rewrite ?Ez0_14, ?Ez1_14, ?Ez2_14, ?Ez0_13, ?Ez1_13, ?Ez2_13; ring).
  split28 z1_14 Nz1_14 c14 l6 Bc14 Bl6.
  step z2_15 Ez2_15.
  step z1_15 Ez1_15.
  step z0_15 Ez0_15.
  step z2_16 Ez2_16.
  step z1_16 Ez1_16.
  step z0_16 Ez0_16.
  assert (Nz0_16 : z0_16 = k6 + (a8 * b15 + a0 * b7 + a9 * b14 + a1 * b6 + a10 * b13 + a2 * b5 + a11 * b12 + a3 * b4 + a12 * b11 + a4 * b3 + a13 * b10 + a5 * b2 + a14 * b9 + a6 * b1 + a15 * b8 + a7 * b0)) by (rewrite ?Ez0_16, ?Ez1_16, ?Ez2_16, ?Ez0_15, ?Ez1_15, ?Ez2_15; ring).
  split28 z0_16 Nz0_16 c7 k7 Bc7 Bk7.
  assert (Nz1_16 : z1_16 = l6 + (a0 * b15 + a8 * b7 + a8 * b15 + a1 * b14 + a9 * b6 + a9 * b14 + a2 * b13 + a10 * b5 + a10 * b13 + a3 * b12 + a11 * b4 + a11 * b12 + a4 * b11 + a12 * b3 + a12 * b11 + a5 * b10 + a13 * b2 + a13 * b10 + a6 * b9 + a14 * b1 + a14 * b9 + a7 * b8 + a15 * b0 + a15 * b8)) by (rewrite ?Ez0_16, ?Ez1_16, ?Ez2_16, ?Ez0_15, ?Ez1_15, ?Ez2_15; ring).
  split28 z1_16 Nz1_16 c15 l7 Bc15 Bl7.
  step z0f Ez0f. step z1f Ez1f.
  assert (BF0 : 0 <= z0f <= 2 ^ 43 + 2 ^ 28) by (rewrite Ez0f; clear - Bk7 Bl7 Bc8; lia). assert (BF1 : 0 <= z1f <= 2 ^ 43) by (rewrite Ez1f; clear - Bl7 Bc0; lia).
  final28 z0f Ez0f d8 u0 Hd8 Hu0 BF0. final28 z1f Ez1f d0 u1 Hd0 Hu1 BF1.
  rewrite (mask_small u0) by (clear - Hu0; lia). rewrite (mask_small u1) by (clear - Hu1; lia).
  unfold u32_add. rewrite (chk_u_ok 32 (c9 + u0)) by (clear - Hu0 Bc9; lia). rewrite (chk_u_ok 32 (c1 + u1)) by (clear - Hu1 Bc1; lia). cbn [bind].
  apply okp_ret. split; [clear - Bc0 Bc1 Bc2 Bc3 Bc4 Bc5 Bc6 Bc7 Bc8 Bc9 Bc10 Bc11 Bc12 Bc13 Bc14 Bc15 Hu0 Hu1 Hd0 Hd8; split; [reflexivity|]; repeat constructor; lia|].
  pose proof (telescope_identity (2 ^ 28) c0 c1 c2 c3 c4 c5 c6 c7 c8 c9 c10 c11 c12 c13 c14 c15
    k0 k1 k2 k3 k4 k5 k6 k7 l0 l1 l2 l3 l4 l5 l6 l7
    (a8 * b8 + a0 * b0 + a1 * b15 + a9 * b7 + a9 * b15 + a2 * b14 + a10 * b6 + a10 * b14 + a3 * b13 + a11 * b5 + a11 * b13 + a4 * b12 + a12 * b4 + a12 * b12 + a5 * b11 + a13 * b3 + a13 * b11 + a6 * b10 + a14 * b2 + a14 * b10 + a7 * b9 + a15 * b1 + a15 * b9)
    (a0 * b8 + a8 * b0 + a8 * b8 + a9 * b15 + a1 * b7 + a1 * b15 + a9 * b7 + a9 * b15 + a10 * b14 + a2 * b6 + a2 * b14 + a10 * b6 + a10 * b14 + a11 * b13 + a3 * b5 + a3 * b13 + a11 * b5 + a11 * b13 + a12 * b12 + a4 * b4 + a4 * b12 + a12 * b4 + a12 * b12 + a13 * b11 + a5 * b3 + a5 * b11 + a13 * b3 + a13 * b11 + a14 * b10 + a6 * b2 + a6 * b10 + a14 * b2 + a14 * b10 + a15 * b9 + a7 * b1 + a7 * b9 + a15 * b1 + a15 * b9) (a8 * b9 + a0 * b1 + a9 * b8 + a1 * b0 + a2 * b15 + a10 * b7 + a10 * b15 + a3 * b14 + a11 * b6 + a11 * b14 + a4 * b13 + a12 * b5 + a12 * b13 + a5 * b12 + a13 * b4 + a13 * b12 + a6 * b11 + a14 * b3 + a14 * b11 + a7 * b10 + a15 * b2 + a15 * b10)
    (a0 * b9 + a8 * b1 + a8 * b9 + a1 * b8 + a9 * b0 + a9 * b8 + a10 * b15 + a2 * b7 + a2 * b15 + a10 * b7 + a10 * b15 + a11 * b14 + a3 * b6 + a3 * b14 + a11 * b6 + a11 * b14 + a12 * b13 + a4 * b5 + a4 * b13 + a12 * b5 + a12 * b13 + a13 * b12 + a5 * b4 + a5 * b12 + a13 * b4 + a13 * b12 + a14 * b11 + a6 * b3 + a6 * b11 + a14 * b3 + a14 * b11 + a15 * b10 + a7 * b2 + a7 * b10 + a15 * b2 + a15 * b10) (a8 * b10 + a0 * b2 + a9 * b9 + a1 * b1 + a10 * b8 + a2 * b0 + a3 * b15 + a11 * b7 + a11 * b15 + a4 * b14 + a12 * b6 + a12 * b14 + a5 * b13 + a13 * b5 + a13 * b13 + a6 * b12 + a14 * b4 + a14 * b12 + a7 * b11 + a15 * b3 + a15 * b11)
    (a0 * b10 + a8 * b2 + a8 * b10 + a1 * b9 + a9 * b1 + a9 * b9 + a2 * b8 + a10 * b0 + a10 * b8 + a11 * b15 + a3 * b7 + a3 * b15 + a11 * b7 + a11 * b15 + a12 * b14 + a4 * b6 + a4 * b14 + a12 * b6 + a12 * b14 + a13 * b13 + a5 * b5 + a5 * b13 + a13 * b5 + a13 * b13 + a14 * b12 + a6 * b4 + a6 * b12 + a14 * b4 + a14 * b12 + a15 * b11 + a7 * b3 + a7 * b11 + a15 * b3 + a15 * b11) (a8 * b11 + a0 * b3 + a9 * b10 + a1 * b2 + a10 * b9 + a2 * b1 + a11 * b8 + a3 * b0 + a4 * b15 + a12 * b7 + a12 * b15 + a5 * b14 + a13 * b6 + a13 * b14 + a6 * b13 + a14 * b5 + a14 * b13 + a7 * b12 + a15 * b4 + a15 * b12)
    (a0 * b11 + a8 * b3 + a8 * b11 + a1 * b10 + a9 * b2 + a9 * b10 + a2 * b9 + a10 * b1 + a10 * b9 + a3 * b8 + a11 * b0 + a11 * b8 + a12 * b15 + a4 * b7 + a4 * b15 + a12 * b7 + a12 * b15 + a13 * b14 + a5 * b6 + a5 * b14 + a13 * b6 + a13 * b14 + a14 * b13 + a6 * b5 + a6 * b13 + a14 * b5 + a14 * b13 + a15 * b12 + a7 * b4 + a7 * b12 + a15 * b4 + a15 * b12) (a8 * b12 + a0 * b4 + a9 * b11 + a1 * b3 + a10 * b10 + a2 * b2 + a11 * b9 + a3 * b1 + a12 * b8 + a4 * b0 + a5 * b15 + a13 * b7 + a13 * b15 + a6 * b14 + a14 * b6 + a14 * b14 + a7 * b13 + a15 * b5 + a15 * b13)
    (a0 * b12 + a8 * b4 + a8 * b12 + a1 * b11 + a9 * b3 + a9 * b11 + a2 * b10 + a10 * b2 + a10 * b10 + a3 * b9 + a11 * b1 + a11 * b9 + a4 * b8 + a12 * b0 + a12 * b8 + a13 * b15 + a5 * b7 + a5 * b15 + a13 * b7 + a13 * b15 + a14 * b14 + a6 * b6 + a6 * b14 + a14 * b6 + a14 * b14 + a15 * b13 + a7 * b5 + a7 * b13 + a15 * b5 + a15 * b13) (a8 * b13 + a0 * b5 + a9 * b12 + a1 * b4 + a10 * b11 + a2 * b3 + a11 * b10 + a3 * b2 + a12 * b9 + a4 * b1 + a13 * b8 + a5 * b0 + a6 * b15 + a14 * b7 + a14 * b15 + a7 * b14 + a15 * b6 + a15 * b14)
    (a0 * b13 + a8 * b5 + a8 * b13 + a1 * b12 + a9 * b4 + a9 * b12 + a2 * b11 + a10 * b3 + a10 * b11 + a3 * b10 + a11 * b2 + a11 * b10 + a4 * b9 + a12 * b1 + a12 * b9 + a5 * b8 + a13 * b0 + a13 * b8 + a14 * b15 + a6 * b7 + a6 * b15 + a14 * b7 + a14 * b15 + a15 * b14 + a7 * b6 + a7 * b14 + a15 * b6 + a15 * b14) (a8 * b14 + a0 * b6 + a9 * b13 + a1 * b5 + a10 * b12 + a2 * b4 + a11 * b11 + a3 * b3 + a12 * b10 + a4 * b2 + a13 * b9 + a5 * b1 + a14 * b8 + a6 * b0 + a7 * b15 + a15 * b7 + a15 * b15)
    (a0 * b14 + a8 * b6 + a8 * b14 + a1 * b13 + a9 * b5 + a9 * b13 + a2 * b12 + a10 * b4 + a10 * b12 + a3 * b11 + a11 * b3 + a11 * b11 + a4 * b10 + a12 * b2 + a12 * b10 + a5 * b9 + a13 * b1 + a13 * b9 + a6 * b8 + a14 * b0 + a14 * b8 + a15 * b15 + a7 * b7 + a7 * b15 + a15 * b7 + a15 * b15) (a8 * b15 + a0 * b7 + a9 * b14 + a1 * b6 + a10 * b13 + a2 * b5 + a11 * b12 + a3 * b4 + a12 * b11 + a4 * b3 + a13 * b10 + a5 * b2 + a14 * b9 + a6 * b1 + a15 * b8 + a7 * b0)
    (a0 * b15 + a8 * b7 + a8 * b15 + a1 * b14 + a9 * b6 + a9 * b14 + a2 * b13 + a10 * b5 + a10 * b13 + a3 * b12 + a11 * b4 + a11 * b12 + a4 * b11 + a12 * b3 + a12 * b11 + a5 * b10 + a13 * b2 + a13 * b10 + a6 * b9 + a14 * b1 + a14 * b9 + a7 * b8 + a15 * b0 + a15 * b8) u0 u1 d0 (c1 + u1) d8 (c9 + u0)) as T.

  specialize_all T.
  exists ((a8 + 2 ^ 28 * (a9 + 2 ^ 28 * (a10 + 2 ^ 28 * (a11 + 2 ^ 28 * (a12 + 2 ^ 28 * (a13 + 2 ^ 28 * (a14 + 2 ^ 28 * a15))))))) * (b8 + 2 ^ 28 * (b9 + 2 ^ 28 * (b10 + 2 ^ 28 * (b11 + 2 ^ 28 * (b12 + 2 ^ 28 * (b13 + 2 ^ 28 * (b14 + 2 ^ 28 * b15))))))) + (((a1 + a9) * (b7 + b15) + (a2 + a10) * (b6 + b14) + (a3 + a11) * (b5 + b13) + (a4 + a12) * (b4 + b12) + (a5 + a13) * (b3 + b11) + (a6 + a14) * (b2 + b10) + (a7 + a15) * (b1 + b9)) + 2 ^ 28 * (((a2 + a10) * (b7 + b15) + (a3 + a11) * (b6 + b14) + (a4 + a12) * (b5 + b13) + (a5 + a13) * (b4 + b12) + (a6 + a14) * (b3 + b11) + (a7 + a15) * (b2 + b10)) + 2 ^ 28 * (((a3 + a11) * (b7 + b15) + (a4 + a12) * (b6 + b14) + (a5 + a13) * (b5 + b13) + (a6 + a14) * (b4 + b12) + (a7 + a15) * (b3 + b11)) + 2 ^ 28 * (((a4 + a12) * (b7 + b15) + (a5 + a13) * (b6 + b14) + (a6 + a14) * (b5 + b13) + (a7 + a15) * (b4 + b12)) + 2 ^ 28 * (((a5 + a13) * (b7 + b15) + (a6 + a14) * (b6 + b14) + (a7 + a15) * (b5 + b13)) + 2 ^ 28 * (((a6 + a14) * (b7 + b15) + (a7 + a15) * (b6 + b14)) + 2 ^ 28 * ((a7 + a15) * (b7 + b15)))))))) - ((a1 * b7 + a2 * b6 + a3 * b5 + a4 * b4 + a5 * b3 + a6 * b2 + a7 * b1) + 2 ^ 28 * ((a2 * b7 + a3 * b6 + a4 * b5 + a5 * b4 + a6 * b3 + a7 * b2) + 2 ^ 28 * ((a3 * b7 + a4 * b6 + a5 * b5 + a6 * b4 + a7 * b3) + 2 ^ 28 * ((a4 * b7 + a5 * b6 + a6 * b5 + a7 * b4) + 2 ^ 28 * ((a5 * b7 + a6 * b6 + a7 * b5) + 2 ^ 28 * ((a6 * b7 + a7 * b6) + 2 ^ 28 * (a7 * b7))))))) + l7).
  unfold val28. cbn [eval]. rewrite p_X.
  pose proof (mul_identity (2 ^ 28) a0 a1 a2 a3 a4 a5 a6 a7 a8 a9 a10 a11 a12 a13 a14 a15 b0 b1 b2 b3 b4 b5 b6 b7 b8 b9 b10 b11 b12 b13 b14 b15) as I.
  close28 T I.
Qed.
