(** The product of an operand with one, for limbs whose sums of halves need not fit into u32. *)
Require Import ZArith List Bool Lia.
From Verif Require Import Base BaseProofs SpecParams FieldU32Model Wp FieldU32Mul FieldU32Proofs WidthSpec RoomSpec RoomMul.
Import ListNotations.
Open Scope Z_scope.

Lemma split_lem : forall z, - (2 ^ 33) <= z <= 2 ^ 33 ->
  exists c k, z = c + 2 ^ 28 * k /\ 0 <= c < 2 ^ 28 /\ -32 <= k <= 32 /\ as_u32 (Z.land z mask28) = c /\ shr z 28 = k.
Proof.
  intros z Hz. exists (z mod 2 ^ 28), (z / 2 ^ 28).
  pose proof (Z.div_mod z (2 ^ 28) ltac:(lia)). pose proof (Z.mod_pos_bound z (2 ^ 28) ltac:(lia)).
  split; [lia|]. split; [lia|]. split; [lia|].
  unfold mask28. rewrite !land_mask by lia. split; [apply wrap_small; lia|apply shr_div; lia].
Qed.
Lemma r0 : forall a, 0 <= a < 2 ^ 32 -> - (2 ^ 33) <= a <= 2 ^ 33. Proof. intros. lia. Qed.
Lemma r1 : forall k a, -32 <= k <= 32 -> 0 <= a < 2 ^ 32 -> - (2 ^ 33) <= k + a <= 2 ^ 33. Proof. intros. lia. Qed.
Lemma r2 : forall s a, 0 <= s < 2 ^ 32 -> 0 <= a < 2 ^ 32 -> - (2 ^ 33) <= s - a <= 2 ^ 33. Proof. intros. lia. Qed.
Lemma r3 : forall k s a, -32 <= k <= 32 -> 0 <= s < 2 ^ 32 -> 0 <= a < 2 ^ 32 -> - (2 ^ 33) <= k + (s - a) <= 2 ^ 33. Proof. intros. lia. Qed.
Ltac split28 z N c k Hc Hk ::=
  let B := fresh "B" in
  assert (B : - (2 ^ 33) <= z <= 2 ^ 33) by (rewrite N; first [apply r0; assumption | apply r1; assumption | apply r2; assumption | apply r3; assumption]);
  let E := fresh "S" in let R1 := fresh in let R2 := fresh in
  destruct (split_lem z B) as (c & k & E & Hc & Hk & R1 & R2);
  rewrite ?R1, ?R2; clear R1 R2; rewrite N in E; clear N.
Lemma bo_small : forall k, -32 <= k <= 32 -> bo (Ok k) k 1.
Proof. intros. split; [reflexivity|lia]. Qed.
Ltac solve_bo ::=
  lazymatch goal with
  | |- bo (m _ _) _ _ => apply bo_m; assumption
  | |- bo (lift2 i128_add _ _) _ _ => eapply bo_add; [solve_bo|solve_bo|vm_compute; reflexivity]
  | |- bo (lift2 i128_sub _ _) _ _ => eapply bo_sub; [solve_bo|solve_bo|vm_compute; reflexivity]
  | |- bo (Ok ?z) _ _ => first [exact bo_var0 | apply bo_small; assumption | apply bo_varc; assumption | eapply bo_var; eassumption]
  end.
Lemma mask_neg : forall u, -2 <= u <= 2 -> exists v, 0 <= v <= 1 /\ as_u32 (Z.land u mask28) = u + 2 ^ 28 * v /\ 0 <= u + 2 ^ 28 * v < 2 ^ 28.
Proof.
  intros u H. unfold mask28. rewrite land_mask by lia. pose proof (Z.div_mod u (2 ^ 28) ltac:(lia)). pose proof (Z.mod_pos_bound u (2 ^ 28) ltac:(lia)).
  exists (- (u / 2 ^ 28)). unfold as_u32. rewrite wrap_small by lia. lia.
Qed.

Lemma one_steps : forall a0 a1 a2 a3 a4 a5 a6 a7 a8 a9 a10 a11 a12 a13 a14 a15 b0 b1 b2 b3 b4 b5 b6 b7 b8 b9 b10 b11 b12 b13 b14 b15 s0 s1 s2 s3 s4 s5 s6 s7 t0 t1 t2 t3 t4 t5 t6 t7,
  0 <= a0 < 2 ^ 32 -> 0 <= a1 < 2 ^ 32 -> 0 <= a2 < 2 ^ 32 -> 0 <= a3 < 2 ^ 32 -> 0 <= a4 < 2 ^ 32 -> 0 <= a5 < 2 ^ 32 -> 0 <= a6 < 2 ^ 32 -> 0 <= a7 < 2 ^ 32 -> 0 <= a8 < 2 ^ 32 -> 0 <= a9 < 2 ^ 32 -> 0 <= a10 < 2 ^ 32 -> 0 <= a11 < 2 ^ 32 -> 0 <= a12 < 2 ^ 32 -> 0 <= a13 < 2 ^ 32 -> 0 <= a14 < 2 ^ 32 -> 0 <= a15 < 2 ^ 32 ->
  wrap 32 (a0 + a8) = s0 -> 0 <= s0 < 2 ^ 32 -> wrap 32 (a1 + a9) = s1 -> 0 <= s1 < 2 ^ 32 -> wrap 32 (a2 + a10) = s2 -> 0 <= s2 < 2 ^ 32 -> wrap 32 (a3 + a11) = s3 -> 0 <= s3 < 2 ^ 32 -> wrap 32 (a4 + a12) = s4 -> 0 <= s4 < 2 ^ 32 -> wrap 32 (a5 + a13) = s5 -> 0 <= s5 < 2 ^ 32 -> wrap 32 (a6 + a14) = s6 -> 0 <= s6 < 2 ^ 32 -> wrap 32 (a7 + a15) = s7 -> 0 <= s7 < 2 ^ 32 ->
  wrap 32 (b0 + b8) = t0 -> wrap 32 (b1 + b9) = t1 -> wrap 32 (b2 + b10) = t2 -> wrap 32 (b3 + b11) = t3 -> wrap 32 (b4 + b12) = t4 -> wrap 32 (b5 + b13) = t5 -> wrap 32 (b6 + b14) = t6 -> wrap 32 (b7 + b15) = t7 ->
  b0 = 1 /\ b1 = 0 /\ b2 = 0 /\ b3 = 0 /\ b4 = 0 /\ b5 = 0 /\ b6 = 0 /\ b7 = 0 /\ b8 = 0 /\ b9 = 0 /\ b10 = 0 /\ b11 = 0 /\ b12 = 0 /\ b13 = 0 /\ b14 = 0 /\ b15 = 0 /\ t0 = 1 /\ t1 = 0 /\ t2 = 0 /\ t3 = 0 /\ t4 = 0 /\ t5 = 0 /\ t6 = 0 /\ t7 = 0 ->
  okp (mul28 [a0; a1; a2; a3; a4; a5; a6; a7; a8; a9; a10; a11; a12; a13; a14; a15] [b0; b1; b2; b3; b4; b5; b6; b7; b8; b9; b10; b11; b12; b13; b14; b15])
    (fun r => exists q v0 v1, 0 <= v0 <= 1 /\ 0 <= v1 <= 1 /\
      val28 r + q * p = (a0 + 2 ^ 28 * (a1 + 2 ^ 28 * (a2 + 2 ^ 28 * (a3 + 2 ^ 28 * (a4 + 2 ^ 28 * (a5 + 2 ^ 28 * (a6 + 2 ^ 28 * a7))))))) + 2 ^ 224 * ((s0 - a0) + 2 ^ 28 * ((s1 - a1) + 2 ^ 28 * ((s2 - a2) + 2 ^ 28 * ((s3 - a3) + 2 ^ 28 * ((s4 - a4) + 2 ^ 28 * ((s5 - a5) + 2 ^ 28 * ((s6 - a6) + 2 ^ 28 * (s7 - a7)))))))) + v1 * 2 ^ 56 + v0 * 2 ^ 280).
Proof.
  intros a0 a1 a2 a3 a4 a5 a6 a7 a8 a9 a10 a11 a12 a13 a14 a15 b0 b1 b2 b3 b4 b5 b6 b7 b8 b9 b10 b11 b12 b13 b14 b15 s0 s1 s2 s3 s4 s5 s6 s7 t0 t1 t2 t3 t4 t5 t6 t7 Ha0 Ha1 Ha2 Ha3 Ha4 Ha5 Ha6 Ha7 Ha8 Ha9 Ha10 Ha11 Ha12 Ha13 Ha14 Ha15 Es0 Hs0 Es1 Hs1 Es2 Hs2 Es3 Hs3 Es4 Hs4 Es5 Hs5 Es6 Hs6 Es7 Hs7 Et0 Et1 Et2 Et3 Et4 Et5 Et6 Et7 Eb.
  unfold mul28. rewrite Es0, Es1, Es2, Es3, Es4, Es5, Es6, Es7, Et0, Et1, Et2, Et3, Et4, Et5, Et6, Et7. clear Es0 Et0 Es1 Et1 Es2 Et2 Es3 Et3 Es4 Et4 Es5 Et5 Es6 Et6 Es7 Et7.
  assert (Hb0 : 0 <= b0 < 2 ^ 32) by (clear - Eb; lia). assert (Hb1 : 0 <= b1 < 2 ^ 32) by (clear - Eb; lia). assert (Hb2 : 0 <= b2 < 2 ^ 32) by (clear - Eb; lia). assert (Hb3 : 0 <= b3 < 2 ^ 32) by (clear - Eb; lia). assert (Hb4 : 0 <= b4 < 2 ^ 32) by (clear - Eb; lia). assert (Hb5 : 0 <= b5 < 2 ^ 32) by (clear - Eb; lia). assert (Hb6 : 0 <= b6 < 2 ^ 32) by (clear - Eb; lia). assert (Hb7 : 0 <= b7 < 2 ^ 32) by (clear - Eb; lia). assert (Hb8 : 0 <= b8 < 2 ^ 32) by (clear - Eb; lia). assert (Hb9 : 0 <= b9 < 2 ^ 32) by (clear - Eb; lia). assert (Hb10 : 0 <= b10 < 2 ^ 32) by (clear - Eb; lia). assert (Hb11 : 0 <= b11 < 2 ^ 32) by (clear - Eb; lia). assert (Hb12 : 0 <= b12 < 2 ^ 32) by (clear - Eb; lia). assert (Hb13 : 0 <= b13 < 2 ^ 32) by (clear - Eb; lia). assert (Hb14 : 0 <= b14 < 2 ^ 32) by (clear - Eb; lia). assert (Hb15 : 0 <= b15 < 2 ^ 32) by (clear - Eb; lia).
  assert (Ht0 : 0 <= t0 < 2 ^ 32) by (clear - Eb; lia). assert (Ht1 : 0 <= t1 < 2 ^ 32) by (clear - Eb; lia). assert (Ht2 : 0 <= t2 < 2 ^ 32) by (clear - Eb; lia). assert (Ht3 : 0 <= t3 < 2 ^ 32) by (clear - Eb; lia). assert (Ht4 : 0 <= t4 < 2 ^ 32) by (clear - Eb; lia). assert (Ht5 : 0 <= t5 < 2 ^ 32) by (clear - Eb; lia). assert (Ht6 : 0 <= t6 < 2 ^ 32) by (clear - Eb; lia). assert (Ht7 : 0 <= t7 < 2 ^ 32) by (clear - Eb; lia).
  cbv zeta.
  step z2_1 Ez2_1.
  step z1_1 Ez1_1.
  step z0_1 Ez0_1.
  step z2_2 Ez2_2.
  step z1_2 Ez1_2.
  step z0_2 Ez0_2.
  assert (Nz0_2 : z0_2 = a0) by (rewrite ?Ez0_2, ?Ez1_2, ?Ez2_2, ?Ez0_1, ?Ez1_1, ?Ez2_1; clear - Eb; destruct Eb as (-> & -> & -> & -> & -> & -> & -> & -> & -> & -> & -> & -> & -> & -> & -> & -> & -> & -> & -> & -> & -> & -> & -> & ->); ring).
  split28 z0_2 Nz0_2 c0 k0 Bc0 Bk0.
  assert (Nz1_2 : z1_2 = (s0 - a0)) by (rewrite ?Ez0_2, ?Ez1_2, ?Ez2_2, ?Ez0_1, ?Ez1_1, ?Ez2_1; clear - Eb; destruct Eb as (-> & -> & -> & -> & -> & -> & -> & -> & -> & -> & -> & -> & -> & -> & -> & -> & -> & -> & -> & -> & -> & -> & -> & ->); ring).
  split28 z1_2 Nz1_2 c8 l0 Bc8 Bl0.
  step z2_3 Ez2_3.
  step z1_3 Ez1_3.
  step z0_3 Ez0_3.
  step z2_4 Ez2_4.
  step z1_4 Ez1_4.
  step z0_4 Ez0_4.
  assert (Nz0_4 : z0_4 = k0 + a1) by (rewrite ?Ez0_4, ?Ez1_4, ?Ez2_4, ?Ez0_3, ?Ez1_3, ?Ez2_3; clear - Eb; destruct Eb as (-> & -> & -> & -> & -> & -> & -> & -> & -> & -> & -> & -> & -> & -> & -> & -> & -> & -> & -> & -> & -> & -> & -> & ->); ring).
  split28 z0_4 Nz0_4 c1 k1 Bc1 Bk1.
  assert (Nz1_4 : z1_4 = l0 + (s1 - a1)) by (rewrite ?Ez0_4, ?Ez1_4, ?Ez2_4, ?Ez0_3, ?Ez1_3, ?Ez2_3; clear - Eb; destruct Eb as (-> & -> & -> & -> & -> & -> & -> & -> & -> & -> & -> & -> & -> & -> & -> & -> & -> & -> & -> & -> & -> & -> & -> & ->); ring).
  split28 z1_4 Nz1_4 c9 l1 Bc9 Bl1.
  step z2_5 Ez2_5.
  step z1_5 Ez1_5.
  step z0_5 Ez0_5.
  step z2_6 Ez2_6.
  step z1_6 Ez1_6.
  step z0_6 Ez0_6.
  assert (Nz0_6 : z0_6 = k1 + a2) by (rewrite ?Ez0_6, ?Ez1_6, ?Ez2_6, ?Ez0_5, ?Ez1_5, ?Ez2_5; clear - Eb; destruct Eb as (-> & -> & -> & -> & -> & -> & -> & -> & -> & -> & -> & -> & -> & -> & -> & -> & -> & -> & -> & -> & -> & -> & -> & ->); ring).
  split28 z0_6 Nz0_6 c2 k2 Bc2 Bk2.
  assert (Nz1_6 : z1_6 = l1 + (s2 - a2)) by (rewrite ?Ez0_6, ?Ez1_6, ?Ez2_6, ?Ez0_5, ?Ez1_5, ?Ez2_5; clear - Eb; destruct Eb as (-> & -> & -> & -> & -> & -> & -> & -> & -> & -> & -> & -> & -> & -> & -> & -> & -> & -> & -> & -> & -> & -> & -> & ->); ring).
  split28 z1_6 Nz1_6 c10 l2 Bc10 Bl2.
  step z2_7 Ez2_7.
  step z1_7 Ez1_7.
  step z0_7 Ez0_7.
  step z2_8 Ez2_8.
  step z0_8 Ez0_8.
  step z1_8 Ez1_8.
  assert (Nz0_8 : z0_8 = k2 + a3) by (rewrite ?Ez1_8, ?Ez0_8, ?Ez2_8, ?Ez0_7, ?Ez1_7, ?Ez2_7; clear - Eb; destruct Eb as (-> & -> & -> & -> & -> & -> & -> & -> & -> & -> & -> & -> & -> & -> & -> & -> & -> & -> & -> & -> & -> & -> & -> & ->); ring).
  split28 z0_8 Nz0_8 c3 k3 Bc3 Bk3.
  assert (Nz1_8 : z1_8 = l2 + (s3 - a3)) by (rewrite ?Ez1_8, ?Ez0_8, ?Ez2_8, ?Ez0_7, ?Ez1_7, ?Ez2_7; clear - Eb; destruct Eb as (-> & -> & -> & -> & -> & -> & -> & -> & -> & -> & -> & -> & -> & -> & -> & -> & -> & -> & -> & -> & -> & -> & -> & ->); ring).
  split28 z1_8 Nz1_8 c11 l3 Bc11 Bl3.
  step z2_9 Ez2_9.
  step z1_9 Ez1_9.
  step z0_9 Ez0_9.
  step z2_10 Ez2_10.
  step z1_10 Ez1_10.
  step z0_10 Ez0_10.
  assert (Nz0_10 : z0_10 = k3 + a4) by (rewrite ?Ez0_10, ?Ez1_10, ?Ez2_10, ?Ez0_9, ?Ez1_9, ?Ez2_9; clear - Eb; destruct Eb as (-> & -> & -> & -> & -> & -> & -> & -> & -> & -> & -> & -> & -> & -> & -> & -> & -> & -> & -> & -> & -> & -> & -> & ->); ring).
  split28 z0_10 Nz0_10 c4 k4 Bc4 Bk4.
  assert (Nz1_10 : z1_10 = l3 + (s4 - a4)) by (rewrite ?Ez0_10, ?Ez1_10, ?Ez2_10, ?Ez0_9, ?Ez1_9, ?Ez2_9; clear - Eb; destruct Eb as (-> & -> & -> & -> & -> & -> & -> & -> & -> & -> & -> & -> & -> & -> & -> & -> & -> & -> & -> & -> & -> & -> & -> & ->); ring).
  split28 z1_10 Nz1_10 c12 l4 Bc12 Bl4.
  step z2_11 Ez2_11.
  step z1_11 Ez1_11.
  step z0_11 Ez0_11.
  step z2_12 Ez2_12.
  step z1_12 Ez1_12.
  step z0_12 Ez0_12.
  assert (Nz0_12 : z0_12 = k4 + a5) by (rewrite ?Ez0_12, ?Ez1_12, ?Ez2_12, ?Ez0_11, ?Ez1_11, ?Ez2_11; clear - Eb; destruct Eb as (-> & -> & -> & -> & -> & -> & -> & -> & -> & -> & -> & -> & -> & -> & -> & -> & -> & -> & -> & -> & -> & -> & -> & ->); ring).
  split28 z0_12 Nz0_12 c5 k5 Bc5 Bk5.
  assert (Nz1_12 : z1_12 = l4 + (s5 - a5)) by (rewrite ?Ez0_12, ?Ez1_12, ?Ez2_12, ?Ez0_11, ?Ez1_11, ?Ez2_11; clear - Eb; destruct Eb as (-> & -> & -> & -> & -> & -> & -> & -> & -> & -> & -> & -> & -> & -> & -> & -> & -> & -> & -> & -> & -> & -> & -> & ->); ring).
  split28 z1_12 Nz1_12 c13 l5 Bc13 Bl5.
  step z2_13 Ez2_13.
  step z1_13 Ez1_13.
  step z0_13 Ez0_13.
  step z2_14 Ez2_14.
  step z1_14 Ez1_14.
  step z0_14 Ez0_14.
  assert (Nz0_14 : z0_14 = k5 + a6) by (rewrite ?Ez0_14, ?Ez1_14, ?Ez2_14, ?Ez0_13, ?Ez1_13, ?Ez2_13; clear - Eb; destruct Eb as (-> & -> & -> & -> & -> & -> & -> & -> & -> & -> & -> & -> & -> & -> & -> & -> & -> & -> & -> & -> & -> & -> & -> & ->); ring).
  split28 z0_14 Nz0_14 c6 k6 Bc6 Bk6.
  assert (Nz1_14 : z1_14 = l5 + (s6 - a6)) by (rewrite ?Ez0_14, ?Ez1_14, ?Ez2_14, ?Ez0_13, ?Ez1_13, ?Ez2_13; clear - Eb; destruct Eb as (-> & -> & -> & -> & -> & -> & -> & -> & -> & -> & -> & -> & -> & -> & -> & -> & -> & -> & -> & -> & -> & -> & -> & ->); ring).
  split28 z1_14 Nz1_14 c14 l6 Bc14 Bl6.
  step z2_15 Ez2_15.
  step z1_15 Ez1_15.
  step z0_15 Ez0_15.
  step z2_16 Ez2_16.
  step z1_16 Ez1_16.
  step z0_16 Ez0_16.
  assert (Nz0_16 : z0_16 = k6 + a7) by (rewrite ?Ez0_16, ?Ez1_16, ?Ez2_16, ?Ez0_15, ?Ez1_15, ?Ez2_15; clear - Eb; destruct Eb as (-> & -> & -> & -> & -> & -> & -> & -> & -> & -> & -> & -> & -> & -> & -> & -> & -> & -> & -> & -> & -> & -> & -> & ->); ring).
  split28 z0_16 Nz0_16 c7 k7 Bc7 Bk7.
  assert (Nz1_16 : z1_16 = l6 + (s7 - a7)) by (rewrite ?Ez0_16, ?Ez1_16, ?Ez2_16, ?Ez0_15, ?Ez1_15, ?Ez2_15; clear - Eb; destruct Eb as (-> & -> & -> & -> & -> & -> & -> & -> & -> & -> & -> & -> & -> & -> & -> & -> & -> & -> & -> & -> & -> & -> & -> & ->); ring).
  split28 z1_16 Nz1_16 c15 l7 Bc15 Bl7.
  step z0f Ez0f. step z1f Ez1f.
  assert (BF0 : -64 <= z0f <= 2 ^ 28 + 64) by (rewrite Ez0f; clear - Bk7 Bl7 Bc8; lia). assert (BF1 : -64 <= z1f <= 2 ^ 28 + 64) by (rewrite Ez1f; clear - Bl7 Bc0; lia).
  destruct (split_lem z0f ltac:(clear - BF0; lia)) as (d8 & u0 & F0 & Hd8 & Hu0 & -> & ->). destruct (split_lem z1f ltac:(clear - BF1; lia)) as (d0 & u1 & F1 & Hd0 & Hu1 & -> & ->).
  destruct (mask_neg u0 ltac:(clear - F0 BF0 Hd8; lia)) as (v0 & V0 & -> & W0). destruct (mask_neg u1 ltac:(clear - F1 BF1 Hd0; lia)) as (v1 & V1 & -> & W1).
  rewrite Ez0f in F0. rewrite Ez1f in F1. clear Ez0f Ez1f.
  unfold u32_add. rewrite (chk_u_ok 32 (c9 + (u0 + 2 ^ 28 * v0))) by (clear - W0 Bc9; lia). rewrite (chk_u_ok 32 (c1 + (u1 + 2 ^ 28 * v1))) by (clear - W1 Bc1; lia). cbn [bind].
  apply okp_ret. exists l7, v0, v1. split; [exact V0|]. split; [exact V1|].
  pose proof (telescope_identity (2 ^ 28) c0 c1 c2 c3 c4 c5 c6 c7 c8 c9 c10 c11 c12 c13 c14 c15
    k0 k1 k2 k3 k4 k5 k6 k7 l0 l1 l2 l3 l4 l5 l6 l7 a0 (s0 - a0) a1 (s1 - a1) a2 (s2 - a2) a3 (s3 - a3) a4 (s4 - a4) a5 (s5 - a5) a6 (s6 - a6) a7 (s7 - a7) u0 u1 d0 (c1 + u1) d8 (c9 + u0)) as TI.
  specialize_all TI. unfold val28. cbn [eval]. rewrite p_X.
  transitivity (((d0 + 2 ^ 28 * ((c1 + u1) + 2 ^ 28 * (c2 + 2 ^ 28 * (c3 + 2 ^ 28 * (c4 + 2 ^ 28 * (c5 + 2 ^ 28 * (c6 + 2 ^ 28 * (c7 + 2 ^ 28 * (d8 + 2 ^ 28 * ((c9 + u0) + 2 ^ 28 * (c10 + 2 ^ 28 * (c11 + 2 ^ 28 * (c12 + 2 ^ 28 * (c13 + 2 ^ 28 * (c14 + 2 ^ 28 * c15))))))))))))))) + ((2 ^ 28) ^ 16 - (2 ^ 28) ^ 8 - 1) * l7) + v1 * 2 ^ 56 + v0 * 2 ^ 280); [ring|]. rewrite TI. ring.
Qed.
