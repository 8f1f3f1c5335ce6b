(** What the functions of the 32-bit backend return on limbs out of range. *)
Require Import ZArith List Bool Lia.
From Verif Require Import Base BaseProofs SpecParams FieldU32Model Wp FieldU32Mul FieldU32Proofs WidthSpec RoomSpec RoomMul RoomSquare RoomOne.
Import ListNotations.
Open Scope Z_scope.

Lemma right_of : forall r v (P : fe28 -> Prop), okp r (fun c => P c /\ exists q, val28 c + q * p = v) -> right r v.
Proof. intros r v P (c & -> & _ & q & E). exists c. split; [reflexivity|]. rewrite <- E. symmetry. apply Z.mod_add. discriminate. Qed.

(** ** Carries *)
Lemma div28w : forall x, 0 <= x < 2 ^ 32 -> exists r q, x = r + 2 ^ 28 * q /\ 0 <= r < 2 ^ 28 /\ 0 <= q < 16 /\
  Z.land x mask28 = r /\ shr x 28 = q /\ x / 2 ^ 28 = q.
Proof.
  intros x Hx. exists (x mod 2 ^ 28), (x / 2 ^ 28).
  pose proof (Z.div_mod x (2 ^ 28) ltac:(lia)). pose proof (Z.mod_pos_bound x (2 ^ 28) ltac:(lia)).
  split; [lia|]. split; [lia|]. split; [lia|]. split; [apply land_mask; lia|]. split; [apply shr_div; lia|reflexivity].
Qed.
Lemma chk_u_panic : forall w x, 2 ^ w <= x -> chk_u w x = Panic.
Proof. intros w x H. unfold chk_u. replace (x <? 2 ^ w) with false by (symmetry; apply Z.ltb_ge; exact H). rewrite andb_false_r. reflexivity. Qed.
Lemma chk32w : forall r q, 0 <= r < 2 ^ 28 -> 0 <= q < 16 -> u32_add r q = Ok (r + q).
Proof. intros. unfold u32_add. apply chk_u_ok. lia. Qed.

Lemma weak_exact : forall a, words16 a ->
  if nth 8 a 0 + nth 15 a 0 / 2 ^ 28 <? 2 ^ 32
  then okp (weak_reduce28 a) (fun r => lim (2 ^ 28 + 16) r /\ val28 r + (nth 15 a 0 / 2 ^ 28) * p = val28 a)
  else weak_reduce28 a = Panic.
Proof.
  intros a [HL HF]. destruct (list16_inv a HL) as (a0&a1&a2&a3&a4&a5&a6&a7&a8&a9&a10&a11&a12&a13&a14&a15&->).
  destruct_limbs HF. cbn [nth]. unfold weak_reduce28.
  destruct (div28w a15) as (r15 & q15 & E15 & R15 & Q15 & -> & -> & ->); [assumption|]. cbv zeta.
  destruct (a8 + q15 <? 2 ^ 32) eqn:C.
  2:{ apply Z.ltb_ge in C. unfold u32_add at 1. rewrite chk_u_panic by lia. reflexivity. }
  apply Z.ltb_lt in C. unfold u32_add at 1. rewrite chk_u_ok by lia. cbn [bind].
  destruct (div28w (a8 + q15)) as (r8 & q8 & E8 & R8 & Q8 & -> & -> & _); [lia|].
  destruct (div28w a0) as (r0 & q0 & E0 & R0 & Q0 & -> & -> & _); [assumption|].
  destruct (div28w a1) as (r1 & q1 & E1 & R1 & Q1 & -> & -> & _); [assumption|].
  destruct (div28w a2) as (r2 & q2 & E2 & R2 & Q2 & -> & -> & _); [assumption|].
  destruct (div28w a3) as (r3 & q3 & E3 & R3 & Q3 & -> & -> & _); [assumption|].
  destruct (div28w a4) as (r4 & q4 & E4 & R4 & Q4 & -> & -> & _); [assumption|].
  destruct (div28w a5) as (r5 & q5 & E5 & R5 & Q5 & -> & -> & _); [assumption|].
  destruct (div28w a6) as (r6 & q6 & E6 & R6 & Q6 & -> & -> & _); [assumption|].
  destruct (div28w a7) as (r7 & q7 & E7 & R7 & Q7 & -> & -> & _); [assumption|].
  destruct (div28w a9) as (r9 & q9 & E9 & R9 & Q9 & -> & -> & _); [assumption|].
  destruct (div28w a10) as (r10 & q10 & E10 & R10 & Q10 & -> & -> & _); [assumption|].
  destruct (div28w a11) as (r11 & q11 & E11 & R11 & Q11 & -> & -> & _); [assumption|].
  destruct (div28w a12) as (r12 & q12 & E12 & R12 & Q12 & -> & -> & _); [assumption|].
  destruct (div28w a13) as (r13 & q13 & E13 & R13 & Q13 & -> & -> & _); [assumption|].
  destruct (div28w a14) as (r14 & q14 & E14 & R14 & Q14 & -> & -> & _); [assumption|].
  rewrite !chk32w by assumption. cbn [bind]. apply okp_ret. split.
  - split; [reflexivity|]. clear - R0 R1 R2 R3 R4 R5 R6 R7 R8 R9 R10 R11 R12 R13 R14 R15 Q0 Q1 Q2 Q3 Q4 Q5 Q6 Q7 Q8 Q9 Q10 Q11 Q12 Q13 Q14 Q15. repeat constructor; lia.
  - assert (E8' : a8 = r8 + 2 ^ 28 * q8 - q15) by (clear - E8; lia).
    unfold val28. cbn [eval]. rewrite E0, E1, E2, E3, E4, E5, E6, E7, E8', E9, E10, E11, E12, E13, E14, E15.
    rewrite p_X. ring.
Qed.

(** Strong reduction and bytes. *)
Lemma lim_range : forall a, lim (2 ^ 28 + 16) a -> 0 <= val28 a < 2 * p.
Proof.
  intros a [HL HF]. destruct (list16_inv a HL) as (a0&a1&a2&a3&a4&a5&a6&a7&a8&a9&a10&a11&a12&a13&a14&a15&->).
  destruct_limbs HF. unfold val28. cbn [eval]. unfold p. lia.
Qed.
Lemma strong_exact : forall a, words16 a -> nth 8 a 0 + nth 15 a 0 / 2 ^ 28 < 2 ^ 32 ->
  okp (strong_reduce28 a) (fun r => array 28 16 r /\ eval 28 r = val28 a mod p).
Proof.
  intros a Ha Hc. unfold strong_reduce28. pose proof (weak_exact a Ha) as W. rewrite (proj2 (Z.ltb_lt _ _) Hc) in W. eapply okp_bind; [exact W|].
  intros b (Lb & Eq). pose proof (lim_range b Lb) as R. clear W. destruct Lb as [Lb Fb].
  eapply okp_bind.
  { apply (borrow_chain_ok 16 b p_limbs 0); [exact Lb|reflexivity| |exact p_limbs_ok|lia].
    eapply Forall_impl; [|exact Fb]. cbn. lia. }
  intros [c s] (Ac & Hs & Ec). rewrite p_limbs_val in Ec. fold (val28 b) in Ec.
  pose proof (array_range 28 16 c ltac:(lia) Ac) as Rc. change (28 * Z.of_nat 16) with 448 in *.
  assert (P1 : 2 ^ 447 < p < 2 ^ 448) by (split; reflexivity).
  assert (VM : val28 a mod p = val28 b mod p).
  { rewrite <- Eq. apply Z.mod_add. lia. }
  cbv zeta. rewrite as_u32_mask.
  assert (C : s = 0 /\ p <= val28 b \/ s = -1 /\ val28 b < p) by lia.
  destruct C as [[-> L]|[-> L]].
  - change (0 mod 2 ^ 28) with 0. change (Z.land 0 18446744073709551614) with 0.
    eapply okp_bind.
    { apply (carry_chain_ok 16 c); [apply Ac|reflexivity|apply Ac|repeat constructor; lia|lia]. }
    intros [d t] (Ad & Ht & Ed). change (28 * Z.of_nat 16) with 448 in *.
    pose proof (array_range 28 16 d ltac:(lia) Ad) as Rd. change (28 * Z.of_nat 16) with 448 in *.
    match type of Ed with _ = _ + eval 28 ?l + _ => change (eval 28 l) with 0 in Ed end.
    assert (t = 0) by lia. subst t. cbn [negb Z.ltb Z.compare]. change (i64_add 0 0) with (Ok 0). cbn [bind negb Z.eqb].
    apply okp_ret. split; [exact Ad|]. rewrite VM. apply Z.mod_unique with 1; [left; lia|lia].
  - change (-1 mod 2 ^ 28) with 268435455. change (Z.land 268435455 18446744073709551614) with 268435454.
    eapply okp_bind.
    { apply (carry_chain_ok 16 c p_limbs 0); [apply Ac|reflexivity|apply Ac|exact p_limbs_ok|lia]. }
    intros [d t] (Ad & Ht & Ed). change (28 * Z.of_nat 16) with 448 in *. rewrite p_limbs_val in Ed.
    pose proof (array_range 28 16 d ltac:(lia) Ad) as Rd. change (28 * Z.of_nat 16) with 448 in *.
    assert (t = 1) by lia. subst t. cbn [negb Z.ltb Z.compare]. change (i64_add 1 (-1)) with (Ok 0). cbn [bind negb Z.eqb].
    apply okp_ret. split; [exact Ad|]. rewrite VM. symmetry. rewrite Z.mod_small by lia. lia.
Qed.
Lemma bytes_exact : forall a, words16 a ->
  to_bytes28 a = if nth 8 a 0 + nth 15 a 0 / 2 ^ 28 <? 2 ^ 32 then Ok (le_bytes 56 (val28 a mod p)) else Panic.
Proof.
  intros a Ha. pose proof (weak_exact a Ha) as W. destruct (_ <? _) eqn:C.
  - apply Z.ltb_lt in C. destruct (strong_exact a Ha C) as (r & Er & Ar & Vr). unfold to_bytes28. rewrite Er. cbn [bind].
    destruct (to_bytes_loop_ok 8 r Ar) as (b & -> & Ab & Eb). f_equal. rewrite <- (array_digits_eval 8 56 b) by (lia || exact Ab). unfold le_bytes. f_equal. rewrite Eb. exact Vr.
  - unfold to_bytes28, strong_reduce28. rewrite W. reflexivity.
Qed.

(** ** Uniform bounds *)
Lemma room_words : forall L a, L < 2 ^ 32 -> room L a -> words16 a.
Proof. intros L a H [E F]. split; [exact E|]. eapply Forall_impl; [|exact F]. cbn. intros. lia. Qed.
Lemma room_repeat : forall L x, 0 <= x <= L -> room L (repeat x 16).
Proof. intros. split; [reflexivity|]. apply Forall_forall. intros y Hy. apply repeat_spec in Hy. subst. assumption. Qed.
Lemma room_nth : forall L a i, 0 <= L -> room L a -> 0 <= nth i a 0 <= L.
Proof. intros L a i HL [_ F]. destruct (nth_in_or_default i a 0) as [H| ->]; [exact (proj1 (Forall_forall _ _) F _ H)|lia]. Qed.
Lemma room_weaken : forall L L' a, L <= L' -> room L a -> room L' a.
Proof. intros L L' a H [E F]. split; [exact E|]. eapply Forall_impl; [|exact F]. cbn. intros. lia. Qed.
Lemma words_room : forall a, words16 a <-> room (2 ^ 32 - 1) a.
Proof. intro a. split; intros [E F]; (split; [exact E|]); (eapply Forall_impl; [|exact F]); cbn; intros; lia. Qed.

Lemma weak_right : forall a, words16 a -> nth 8 a 0 + nth 15 a 0 / 2 ^ 28 < 2 ^ 32 -> right (weak_reduce28 a) (val28 a).
Proof.
  intros a Ha C. pose proof (weak_exact a Ha) as W. rewrite (proj2 (Z.ltb_lt _ _) C) in W. eapply right_of.
  eapply okp_weaken; [exact W|]. intros r [R E]. split; [exact R|]. eexists. exact E.
Qed.
Lemma carry_room : forall L a, 0 <= L <= 2 ^ 32 - 16 -> room L a -> nth 8 a 0 + nth 15 a 0 / 2 ^ 28 < 2 ^ 32.
Proof.
  intros L a HL R. pose proof (room_nth L a 8 ltac:(lia) R) as H8. pose proof (room_nth L a 15 ltac:(lia) R) as H15.
  pose proof (Z.div_lt_upper_bound (nth 15 a 0) (2 ^ 28) 16 ltac:(lia) ltac:(lia)). lia.
Qed.

(** Addition. *)
Lemma add_exact : forall n L a b, 0 <= L -> length a = n -> length b = n -> Forall (fun x => 0 <= x <= L) a -> Forall (fun x => 0 <= x <= L) b -> 2 * L < 2 ^ 32 ->
  okp (add_limbs a b) (fun r => length r = n /\ Forall (fun x => 0 <= x <= 2 * L) r /\ val28 r = val28 a + val28 b).
Proof.
  induction n; intros L a b HL La Lb Fa Fb HB.
  - destruct a; [|discriminate]. destruct b; [|discriminate]. apply okp_ret. split; [reflexivity|]. split; [constructor|reflexivity].
  - destruct a as [|x a]; [discriminate|]. destruct b as [|y b]; [discriminate|]. cbn [add_limbs].
    inversion Fa; subst. inversion Fb; subst. unfold u32_add. rewrite chk_u_ok by lia. cbn [bind].
    eapply okp_bind; [apply (IHn L); cbn in *; try lia; assumption|]. intros r (E & F' & V). apply okp_ret.
    split; [cbn; congruence|]. split; [constructor; [lia|exact F']|]. unfold val28 in *. cbn [eval]. rewrite V. ring.
Qed.
Lemma add_room : forall L, 0 <= L < 2 ^ 32 ->
  ((forall a b, room L a -> room L b -> right (add28 a b) (val28 a + val28 b)) <-> L <= 2 ^ 31 - 8).
Proof.
  intros L HL. split.
  - intro H. destruct (Z_le_gt_dec L (2 ^ 31 - 8)) as [D|D]; [exact D|].
    destruct (H (repeat (2 ^ 31 - 7) 16) (repeat (2 ^ 31 - 7) 16)) as (c & E & _); [apply room_repeat; lia..|]. vm_compute in E. discriminate E.
  - intros D a b [La Fa] [Lb Fb]. unfold add28. destruct (add_exact 16 L a b (proj1 HL) La Lb Fa Fb ltac:(lia)) as (r & -> & Lr & Fr & <-). cbn [bind].
    apply weak_right.
    + apply (room_words (2 * L)); [lia|]. split; assumption.
    + apply (carry_room (2 * L)); [lia|]. split; assumption.
Qed.

(** Subtraction. *)
Lemma bias_exact : forall L a, 0 <= L <= 2 ^ 32 - 2 ^ 29 - 12 -> room L a ->
  okp (bias28 a 2) (fun r => length r = 16%nat /\ Forall (fun x => 2 ^ 29 - 4 <= x <= L + 2 ^ 29 - 2) r /\ nth 8 r 0 <= L + 2 ^ 29 - 4 /\ val28 r = val28 a + 2 * p).
Proof.
  intros L a HL [La Fa]. destruct (list16_inv a La) as (a0&a1&a2&a3&a4&a5&a6&a7&a8&a9&a10&a11&a12&a13&a14&a15&->).
  destruct_limbs Fa. unfold bias28. change (u32_mul 2 mask28) with (Ok (2 * (2 ^ 28 - 1))). cbn [bind].
  unfold u32_sub. rewrite chk_u_ok by (clear; lia). cbn [bind]. rewrite !wrap_small by lia. apply okp_ret.
  split; [reflexivity|]. split; [repeat constructor; lia|]. split; [cbn [nth]; lia|]. unfold val28. cbn [eval]. rewrite p_X. ring.
Qed.
Lemma sub_exact : forall n K a b, length a = n -> length b = n -> K < 2 ^ 32 ->
  Forall (fun x => 2 ^ 29 - 4 <= x <= K) a -> Forall (fun x => 0 <= x <= 2 ^ 29 - 4) b ->
  okp (sub_limbs a b) (fun r => length r = n /\ Forall (fun x => 0 <= x <= K) r /\ (forall i, nth i r 0 <= nth i a 0) /\ val28 r = val28 a - val28 b).
Proof.
  induction n; intros K a b La Lb HK Fa Fb.
  - destruct a; [|discriminate]. destruct b; [|discriminate]. apply okp_ret. split; [reflexivity|]. split; [constructor|]. split; [intros [|i]; cbn; lia|reflexivity].
  - destruct a as [|x a]; [discriminate|]. destruct b as [|y b]; [discriminate|]. cbn [sub_limbs].
    inversion Fa; subst. inversion Fb; subst.
    eapply okp_bind; [apply (IHn K); cbn in *; try lia; assumption|]. intros r (E & F' & N & V). apply okp_ret. rewrite wrap_small by lia.
    split; [cbn; congruence|]. split; [constructor; [lia|exact F']|]. split; [intros [|i]; [cbn; lia|exact (N i)]|]. unfold val28 in *. cbn [eval]. rewrite V. ring.
Qed.
Lemma sub_room : forall L L', 0 <= L < 2 ^ 32 -> 0 <= L' < 2 ^ 32 ->
  ((forall a b, room L a -> room L' b -> right (sub28 a b) (val28 a - val28 b)) <-> L <= 2 ^ 32 - 2 ^ 29 - 12 /\ L' <= 2 ^ 29 - 4).
Proof.
  intros L L' HL HL'. split.
  - intro H. split.
    + destruct (Z_le_gt_dec L (2 ^ 32 - 2 ^ 29 - 12)) as [D|D]; [exact D|].
      destruct (H (repeat (2 ^ 32 - 2 ^ 29 - 11) 16) (repeat 0 16)) as (c & E & _); [apply room_repeat; lia..|]. vm_compute in E. discriminate E.
    + destruct (Z_le_gt_dec L' (2 ^ 29 - 4)) as [D|D]; [exact D|].
      destruct (H (repeat 0 16) (repeat 0 8 ++ (2 ^ 29 - 3) :: repeat 0 7)) as (c & E & _); [apply room_repeat; lia| |vm_compute in E; discriminate E].
      split; [reflexivity|]. cbn [repeat app]. repeat constructor; lia.
  - intros [D D'] a b Ra Rb. unfold sub28. destruct (bias_exact L a ltac:(lia) Ra) as (a' & -> & La & Fa & A8 & Va). cbn [bind].
    destruct (room_weaken L' (2 ^ 29 - 4) b D' Rb) as [Lb Fb].
    destruct (sub_exact 16 (L + 2 ^ 29 - 2) a' b La Lb ltac:(lia) Fa Fb) as (r & -> & Lr & Fr & N & V). cbn [bind].
    assert (R : room (L + 2 ^ 29 - 2) r) by (split; assumption).
    assert (C : nth 8 r 0 + nth 15 r 0 / 2 ^ 28 < 2 ^ 32).
    { pose proof (N 8%nat) as N8. pose proof (room_nth (L + 2 ^ 29 - 2) r 15 ltac:(lia) R) as R15. pose proof (Z.div_lt_upper_bound (nth 15 r 0) (2 ^ 28) 16 ltac:(lia) ltac:(lia)). lia. }
    destruct (weak_right r (room_words (L + 2 ^ 29 - 2) r ltac:(lia) R) C) as (c & Ec & Vc). exists c. split; [exact Ec|]. rewrite Vc, V, Va.
    replace (val28 a + 2 * p - val28 b) with (val28 a - val28 b + 2 * p) by ring. apply Z.mod_add. discriminate.
Qed.

(** Squaring. *)
Lemma square_bound : forall L, 0 <= L < 2 ^ 32 -> ((forall a, room L a -> right (square28 a) (val28 a * val28 a)) <-> L <= square_room).
Proof.
  intros L HL. split.
  - intro H. destruct (Z_le_gt_dec L square_room) as [D|D]; [exact D|].
    destruct (H (repeat (square_room + 1) 16)) as (c & E & V); [apply room_repeat; unfold square_room in *; lia|].
    vm_compute in E. injection E as <-. vm_compute in V. discriminate V.
  - intros D a Ra. eapply right_of. exact (room_square a (room_weaken L square_room a D Ra)).
Qed.

(** Multiplication. *)
Lemma mul_right : forall a b, halves_fit a -> halves_fit b -> right (mul28 a b) (val28 a * val28 b).
Proof. intros a b Ha Hb. eapply right_of. exact (room_mul a b Ha Hb). Qed.
Lemma room_halves : forall L a, L <= 2 ^ 31 - 1 -> room L a -> halves_fit a.
Proof.
  intros L a HL R. split; [apply (room_words L); [lia|exact R]|]. destruct R as [La Fa].
  destruct (list16_inv a La) as (a0&a1&a2&a3&a4&a5&a6&a7&a8&a9&a10&a11&a12&a13&a14&a15&->). destruct_limbs Fa.
  cbn [firstn skipn combine]. repeat constructor; cbn [fst snd]; lia.
Qed.
Lemma mul_bound : forall L, 0 <= L < 2 ^ 32 -> ((forall a b, room L a -> room L b -> right (mul28 a b) (val28 a * val28 b)) <-> L <= 2 ^ 31 - 1).
Proof.
  intros L HL. split.
  - intro H. destruct (Z_le_gt_dec L (2 ^ 31 - 1)) as [D|D]; [exact D|].
    destruct (H (repeat (2 ^ 31) 16) (repeat (2 ^ 31) 16)) as (c & E & V); [apply room_repeat; lia..|].
    vm_compute in E. injection E as <-. vm_compute in V. discriminate V.
  - intros D a b Ra Rb. apply mul_right; apply (room_halves L); assumption.
Qed.

(** The error of the product with one, in terms of which sums of halves wrap (w) and which last carries are negative (v). *)
Definition wrong_by (w0 w1 w2 w3 w4 w5 w6 w7 v0 v1 : Z) : Z :=
  v1 * 2 ^ 56 + v0 * 2 ^ 280 - 2 ^ 256 * (w0 + 2 ^ 28 * (w1 + 2 ^ 28 * (w2 + 2 ^ 28 * (w3 + 2 ^ 28 * (w4 + 2 ^ 28 * (w5 + 2 ^ 28 * (w6 + 2 ^ 28 * w7))))))).
Lemma wrong_by_0 : forall w0 w1 w2 w3 w4 w5 w6 w7 v0 v1, 0 <= w0 <= 1 -> 0 <= w1 <= 1 -> 0 <= w2 <= 1 -> 0 <= w3 <= 1 -> 0 <= w4 <= 1 -> 0 <= w5 <= 1 -> 0 <= w6 <= 1 -> 0 <= w7 <= 1 ->
  0 <= v0 <= 1 -> 0 <= v1 <= 1 -> wrong_by w0 w1 w2 w3 w4 w5 w6 w7 v0 v1 mod p = 0 -> w0 + w1 + w2 + w3 + w4 + w5 + w6 + w7 = 0.
Proof.
  intros w0 w1 w2 w3 w4 w5 w6 w7 v0 v1 H0 H1 H2 H3 H4 H5 H6 H7 Hv0 Hv1 E. apply Z.mod_divide in E; [|discriminate]. destruct E as [k E].
  unfold wrong_by, p in E.
  set (W7 := w7) in E. set (W6 := w6 + 2 ^ 28 * W7) in E. set (W5 := w5 + 2 ^ 28 * W6) in E. set (W4 := w4 + 2 ^ 28 * W5) in E. set (W3 := w3 + 2 ^ 28 * W4) in E.
  set (W2 := w2 + 2 ^ 28 * W3) in E. set (W1 := w1 + 2 ^ 28 * W2) in E.
  assert (B7 : 0 <= W7 <= 1) by exact H7. assert (B6 : 0 <= W6 < 2 ^ 29) by (unfold W6; lia). assert (B5 : 0 <= W5 < 2 ^ 57) by (unfold W5; lia).
  assert (B4 : 0 <= W4 < 2 ^ 85) by (unfold W4; lia). assert (B3 : 0 <= W3 < 2 ^ 113) by (unfold W3; lia). assert (B2 : 0 <= W2 < 2 ^ 141) by (unfold W2; lia). assert (B1 : 0 <= W1 < 2 ^ 169) by (unfold W1; lia).
  assert (Fin : W1 = 0 -> w1 + w2 + w3 + w4 + w5 + w6 + w7 = 0).
  { intro Z1. assert (w1 = 0 /\ W2 = 0) as [-> Z2] by (unfold W1 in Z1; lia). assert (w2 = 0 /\ W3 = 0) as [-> Z3] by (unfold W2 in Z2; lia). assert (w3 = 0 /\ W4 = 0) as [-> Z4] by (unfold W3 in Z3; lia).
    assert (w4 = 0 /\ W5 = 0) as [-> Z5] by (unfold W4 in Z4; lia). assert (w5 = 0 /\ W6 = 0) as [-> Z6] by (unfold W5 in Z5; lia). assert (w6 = 0 /\ W7 = 0) as [-> Z7] by (unfold W6 in Z6; lia).
    unfold W7 in Z7. lia. }
  clearbody W1. clear B2 B3 B4 B5 B6 B7 W2 W3 W4 W5 W6 W7.
  enough (w0 = 0 /\ W1 = 0) as [-> Z1] by (specialize (Fin Z1); lia). clear Fin H1 H2 H3 H4 H5 H6 H7 w1 w2 w3 w4 w5 w6 w7.
  assert (K : -64 <= k <= 64) by lia. assert (K0 : exists j, k = 2 ^ 56 * j).
  { exists (k * (2 ^ 392 - 2 ^ 168) - v1 - v0 * 2 ^ 224 + 2 ^ 200 * (w0 + 2 ^ 28 * W1)). lia. }
  destruct K0 as [j ->]. assert (j = 0) by lia. subst j. lia.
Qed.
Lemma wrap_bit : forall x y, 0 <= x < 2 ^ 32 -> 0 <= y < 2 ^ 32 -> exists w, 0 <= w <= 1 /\ wrap 32 (x + y) = x + y - 2 ^ 32 * w /\ 0 <= x + y - 2 ^ 32 * w < 2 ^ 32.
Proof.
  intros x y Hx Hy. exists ((x + y) / 2 ^ 32). unfold wrap. pose proof (Z.div_mod (x + y) (2 ^ 32) ltac:(lia)). pose proof (Z.mod_pos_bound (x + y) (2 ^ 32) ltac:(lia)). lia.
Qed.
Lemma mul_one_wrong : forall a, words16 a -> right (mul28 a one28) (val28 a) -> halves_fit a.
Proof.
  intros a [La Fa]. destruct (list16_inv a La) as (a0&a1&a2&a3&a4&a5&a6&a7&a8&a9&a10&a11&a12&a13&a14&a15&->). pose proof Fa as Fa'. destruct_limbs Fa.
  destruct (wrap_bit a0 a8) as (w0 & W0 & E0 & B0); [assumption..|]. destruct (wrap_bit a1 a9) as (w1 & W1 & E1 & B1); [assumption..|].
  destruct (wrap_bit a2 a10) as (w2 & W2 & E2 & B2); [assumption..|]. destruct (wrap_bit a3 a11) as (w3 & W3 & E3 & B3); [assumption..|].
  destruct (wrap_bit a4 a12) as (w4 & W4 & E4 & B4); [assumption..|]. destruct (wrap_bit a5 a13) as (w5 & W5 & E5 & B5); [assumption..|].
  destruct (wrap_bit a6 a14) as (w6 & W6 & E6 & B6); [assumption..|]. destruct (wrap_bit a7 a15) as (w7 & W7 & E7 & B7); [assumption..|].
  destruct (one_steps a0 a1 a2 a3 a4 a5 a6 a7 a8 a9 a10 a11 a12 a13 a14 a15 1 0 0 0 0 0 0 0 0 0 0 0 0 0 0 0 _ _ _ _ _ _ _ _ 1 0 0 0 0 0 0 0
    ltac:(assumption) ltac:(assumption) ltac:(assumption) ltac:(assumption) ltac:(assumption) ltac:(assumption) ltac:(assumption) ltac:(assumption)
    ltac:(assumption) ltac:(assumption) ltac:(assumption) ltac:(assumption) ltac:(assumption) ltac:(assumption) ltac:(assumption) ltac:(assumption)
    E0 B0 E1 B1 E2 B2 E3 B3 E4 B4 E5 B5 E6 B6 E7 B7 eq_refl eq_refl eq_refl eq_refl eq_refl eq_refl eq_refl eq_refl ltac:(repeat split)) as (r & Er & q & v0 & v1 & V0 & V1 & Vr).
  intros (c & Ec & Vc). change [1; 0; 0; 0; 0; 0; 0; 0; 0; 0; 0; 0; 0; 0; 0; 0] with one28 in Er. rewrite Er in Ec. injection Ec as <-.
  assert (Z : wrong_by w0 w1 w2 w3 w4 w5 w6 w7 v0 v1 mod p = 0).
  { match type of Vc with _ mod p = ?v mod p => assert (D : val28 r + q * p - v = wrong_by w0 w1 w2 w3 w4 w5 w6 w7 v0 v1)
      by (rewrite Vr; unfold wrong_by, val28; cbn [eval]; ring); rewrite <- D end.
    rewrite Zminus_mod, Z.mod_add by discriminate. rewrite Vc, Z.sub_diag. reflexivity. }
  pose proof (wrong_by_0 _ _ _ _ _ _ _ _ _ _ W0 W1 W2 W3 W4 W5 W6 W7 V0 V1 Z) as S. split; [split; assumption|].
  clear - S W0 W1 W2 W3 W4 W5 W6 W7 B0 B1 B2 B3 B4 B5 B6 B7. cbn [firstn skipn combine]. repeat constructor; cbn [fst snd]; lia.
Qed.
Lemma mul_exact : forall a, words16 a -> ((forall b, halves_fit b -> right (mul28 a b) (val28 a * val28 b)) <-> halves_fit a).
Proof.
  intros a Wa. split.
  - intro H. apply mul_one_wrong; [exact Wa|]. replace (val28 a) with (val28 a * val28 one28) by (change (val28 one28) with 1; ring).
    apply H. split; [split; [reflexivity|]|]; cbn; repeat constructor; cbn; lia.
  - intros Ha b Hb. exact (mul_right a b Ha Hb).
Qed.

Lemma weak_all : forall a, words16 a ->
  if nth 8 a 0 + nth 15 a 0 / 2 ^ 28 <? 2 ^ 32
  then exists r, weak_reduce28 a = Ok r /\ room (2 ^ 28 + 15) r /\ val28 r + (nth 15 a 0 / 2 ^ 28) * p = val28 a
  else weak_reduce28 a = Panic.
Proof.
  intros a Ha. pose proof (weak_exact a Ha) as W. destruct (_ <? _); [|exact W]. destruct W as (r & E & [L F] & V). exists r. split; [exact E|]. split; [|exact V].
  split; [exact L|]. eapply Forall_impl; [|exact F]. cbn. intros. lia.
Qed.
Lemma halves_case : halves_fit (repeat (2 ^ 32 - 1) 8 ++ repeat 0 8) /\ ~ halves_fit (repeat (2 ^ 32 - 1) 8 ++ repeat 1 8).
Proof.
  split.
  - split; [split; [reflexivity|]|]; cbn [repeat app firstn skipn combine]; repeat constructor; cbn [fst snd]; lia.
  - intros [_ F]. cbn [repeat app firstn skipn combine] in F. inversion F as [|? ? H]. cbn [fst snd] in H. lia.
Qed.
Lemma square_not_mul : exists a c, room (2 ^ 31 - 1) a /\ right (mul28 a a) (val28 a * val28 a) /\ square28 a = Ok c /\ val28 c mod p <> (val28 a * val28 a) mod p.
Proof.
  exists (repeat (square_room + 1) 16). eexists. assert (R : room (2 ^ 31 - 1) (repeat (square_room + 1) 16)) by (apply room_repeat; unfold square_room; lia).
  split; [exact R|]. split; [apply mul_right; exact (room_halves _ _ (Z.le_refl _) R)|]. split; [vm_compute; reflexivity|]. vm_compute. discriminate.
Qed.
