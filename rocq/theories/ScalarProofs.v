(** Correctness of the scalar model: exact values of every loop, no panics. *)
Require Import ZArith List Bool Lia.
From Verif Require Import Base BaseProofs SpecParams ScalarModel.
Import ListNotations.
Open Scope Z_scope.
Open Scope res_scope.

Local Notation B32 := (2 ^ 32).
Lemma B32_val : B32 = 4294967296. Proof. reflexivity. Qed.
Lemma B64_val : 2 ^ 64 = 18446744073709551616. Proof. reflexivity. Qed.
Lemma B63_val : 2 ^ 63 = 9223372036854775808. Proof. reflexivity. Qed.

Definition in32 (x : Z) := 0 <= x < 2 ^ 32.

Lemma MODULUS_val : sval MODULUS = ell. Proof. reflexivity. Qed.
Lemma MODULUS_scalar : is_scalar MODULUS.
Proof. split; [reflexivity|]. repeat constructor; vm_compute; congruence. Qed.
Lemma scalar_zero_ok : is_scalar scalar_zero /\ sval scalar_zero = 0.
Proof. split; [|reflexivity]. split; [reflexivity|]. repeat constructor; vm_compute; congruence. Qed.
Lemma scalar_one_ok : is_scalar scalar_one /\ sval scalar_one = 1.
Proof. split; [|reflexivity]. split; [reflexivity|]. repeat constructor; vm_compute; congruence. Qed.
Lemma R1_ok : is_scalar R1 /\ sval R1 = 2 ^ 448 mod ell.
Proof. split; [|reflexivity]. split; [reflexivity|]. repeat constructor; vm_compute; congruence. Qed.
Lemma R2_ok : is_scalar R2 /\ sval R2 = 2 ^ 896 mod ell.
Proof. split; [|reflexivity]. split; [reflexivity|]. repeat constructor; vm_compute; congruence. Qed.

Lemma ell_pos : 2 < ell. Proof. reflexivity. Qed.
Lemma ell_lt : ell < 2 ^ 446. Proof. reflexivity. Qed.
Lemma ell_lower : 2 ^ 445 < ell. Proof. reflexivity. Qed.
Lemma ell_odd : ell mod 2 = 1. Proof. reflexivity. Qed.

Lemma scalar_range : forall s, is_scalar s -> 0 <= sval s < 2 ^ 448.
Proof. intros s H. exact (array_range 32 14 s ltac:(lia) H). Qed.

Lemma scalar_inj : forall a b, is_scalar a -> is_scalar b -> sval a = sval b -> a = b.
Proof. intros a b Ha Hb E. exact (eval_inj 32 14 a b ltac:(lia) Ha Hb E). Qed.

Lemma digits_scalar : forall v, 0 <= v < 2 ^ 448 -> is_scalar (digits 32 14 v) /\ sval (digits 32 14 v) = v.
Proof.
  intros v Hv. split; [apply digits_array; lia|].
  unfold sval. rewrite eval_digits by lia. apply Z.mod_small. exact Hv.
Qed.

(** Splitting a 64-bit chain into low limb and carry. *)
Lemma split32 : forall c, c = as_u32 c + B32 * shr c 32.
Proof.
  intro c. unfold as_u32, wrap. rewrite shr_div by lia.
  rewrite Z.add_comm. apply Z.div_mod. lia.
Qed.
Lemma as_u32_range : forall c, 0 <= as_u32 c < B32.
Proof. intro c. apply wrap_range. lia. Qed.

(** ** add_loop *)
Lemma add_loop_ok : forall n a b chain, array 32 n a -> array 32 n b -> 0 <= chain <= 1 ->
  exists r out, add_loop a b chain = Ok (r, out) /\ array 32 n r /\ 0 <= out <= 1 /\
    eval 32 r + 2 ^ (32 * Z.of_nat n) * out = eval 32 a + eval 32 b + chain.
Proof.
  induction n; intros a b chain Ha Hb Hc.
  - destruct a; [|destruct Ha; discriminate]. destruct b; [|destruct Hb; discriminate].
    exists [], chain. repeat split; try lia; [constructor|]. cbn [eval Z.of_nat]. rewrite Z.mul_0_r, Z.pow_0_r. lia.
  - destruct a as [|x a]; [destruct Ha; discriminate|]. destruct b as [|y b]; [destruct Hb; discriminate|].
    apply array_cons in Ha. apply array_cons in Hb. destruct Ha as [Hx Ha]. destruct Hb as [Hy Hb].
    rewrite B32_val in *.
    cbn [add_loop]. unfold u64_add.
    rewrite (chk_u_ok 64 (x + y)) by (rewrite B64_val; lia). cbn [bind].
    rewrite (chk_u_ok 64 (chain + (x + y))) by (rewrite B64_val; lia). cbn [bind].
    set (c := chain + (x + y)).
    pose proof (split32 c) as Hs. pose proof (as_u32_range c) as Hr. rewrite B32_val in *.
    destruct (IHn a b (shr c 32) Ha Hb) as (r & out & E & Hr' & Ho & Ev); [unfold c in *; lia|].
    rewrite E. cbn [bind]. exists (as_u32 c :: r), out.
    split; [reflexivity|]. split; [apply array_cons; rewrite B32_val; tauto|]. split; [lia|].
    rewrite pow_len_S by lia. cbn [eval]. rewrite B32_val. unfold c in *. nia.
Qed.

(** ** sub_loop *)
Lemma sub_loop_ok : forall n a b chain, array 32 n a -> array 32 n b -> -1 <= chain <= 0 ->
  exists r out, sub_loop a b chain = Ok (r, out) /\ array 32 n r /\ -1 <= out <= 0 /\
    eval 32 r + 2 ^ (32 * Z.of_nat n) * out = eval 32 a - eval 32 b + chain.
Proof.
  induction n; intros a b chain Ha Hb Hc.
  - destruct a; [|destruct Ha; discriminate]. destruct b; [|destruct Hb; discriminate].
    exists [], chain. repeat split; try lia; [constructor|]. cbn [eval Z.of_nat]. rewrite Z.mul_0_r, Z.pow_0_r. lia.
  - destruct a as [|x a]; [destruct Ha; discriminate|]. destruct b as [|y b]; [destruct Hb; discriminate|].
    apply array_cons in Ha. apply array_cons in Hb. destruct Ha as [Hx Ha]. destruct Hb as [Hy Hb].
    rewrite B32_val in *.
    cbn [sub_loop]. unfold i64_add, i64_sub.
    rewrite (chk_i_ok 64 (x - y)) by (change (64 - 1) with 63; rewrite B63_val; lia). cbn [bind].
    rewrite (chk_i_ok 64 (chain + (x - y))) by (change (64 - 1) with 63; rewrite B63_val; lia). cbn [bind].
    set (c := chain + (x - y)).
    pose proof (split32 c) as Hs. pose proof (as_u32_range c) as Hr. rewrite B32_val in *.
    destruct (IHn a b (shr c 32) Ha Hb) as (r & out & E & Hr' & Ho & Ev); [unfold c in *; lia|].
    rewrite E. cbn [bind]. exists (as_u32 c :: r), out.
    split; [reflexivity|]. split; [apply array_cons; rewrite B32_val; tauto|]. split; [lia|].
    rewrite pow_len_S by lia. cbn [eval]. rewrite B32_val. unfold c in *. nia.
Qed.

(** ** addback_loop *)
Lemma addback_loop_ok : forall n a m borrow chain, array 32 n a -> array 32 n m ->
  (forall y, in32 y -> in32 (Z.land y borrow)) -> 0 <= chain <= 1 ->
  exists r out, addback_loop a m borrow chain = Ok r /\ array 32 n r /\ 0 <= out <= 1 /\
    eval 32 r + 2 ^ (32 * Z.of_nat n) * out = eval 32 a + eval 32 (map (fun y => Z.land y borrow) m) + chain.
Proof.
  induction n; intros a b borrow chain Ha Hb HB Hc.
  - destruct a; [|destruct Ha; discriminate]. destruct b; [|destruct Hb; discriminate].
    exists [], chain. repeat split; try lia; [constructor|]. cbn [map eval Z.of_nat]. rewrite Z.mul_0_r, Z.pow_0_r. lia.
  - destruct a as [|x a]; [destruct Ha; discriminate|]. destruct b as [|y b]; [destruct Hb; discriminate|].
    apply array_cons in Ha. apply array_cons in Hb. destruct Ha as [Hx Ha]. destruct Hb as [Hy Hb].
    pose proof (HB y Hy) as Hy'. unfold in32 in Hy'. rewrite B32_val in *.
    cbn [addback_loop map]. unfold i64_add. set (yy := Z.land y borrow) in *.
    rewrite (chk_i_ok 64 (x + yy)) by (change (64 - 1) with 63; rewrite B63_val; lia). cbn [bind].
    rewrite (chk_i_ok 64 (chain + (x + yy))) by (change (64 - 1) with 63; rewrite B63_val; lia). cbn [bind].
    set (c := chain + (x + yy)).
    pose proof (split32 c) as Hs. pose proof (as_u32_range c) as Hr. rewrite B32_val in *.
    destruct (IHn a b borrow (shr c 32) Ha Hb HB) as (r & out & E & Hr' & Ho & Ev); [unfold c in *; lia|].
    rewrite E. cbn [bind]. exists (as_u32 c :: r), out.
    split; [reflexivity|]. split; [apply array_cons; rewrite B32_val; tauto|]. split; [lia|].
    rewrite pow_len_S by lia. cbn [eval]. rewrite B32_val. unfold c in *. nia.
Qed.

(** The sum of the low bits of the limbs of l: what the add-back adds when [borrow = 1]. *)
Definition mod_low_bits : Z := eval 32 (map (fun y => Z.land y 1) MODULUS).

Definition addback (borrow : Z) : Z := eval 32 (map (fun y => Z.land y borrow) MODULUS).
Lemma addback_m1 : addback (-1) = ell. Proof. reflexivity. Qed.
Lemma addback_0 : addback 0 = 0. Proof. reflexivity. Qed.
Lemma addback_1 : addback 1 = mod_low_bits. Proof. reflexivity. Qed.

Lemma land_borrow_range : forall borrow, borrow = -1 \/ borrow = 0 \/ borrow = 1 ->
  forall y, in32 y -> in32 (Z.land y borrow).
Proof.
  intros borrow HB y Hy. unfold in32 in *. destruct HB as [->|[->| ->]].
  - rewrite Z.land_m1_r. assumption.
  - rewrite Z.land_0_r. lia.
  - change 1 with (2 ^ 1 - 1) at 1 2. rewrite land_mask by lia.
    pose proof (Z.mod_pos_bound y (2 ^ 1)). lia.
Qed.

(** Exact value of [sub_extra] for every input. *)
Lemma sub_extra_ok : forall a b carry, is_scalar a -> is_scalar b -> 0 <= carry <= 1 ->
  exists r, sub_extra a b carry = Ok r /\ is_scalar r /\
    sval r = (sval a - sval b + addback ((sval a - sval b) / 2 ^ 448 + carry)) mod 2 ^ 448.
Proof.
  intros a b carry Ha Hb Hc. unfold sub_extra.
  destruct (sub_loop_ok 14 a b 0 Ha Hb) as (r1 & out & E & Hr & Ho & Ev); [lia|].
  rewrite E. cbn [bind].
  change (32 * Z.of_nat 14) with 448 in Ev. fold (sval a) in Ev. fold (sval b) in Ev. fold (sval r1) in Ev.
  pose proof (scalar_range r1 Hr) as HR.
  assert (Hq : (sval a - sval b) / 2 ^ 448 = out).
  { symmetry. apply Z.div_unique with (sval r1). left. lia. lia. }
  unfold i64_add. rewrite chk_i_ok by (change (64 - 1) with 63; rewrite B63_val; lia). cbn [bind].
  destruct (addback_loop_ok 14 r1 MODULUS (out + carry) 0 Hr MODULUS_scalar) as (r & o2 & E2 & Hr2 & Ho2 & Ev2).
  { apply land_borrow_range. lia. } { lia. }
  rewrite E2. exists r. split; [reflexivity|]. split; [exact Hr2|].
  rewrite Hq. fold (addback (out + carry)) in Ev2. fold (sval r) in Ev2. fold (sval r1) in Ev2.
  change (32 * Z.of_nat 14) with 448 in Ev2.
  apply Z.mod_unique with (o2 + out). left. apply scalar_range; assumption. lia.
Qed.

(** The two useful cases. *)
Lemma sub_extra_small : forall a b carry v, is_scalar a -> is_scalar b -> 0 <= carry <= 1 ->
  v = sval a + 2 ^ 448 * carry - sval b -> 0 <= v < 2 ^ 448 ->
  exists r, sub_extra a b carry = Ok r /\ is_scalar r /\ sval r = v.
Proof.
  intros a b carry v Ha Hb Hc Hv Hr.
  destruct (sub_extra_ok a b carry Ha Hb Hc) as (r & E & Hs & Ev).
  exists r. split; [exact E|]. split; [exact Hs|]. rewrite Ev.
  assert ((sval a - sval b) / 2 ^ 448 = - carry) as ->.
  { symmetry. apply Z.div_unique with v. left. lia. lia. }
  replace (- carry + carry) with 0 by lia. rewrite addback_0.
  symmetry. apply Z.mod_unique with (- carry). left; lia. lia.
Qed.

Lemma sub_extra_neg : forall a b v, is_scalar a -> is_scalar b ->
  v = sval a - sval b + ell -> sval a < sval b -> 0 <= v ->
  exists r, sub_extra a b 0 = Ok r /\ is_scalar r /\ sval r = v.
Proof.
  intros a b v Ha Hb Hv Hlt Hr.
  destruct (sub_extra_ok a b 0 Ha Hb ltac:(lia)) as (r & E & Hs & Ev).
  exists r. split; [exact E|]. split; [exact Hs|]. rewrite Ev.
  pose proof (scalar_range a Ha). pose proof (scalar_range b Hb).
  assert ((sval a - sval b) / 2 ^ 448 = -1) as ->.
  { symmetry. apply Z.div_unique with (sval a - sval b + 2 ^ 448). left. lia. lia. }
  replace (-1 + 0) with (-1) by lia. rewrite addback_m1.
  pose proof ell_lt. assert (2 ^ 446 < 2 ^ 448) by reflexivity.
  symmetry. apply Z.mod_unique with 0. left; lia. lia.
Qed.

(** Reducing a value below 2^448 + l given as limbs plus a carry. *)
Lemma reduce_ok : forall a carry v, is_scalar a -> 0 <= carry <= 1 ->
  v = sval a + 2 ^ 448 * carry -> v < 2 ^ 448 + ell ->
  exists r, sub_extra a MODULUS carry = Ok r /\ is_scalar r /\ sval r = (if v <? ell then v else v - ell).
Proof.
  intros a carry v Ha Hc Hv Hlt. pose proof (scalar_range a Ha). pose proof ell_pos. pose proof ell_lt.
  assert (2 ^ 446 < 2 ^ 448) by reflexivity.
  destruct (Z.ltb_spec v ell).
  - assert (carry = 0) by lia. subst carry.
    apply (sub_extra_neg a MODULUS v Ha MODULUS_scalar); rewrite ?MODULUS_val; lia.
  - apply (sub_extra_small a MODULUS carry (v - ell) Ha MODULUS_scalar Hc); rewrite ?MODULUS_val; lia.
Qed.

Lemma reduce_mod : forall v, 0 <= v < 2 * ell -> (if v <? ell then v else v - ell) = v mod ell.
Proof.
  intros v Hv. pose proof ell_pos. destruct (Z.ltb_spec v ell).
  - symmetry. apply Z.mod_small. lia.
  - apply Z.mod_unique with 1. left; lia. lia.
Qed.

Lemma reduce_cong : forall v, (if v <? ell then v else v - ell) mod ell = v mod ell.
Proof.
  intro v. destruct (Z.ltb_spec v ell); [reflexivity|].
  replace v with ((v - ell) + 1 * ell) at 2 by lia. rewrite Z.mod_add; [reflexivity|]. pose proof ell_pos. lia.
Qed.

(** ** Addition *)
Lemma scalar_add_ok : forall a b, is_scalar a -> is_scalar b -> sval a + sval b < 2 ^ 448 + ell ->
  exists r, scalar_add a b = Ok r /\ is_scalar r /\
    sval r = (if sval a + sval b <? ell then sval a + sval b else sval a + sval b - ell).
Proof.
  intros a b Ha Hb Hlt. unfold scalar_add.
  destruct (add_loop_ok 14 a b 0 Ha Hb) as (r1 & out & E & Hr & Ho & Ev); [lia|].
  rewrite E. cbn [bind]. change (32 * Z.of_nat 14) with 448 in Ev.
  fold (sval a) in Ev. fold (sval b) in Ev. fold (sval r1) in Ev.
  unfold as_u32. rewrite wrap_small by (rewrite B32_val; lia).
  apply (reduce_ok r1 out (sval a + sval b) Hr Ho); lia.
Qed.

Lemma scalar_add_total : forall a b, is_scalar a -> is_scalar b ->
  exists r, scalar_add a b = Ok r /\ is_scalar r.
Proof.
  intros a b Ha Hb. unfold scalar_add.
  destruct (add_loop_ok 14 a b 0 Ha Hb) as (r1 & out & E & Hr & Ho & Ev); [lia|].
  rewrite E. cbn [bind].
  unfold as_u32. rewrite wrap_small by (rewrite B32_val; lia).
  destruct (sub_extra_ok r1 MODULUS out Hr MODULUS_scalar Ho) as (r & E2 & Hs & _).
  exists r. tauto.
Qed.

(** Outside the good domain the carry case [borrow = 1] adds [mod_low_bits]. *)
Lemma scalar_add_overflow : forall a b, is_scalar a -> is_scalar b -> 2 ^ 448 + ell <= sval a + sval b ->
  exists r, scalar_add a b = Ok r /\ is_scalar r /\
    sval r = (sval a + sval b - 2 ^ 448 - ell + mod_low_bits) mod 2 ^ 448.
Proof.
  intros a b Ha Hb Hge. unfold scalar_add.
  destruct (add_loop_ok 14 a b 0 Ha Hb) as (r1 & out & E & Hr & Ho & Ev); [lia|].
  rewrite E. cbn [bind]. change (32 * Z.of_nat 14) with 448 in Ev.
  fold (sval a) in Ev. fold (sval b) in Ev. fold (sval r1) in Ev.
  unfold as_u32. rewrite wrap_small by (rewrite B32_val; lia).
  destruct (sub_extra_ok r1 MODULUS out Hr MODULUS_scalar Ho) as (r & E2 & Hs & Ev2).
  exists r. split; [exact E2|]. split; [exact Hs|]. rewrite Ev2, MODULUS_val.
  pose proof (scalar_range r1 Hr). pose proof ell_pos.
  assert (out = 1) by lia. subst out.
  assert ((sval r1 - ell) / 2 ^ 448 = 0) as -> by (apply Z.div_small; lia).
  change (0 + 1) with 1. rewrite addback_1. f_equal. lia.
Qed.

(** ** Subtraction *)
Lemma scalar_sub_ok : forall a b, is_scalar a -> is_scalar b -> sval b <= sval a + ell ->
  exists r, scalar_sub a b = Ok r /\ is_scalar r /\
    sval r = (if sval b <=? sval a then sval a - sval b else sval a - sval b + ell).
Proof.
  intros a b Ha Hb Hle. unfold scalar_sub. pose proof (scalar_range a Ha). pose proof (scalar_range b Hb).
  destruct (Z.leb_spec (sval b) (sval a)).
  - apply sub_extra_small; lia || assumption.
  - apply sub_extra_neg; lia || assumption.
Qed.

Lemma scalar_sub_total : forall a b, is_scalar a -> is_scalar b ->
  exists r, scalar_sub a b = Ok r /\ is_scalar r.
Proof.
  intros a b Ha Hb. destruct (sub_extra_ok a b 0 Ha Hb ltac:(lia)) as (r & E & Hs & _). exists r. tauto.
Qed.

Lemma scalar_sub_underflow : forall a b, is_scalar a -> is_scalar b -> sval a + ell < sval b ->
  exists r, scalar_sub a b = Ok r /\ is_scalar r /\ sval r = sval a - sval b + ell + 2 ^ 448.
Proof.
  intros a b Ha Hb Hlt. unfold scalar_sub. pose proof (scalar_range a Ha). pose proof (scalar_range b Hb).
  pose proof ell_pos.
  destruct (sub_extra_ok a b 0 Ha Hb ltac:(lia)) as (r & E & Hs & Ev).
  exists r. split; [exact E|]. split; [exact Hs|]. rewrite Ev.
  assert ((sval a - sval b) / 2 ^ 448 = -1) as ->.
  { symmetry. apply Z.div_unique with (sval a - sval b + 2 ^ 448). left; lia. lia. }
  change (-1 + 0) with (-1). rewrite addback_m1.
  symmetry. apply Z.mod_unique with (-1). left; lia. lia.
Qed.

(** ** Montgomery multiplication *)
Lemma mul_add_ok : forall a b c, in32 a -> in32 b -> in32 c -> mul_add a b c = Ok (a * b + c).
Proof.
  intros a b c Ha Hb Hc. unfold in32 in *. rewrite B32_val in *. unfold mul_add, u64_mul, u64_add.
  rewrite chk_u_ok by (rewrite B64_val; nia). cbn [bind].
  rewrite chk_u_ok by (rewrite B64_val; nia). reflexivity.
Qed.

Lemma mac_loop_ok : forall n xi y r chain, in32 xi -> array 32 n y -> array 32 n r -> in32 chain ->
  exists out chain', mac_loop xi y r chain = Ok (out, chain') /\ array 32 n out /\ in32 chain' /\
    eval 32 out + 2 ^ (32 * Z.of_nat n) * chain' = eval 32 r + xi * eval 32 y + chain.
Proof.
  induction n; intros xi a b chain Hxi Ha Hb Hc.
  - destruct a; [|destruct Ha; discriminate]. destruct b; [|destruct Hb; discriminate].
    exists [], chain. repeat split; try (unfold in32 in *; lia); [constructor|]. cbn [eval Z.of_nat]. rewrite Z.mul_0_r, Z.pow_0_r. lia.
  - destruct a as [|x a]; [destruct Ha; discriminate|]. destruct b as [|y b]; [destruct Hb; discriminate|].
    apply array_cons in Ha. apply array_cons in Hb. destruct Ha as [Hx Ha]. destruct Hb as [Hy Hb].
    cbn [mac_loop]. rewrite mul_add_ok by assumption. cbn [bind].
    unfold in32 in *. rewrite B32_val in *. unfold u64_add.
    rewrite chk_u_ok by (rewrite B64_val; nia). cbn [bind].
    set (c := chain + (xi * x + y)).
    pose proof (split32 c) as Hs. pose proof (as_u32_range c) as Hr. rewrite B32_val in *.
    destruct (IHn xi a b (shr c 32)) as (r & out & E & Hr' & Ho & Ev);
      [rewrite ?B32_val; assumption | assumption | assumption | rewrite ?B32_val; unfold c in *; nia | ].
    try rewrite B32_val in *.
    rewrite E. cbn [bind]. exists (as_u32 c :: r), out.
    split; [reflexivity|]. split; [apply array_cons; rewrite B32_val; tauto|]. split; [lia|].
    rewrite pow_len_S by lia. cbn [eval]. rewrite B32_val. unfold c in *. nia.
Qed.

(** The Montgomery factor is -1/l modulo 2^32, so the low limb cancels. *)
Lemma mont_factor_cancels : forall h, in32 h -> (h + wrap 32 (h * 0xae918bc5) * 0xab5844f3) mod 2 ^ 32 = 0.
Proof.
  intros h Hh. unfold wrap.
  rewrite <- Z.add_mod_idemp_r by lia. rewrite Z.mul_mod_idemp_l by lia. rewrite Z.add_mod_idemp_r by lia.
  replace (h + h * 0xae918bc5 * 0xab5844f3) with (h * (1 + 0xae918bc5 * 0xab5844f3)) by ring.
  rewrite Z.mul_mod by lia. replace ((1 + 0xae918bc5 * 0xab5844f3) mod 2 ^ 32) with 0 by reflexivity.
  rewrite Z.mul_0_r. reflexivity.
Qed.

Definition stval (st : list Z * Z) : Z := eval 32 (fst st) + 2 ^ 448 * snd st.
Definition stok (st : list Z * Z) : Prop := array 32 14 (fst st) /\ 0 <= snd st <= 1.

Lemma eval_tl : forall l, l <> [] -> eval 32 l = hd 0 l + 2 ^ 32 * eval 32 (tl l).
Proof. intros [|x l] H; [congruence|reflexivity]. Qed.

Lemma mont_step_ok : forall xi y st, in32 xi -> is_scalar y -> stok st -> stval st < sval y + ell ->
  exists st' m, mont_step xi y st = Ok st' /\ stok st' /\ in32 m /\ stval st' < sval y + ell /\
    2 ^ 32 * stval st' = stval st + xi * sval y + m * ell.
Proof.
  intros xi y [r carry] Hxi Hy [Hr Hc] Hlt. cbn [fst snd] in *. unfold stval in Hlt; cbn [fst snd] in Hlt.
  unfold mont_step.
  destruct (mac_loop_ok 14 xi y r 0 Hxi Hy Hr) as (r1 & c1 & E1 & Hr1 & Hc1 & Ev1); [unfold in32; lia|].
  rewrite E1. cbn [bind].
  set (m := wrap 32 (hd 0 r1 * 2928774085)).
  assert (Hm : in32 m) by (unfold in32, m; apply wrap_range; lia).
  destruct (mac_loop_ok 14 m MODULUS r1 0 Hm MODULUS_scalar Hr1) as (r2 & c2 & E2 & Hr2 & Hc2 & Ev2); [unfold in32; lia|].
  rewrite E2. cbn [bind].
  change (32 * Z.of_nat 14) with 448 in *. fold (sval y) in *. fold (sval MODULUS) in Ev2. rewrite MODULUS_val in Ev2.
  unfold in32 in *. rewrite B32_val in *.
  unfold as_u32. rewrite (wrap_small 32 c1) by (rewrite B32_val; lia).
  unfold u64_add. rewrite chk_u_ok by (rewrite B64_val; lia). cbn [bind].
  rewrite chk_u_ok by (rewrite B64_val; lia). cbn [bind].
  set (ch := c2 + (c1 + carry)).
  (* the low limb of r2 vanishes *)
  assert (Hr2n : r2 <> []) by (destruct Hr2; destruct r2; [discriminate|congruence]).
  assert (Hr1n : r1 <> []) by (destruct Hr1; destruct r1; [discriminate|congruence]).
  assert (Hh1 : 0 <= hd 0 r1 < 4294967296).
  { destruct Hr1 as [HL HF]. destruct r1; [congruence|]. inversion HF; subst. cbn [hd]. rewrite B32_val in *. lia. }
  assert (Hh2 : 0 <= hd 0 r2 < 4294967296).
  { destruct Hr2 as [HL HF]. destruct r2; [congruence|]. inversion HF; subst. cbn [hd]. rewrite B32_val in *. lia. }
  pose proof (eval_tl r1 Hr1n) as T1. pose proof (eval_tl r2 Hr2n) as T2. rewrite B32_val in T1, T2.
  assert (Hz : hd 0 r2 = 0).
  { assert (K : hd 0 r2 mod 4294967296 = 0).
    { pose proof (mont_factor_cancels (hd 0 r1)) as F. unfold in32 in F. rewrite B32_val in F. specialize (F Hh1).
      fold m in F. etransitivity; [|exact F].
      assert (X : hd 0 r2 = (hd 0 r1 + m * 2874688755) +
         (eval 32 (tl r1) + m * (ell / 4294967296) - eval 32 (tl r2) - 2 ^ 416 * c2) * 4294967296).
      { assert (Y : ell = 2874688755 + 4294967296 * (ell / 4294967296)) by reflexivity.
        assert (Y2 : 2 ^ 448 = 4294967296 * 2 ^ 416) by reflexivity.
        rewrite Y2 in Ev2. rewrite Y in Ev2. rewrite T1, T2 in Ev2.
        set (q := ell / 4294967296) in *. clearbody q. set (w := 2 ^ 416) in *. clearbody w. nia. }
      rewrite X. rewrite Z.mod_add by lia. reflexivity. }
    rewrite Z.mod_small in K; assumption. }
  pose proof (split32 ch) as Hs. pose proof (as_u32_range ch) as Hru. rewrite B32_val in *. unfold as_u32 in Hs, Hru.
  assert (Hsh : 0 <= shr ch 32 <= 2) by (unfold ch in *; lia).
  rewrite (wrap_small 32 (shr ch 32)) by (rewrite B32_val; lia).
  set (st' := (tl r2 ++ [wrap 32 ch], shr ch 32)).
  assert (Hlt2 : length (tl r2) = 13%nat) by (destruct Hr2 as [HL _]; destruct r2; [congruence|cbn in *; lia]).
  assert (EV : stval st' = eval 32 (tl r2) + 2 ^ 416 * ch).
  { unfold stval, st'. cbn [fst snd]. rewrite eval_app by lia. rewrite Hlt2.
    change (32 * Z.of_nat 13) with 416. cbn [eval].
    assert (Y2 : 2 ^ 448 = 2 ^ 416 * 4294967296) by reflexivity. rewrite Y2.
    set (w := 2 ^ 416).
    transitivity (eval 32 (tl r2) + w * (wrap 32 ch + 4294967296 * shr ch 32)); [ring | rewrite <- Hs; reflexivity]. }
  assert (KEY : 4294967296 * stval st' = (eval 32 r + 2 ^ 448 * carry) + xi * sval y + m * ell).
  { rewrite EV. assert (Y2 : 2 ^ 448 = 4294967296 * 2 ^ 416) by reflexivity.
    rewrite Y2 in *. rewrite T2 in Ev2. rewrite Hz in Ev2. unfold ch. set (w := 2 ^ 416) in *. clearbody w. nia. }
  exists st', m. split; [reflexivity|].
  assert (Hbound : stval st' < sval y + ell).
  { pose proof ell_pos. pose proof (scalar_range y Hy). nia. }
  split.
  { split.
    - unfold st'. cbn [fst]. replace 14%nat with (13 + 1)%nat by reflexivity. apply array_app.
      + destruct Hr2 as [HL HF]. split; [assumption|]. destruct r2; [congruence|]. inversion HF; assumption.
      + split; [reflexivity|]. constructor; [rewrite B32_val; assumption|constructor].
    - unfold st'. cbn [snd].
      pose proof (scalar_range y Hy). pose proof ell_lt. assert (2 ^ 446 < 2 ^ 448) by reflexivity.
      assert (0 <= eval 32 (tl r2 ++ [wrap 32 ch])).
      { apply eval_range; [lia|]. apply Forall_app. split.
        - destruct Hr2 as [HL HF]. destruct r2; [congruence|]. inversion HF; assumption.
        - constructor; [rewrite B32_val; assumption|constructor]. }
      unfold stval, st' in Hbound. cbn [fst snd] in Hbound. lia. }
  split; [assumption|]. split; [exact Hbound|]. exact KEY.
Qed.

Lemma mont_loop_ok : forall n x y st, array 32 n x -> is_scalar y -> stok st -> stval st < sval y + ell ->
  exists st' k, mont_loop x y st = Ok st' /\ stok st' /\ stval st' < sval y + ell /\
    0 <= k < 2 ^ (32 * Z.of_nat n) /\
    2 ^ (32 * Z.of_nat n) * stval st' = stval st + eval 32 x * sval y + k * ell.
Proof.
  induction n; intros x y st Hx Hy Hst Hlt.
  - destruct x; [|destruct Hx; discriminate]. exists st, 0.
    split; [reflexivity|]. split; [assumption|]. split; [assumption|].
    cbn [Z.of_nat eval]. rewrite Z.mul_0_r, Z.pow_0_r. lia.
  - destruct x as [|xi x]; [destruct Hx; discriminate|]. apply array_cons in Hx. destruct Hx as [Hxi Hx].
    cbn [mont_loop].
    destruct (mont_step_ok xi y st Hxi Hy Hst Hlt) as (st1 & m & E & Hst1 & Hm & Hlt1 & K1).
    rewrite E. cbn [bind].
    destruct (IHn x y st1 Hx Hy Hst1 Hlt1) as (st2 & k & E2 & Hst2 & Hlt2 & Hk & K2).
    rewrite E2. exists st2, (m + 2 ^ 32 * k).
    split; [reflexivity|]. split; [assumption|]. split; [assumption|].
    rewrite pow_len_S by lia. unfold in32 in *. split; [nia|]. cbn [eval].
    set (w := 2 ^ (32 * Z.of_nat n)) in *. clearbody w.
    transitivity (2 ^ 32 * (w * stval st2)); [ring|]. rewrite K2.
    transitivity (2 ^ 32 * stval st1 + 2 ^ 32 * (eval 32 x * sval y) + 2 ^ 32 * k * ell); [ring|]. rewrite K1. ring.
Qed.

(** Main lemma: [montgomery_multiply x y] is x*y/2^448 modulo l, for all scalars; canonical as soon as [y] is. *)
Lemma mont_ok : forall x y, is_scalar x -> is_scalar y ->
  exists r, montgomery_multiply x y = Ok r /\ is_scalar r /\
    (2 ^ 448 * sval r) mod ell = (sval x * sval y) mod ell /\
    (sval y <= ell -> sval r < ell).
Proof.
  intros x y Hx Hy. unfold montgomery_multiply.
  destruct (mont_loop_ok 14 x y (scalar_zero, 0) Hx Hy) as (st & k & E & [Hst Hc] & Hlt & Hk & K).
  { split; [apply scalar_zero_ok | cbn; lia]. }
  { unfold stval. cbn [fst snd]. fold (sval scalar_zero). destruct scalar_zero_ok as [_ ->].
    pose proof (scalar_range y Hy). pose proof ell_pos. lia. }
  rewrite E. cbn [bind]. destruct st as [r carry]. cbn [fst snd] in *.
  unfold stval in *. cbn [fst snd] in *. fold (sval scalar_zero) in K. destruct scalar_zero_ok as [_ Z0]. rewrite Z0 in K.
  change (32 * Z.of_nat 14) with 448 in *. fold (sval x) in K. fold (sval r) in *.
  pose proof (scalar_range y Hy).
  destruct (reduce_ok r carry (sval r + 2 ^ 448 * carry) Hst Hc eq_refl) as (r' & E' & Hr' & Ev); [lia|].
  rewrite E'. exists r'. split; [reflexivity|]. split; [assumption|]. split.
  - rewrite Ev. rewrite Z.mul_mod by (pose proof ell_pos; lia). rewrite reduce_cong.
    rewrite <- Z.mul_mod by (pose proof ell_pos; lia). rewrite K.
    rewrite Z.mod_add by (pose proof ell_pos; lia). reflexivity.
  - intro Hle. rewrite Ev. pose proof ell_pos. destruct (Z.ltb_spec (sval r + 2 ^ 448 * carry) ell); lia.
Qed.

(** 2^448 is invertible modulo l (l odd): explicit inverse by computation. *)
Definition Rinv : Z := Eval vm_compute in
  (let '(u, v) := (0, 0) in (* 2^448 * Rinv = 1 mod l, found as (2^-1)^448 *)
   (fix go (n : nat) (acc : Z) : Z :=
      match n with O => acc | S n' => go n' (if Z.even acc then acc / 2 else (acc + ell) / 2) end) 448%nat 1).
Lemma Rinv_ok : (2 ^ 448 * Rinv) mod ell = 1. Proof. reflexivity. Qed.

Lemma R_cancel : forall a b, (2 ^ 448 * a) mod ell = (2 ^ 448 * b) mod ell -> a mod ell = b mod ell.
Proof.
  intros a b H. pose proof ell_pos.
  assert (X : forall z, z mod ell = (Rinv * ((2 ^ 448 * z) mod ell)) mod ell).
  { intro z. rewrite Z.mul_mod_idemp_r by lia.
    replace (Rinv * (2 ^ 448 * z)) with ((2 ^ 448 * Rinv) * z) by ring.
    rewrite Z.mul_mod by lia. rewrite Rinv_ok. rewrite Z.mul_1_l. symmetry. apply Z.mod_mod. lia. }
  rewrite (X a), (X b), H. reflexivity.
Qed.

Lemma R2_mod : sval R2 mod ell = (2 ^ 448 * 2 ^ 448) mod ell. Proof. reflexivity. Qed.
Lemma R1_mod : sval R1 mod ell = 2 ^ 448 mod ell. Proof. reflexivity. Qed.
Lemma R2_lt : sval R2 < ell. Proof. reflexivity. Qed.
Lemma R1_lt : sval R1 < ell. Proof. reflexivity. Qed.

(** x * R2 / R = x * R *)
Lemma mont_R2 : forall x, is_scalar x ->
  exists r, montgomery_multiply x R2 = Ok r /\ is_scalar r /\ sval r < ell /\ sval r mod ell = (2 ^ 448 * sval x) mod ell.
Proof.
  intros x Hx. destruct (mont_ok x R2 Hx (proj1 R2_ok)) as (r & E & Hr & K & Hc).
  exists r. split; [exact E|]. split; [exact Hr|]. split; [apply Hc; pose proof R2_lt; lia|].
  apply R_cancel. rewrite K. pose proof ell_pos.
  rewrite Z.mul_mod by lia. rewrite R2_mod. rewrite <- Z.mul_mod by lia. f_equal. ring.
Qed.

(** Full multiplication, for all scalars. *)
Lemma scalar_mul_ok : forall a b, is_scalar a -> is_scalar b ->
  exists r, scalar_mul a b = Ok r /\ is_scalar r /\ sval r = (sval a * sval b) mod ell.
Proof.
  intros a b Ha Hb. unfold scalar_mul.
  destruct (mont_ok a b Ha Hb) as (u & E & Hu & K & _). rewrite E. cbn [bind].
  destruct (mont_R2 u Hu) as (r & E2 & Hr & Hlt & K2). rewrite E2.
  exists r. split; [reflexivity|]. split; [exact Hr|].
  rewrite <- K, <- K2. symmetry. apply Z.mod_small. pose proof (scalar_range r Hr). lia.
Qed.
