(** Proof that the squaring of the 32-bit backend is exact modulo p and never overflows (generated steps). *)
Require Import ZArith List Bool Lia.
From Verif Require Import Base BaseProofs SpecParams FieldU32Model Wp FieldU32Mul.
Import ListNotations.
Open Scope Z_scope.

Lemma widemul_ok : forall x y, 0 <= x < 2 ^ 28 + 2 ^ 9 -> 0 <= y < 2 ^ 28 + 2 ^ 9 -> widemul x y = Ok (x * y).
Proof. intros. unfold widemul, u64_mul. apply chk_u_ok. nia. Qed.

Definition eq64 (x y : Z) : Prop := x mod 2 ^ 64 = y mod 2 ^ 64.
Lemma eq64_refl : forall x, eq64 x x. Proof. reflexivity. Qed.
Lemma eq64_wrap : forall x y, eq64 x y -> eq64 (wrap 64 x) y.
Proof. unfold eq64, wrap. intros. rewrite Z.mod_mod by lia. assumption. Qed.
Lemma eq64_add : forall x y x' y', eq64 x x' -> eq64 y y' -> eq64 (wadd x y) (x' + y').
Proof. intros. apply eq64_wrap. unfold eq64 in *. rewrite Z.add_mod, H, H0, <- Z.add_mod by lia. reflexivity. Qed.
Lemma eq64_sub : forall x y x' y', eq64 x x' -> eq64 y y' -> eq64 (wsub x y) (x' - y').
Proof. intros. apply eq64_wrap. unfold eq64 in *. rewrite Zminus_mod, H, H0, <- Zminus_mod. reflexivity. Qed.
Lemma eq64_mul : forall x y, eq64 (wmul x y) (x * y).
Proof. intros. apply eq64_wrap. reflexivity. Qed.
Lemma eq64_shl : forall x x', eq64 x x' -> eq64 (shl_u 64 x 1) (x' * 2).
Proof. intros. unfold shl_u. rewrite Z.shiftl_mul_pow2 by lia. apply eq64_wrap. change (2 ^ 1) with 2. unfold eq64 in *.
  rewrite Z.mul_mod, H, <- Z.mul_mod by lia. reflexivity. Qed.
Lemma eq64_eq : forall x y z, eq64 x y -> 0 <= x < 2 ^ 64 -> y = z -> 0 <= z < 2 ^ 64 -> x = z.
Proof. unfold eq64. intros. subst z. rewrite !Z.mod_small in H by lia. exact H. Qed.
Ltac solve_eq64 :=
  lazymatch goal with
  | |- eq64 (wadd _ _) _ => eapply eq64_add; solve_eq64
  | |- eq64 (wsub _ _) _ => eapply eq64_sub; solve_eq64
  | |- eq64 (wmul _ _) _ => eapply eq64_mul
  | |- eq64 (shl_u 64 _ 1) _ => eapply eq64_shl; solve_eq64
  | |- eq64 _ _ => apply eq64_refl
  end.
Lemma wadd_range : forall x y, 0 <= wadd x y < 2 ^ 64. Proof. intros. apply wrap_range. lia. Qed.
Lemma wsub_range : forall x y, 0 <= wsub x y < 2 ^ 64. Proof. intros. apply wrap_range. lia. Qed.
Ltac acc_is nice :=
  match goal with |- context [shr ?W 28] =>
    lazymatch W with
    | nice => fail
    | _ => replace W with nice by
        (symmetry; eapply eq64_eq; [solve_eq64|first [apply wadd_range|apply wsub_range]|ring|
         let H := fresh in assert (H : 0 <= nice <= 2 ^ 62) by (eapply bd_le; [solve_bd|vm_compute; reflexivity]); clear - H; lia])
    end
  end.
Ltac unroll := cbn [for_each range seq Nat.sub Nat.add Nat.div Nat.divmod Nat.eqb negb nth fst snd bind app].
Ltac run := repeat (unroll; rewrite ?widemul_ok by assumption).

Lemma sq_stage0 : forall a0 a1 a2 a3 a4 a5 a6 a7 a8 a9 a10 a11 a12 a13 a14 a15 c,
  0 <= a0 < 2 ^ 28 + 2 ^ 9 -> 0 <= a1 < 2 ^ 28 + 2 ^ 9 -> 0 <= a2 < 2 ^ 28 + 2 ^ 9 -> 0 <= a3 < 2 ^ 28 + 2 ^ 9 -> 0 <= a4 < 2 ^ 28 + 2 ^ 9 -> 0 <= a5 < 2 ^ 28 + 2 ^ 9 -> 0 <= a6 < 2 ^ 28 + 2 ^ 9 -> 0 <= a7 < 2 ^ 28 + 2 ^ 9 -> 0 <= a8 < 2 ^ 28 + 2 ^ 9 -> 0 <= a9 < 2 ^ 28 + 2 ^ 9 -> 0 <= a10 < 2 ^ 28 + 2 ^ 9 -> 0 <= a11 < 2 ^ 28 + 2 ^ 9 -> 0 <= a12 < 2 ^ 28 + 2 ^ 9 -> 0 <= a13 < 2 ^ 28 + 2 ^ 9 -> 0 <= a14 < 2 ^ 28 + 2 ^ 9 -> 0 <= a15 < 2 ^ 28 + 2 ^ 9 ->
  exists c0 l0 c1 l1, (a8 * a8 + a0 * a0 + a1 * a15 + a9 * a7 + a9 * a15 + a2 * a14 + a10 * a6 + a10 * a14 + a3 * a13 + a11 * a5 + a11 * a13 + a4 * a12 + a12 * a4 + a12 * a12 + a5 * a11 + a13 * a3 + a13 * a11 + a6 * a10 + a14 * a2 + a14 * a10 + a7 * a9 + a15 * a1 + a15 * a9) = c0 + 2 ^ 28 * l0 /\ (a0 * a8 + a8 * a0 + a8 * a8 + a9 * a15 + a1 * a7 + a1 * a15 + a9 * a7 + a9 * a15 + a10 * a14 + a2 * a6 + a2 * a14 + a10 * a6 + a10 * a14 + a11 * a13 + a3 * a5 + a3 * a13 + a11 * a5 + a11 * a13 + a12 * a12 + a4 * a4 + a4 * a12 + a12 * a4 + a12 * a12 + a13 * a11 + a5 * a3 + a5 * a11 + a13 * a3 + a13 * a11 + a14 * a10 + a6 * a2 + a6 * a10 + a14 * a2 + a14 * a10 + a15 * a9 + a7 * a1 + a7 * a9 + a15 * a1 + a15 * a9) = c1 + 2 ^ 28 * l1 /\
    0 <= c0 < 2 ^ 28 /\ 0 <= l0 <= 2 ^ 35 /\ 0 <= c1 < 2 ^ 28 /\ 0 <= l1 <= 2 ^ 35 /\
    square_j0 [a0; a1; a2; a3; a4; a5; a6; a7; a8; a9; a10; a11; a12; a13; a14; a15]
    [a0 + a8; a1 + a9; a2 + a10; a3 + a11; a4 + a12; a5 + a13; a6 + a14; a7 + a15] c = Ok (l0, l1, set_nth 8 c1 (set_nth 0 c0 c)).
Proof.
  intros.
  assert (B0 : 0 <= (a8 * a8 + a0 * a0 + a1 * a15 + a9 * a7 + a9 * a15 + a2 * a14 + a10 * a6 + a10 * a14 + a3 * a13 + a11 * a5 + a11 * a13 + a4 * a12 + a12 * a4 + a12 * a12 + a5 * a11 + a13 * a3 + a13 * a11 + a6 * a10 + a14 * a2 + a14 * a10 + a7 * a9 + a15 * a1 + a15 * a9) <= 2 ^ 62) by (eapply bd_le; [solve_bd|vm_compute; reflexivity]).
  assert (B1 : 0 <= (a0 * a8 + a8 * a0 + a8 * a8 + a9 * a15 + a1 * a7 + a1 * a15 + a9 * a7 + a9 * a15 + a10 * a14 + a2 * a6 + a2 * a14 + a10 * a6 + a10 * a14 + a11 * a13 + a3 * a5 + a3 * a13 + a11 * a5 + a11 * a13 + a12 * a12 + a4 * a4 + a4 * a12 + a12 * a4 + a12 * a12 + a13 * a11 + a5 * a3 + a5 * a11 + a13 * a3 + a13 * a11 + a14 * a10 + a6 * a2 + a6 * a10 + a14 * a2 + a14 * a10 + a15 * a9 + a7 * a1 + a7 * a9 + a15 * a1 + a15 * a9) <= 2 ^ 62) by (eapply bd_le; [solve_bd|vm_compute; reflexivity]).
  destruct (split28_lem _ B0) as (c0 & l0 & S0 & C0 & L0 & _ & R0 & T0). destruct (split28_lem _ B1) as (c1 & l1 & S1 & C1 & L1 & _ & R1 & T1).
  exists c0, l0, c1, l1. do 6 (split; [assumption|]).
  unfold square_j0. run.
  acc_is ((a8 * a8 + a0 * a0 + a1 * a15 + a9 * a7 + a9 * a15 + a2 * a14 + a10 * a6 + a10 * a14 + a3 * a13 + a11 * a5 + a11 * a13 + a4 * a12 + a12 * a4 + a12 * a12 + a5 * a11 + a13 * a3 + a13 * a11 + a6 * a10 + a14 * a2 + a14 * a10 + a7 * a9 + a15 * a1 + a15 * a9)). rewrite R0, T0. acc_is ((a0 * a8 + a8 * a0 + a8 * a8 + a9 * a15 + a1 * a7 + a1 * a15 + a9 * a7 + a9 * a15 + a10 * a14 + a2 * a6 + a2 * a14 + a10 * a6 + a10 * a14 + a11 * a13 + a3 * a5 + a3 * a13 + a11 * a5 + a11 * a13 + a12 * a12 + a4 * a4 + a4 * a12 + a12 * a4 + a12 * a12 + a13 * a11 + a5 * a3 + a5 * a11 + a13 * a3 + a13 * a11 + a14 * a10 + a6 * a2 + a6 * a10 + a14 * a2 + a14 * a10 + a15 * a9 + a7 * a1 + a7 * a9 + a15 * a1 + a15 * a9)). rewrite R1, T1. reflexivity.
Qed.

Lemma sq_stage1 : forall a0 a1 a2 a3 a4 a5 a6 a7 a8 a9 a10 a11 a12 a13 a14 a15 c k0 k1,
  0 <= a0 < 2 ^ 28 + 2 ^ 9 -> 0 <= a1 < 2 ^ 28 + 2 ^ 9 -> 0 <= a2 < 2 ^ 28 + 2 ^ 9 -> 0 <= a3 < 2 ^ 28 + 2 ^ 9 -> 0 <= a4 < 2 ^ 28 + 2 ^ 9 -> 0 <= a5 < 2 ^ 28 + 2 ^ 9 -> 0 <= a6 < 2 ^ 28 + 2 ^ 9 -> 0 <= a7 < 2 ^ 28 + 2 ^ 9 -> 0 <= a8 < 2 ^ 28 + 2 ^ 9 -> 0 <= a9 < 2 ^ 28 + 2 ^ 9 -> 0 <= a10 < 2 ^ 28 + 2 ^ 9 -> 0 <= a11 < 2 ^ 28 + 2 ^ 9 -> 0 <= a12 < 2 ^ 28 + 2 ^ 9 -> 0 <= a13 < 2 ^ 28 + 2 ^ 9 -> 0 <= a14 < 2 ^ 28 + 2 ^ 9 -> 0 <= a15 < 2 ^ 28 + 2 ^ 9 -> 0 <= k0 <= 2 ^ 35 -> 0 <= k1 <= 2 ^ 35 ->
  exists c0 l0 c1 l1, k0 + (a8 * a9 + a0 * a1 + a9 * a8 + a1 * a0 + a2 * a15 + a10 * a7 + a10 * a15 + a3 * a14 + a11 * a6 + a11 * a14 + a4 * a13 + a12 * a5 + a12 * a13 + a5 * a12 + a13 * a4 + a13 * a12 + a6 * a11 + a14 * a3 + a14 * a11 + a7 * a10 + a15 * a2 + a15 * a10) = c0 + 2 ^ 28 * l0 /\ k1 + (a0 * a9 + a8 * a1 + a8 * a9 + a1 * a8 + a9 * a0 + a9 * a8 + a10 * a15 + a2 * a7 + a2 * a15 + a10 * a7 + a10 * a15 + a11 * a14 + a3 * a6 + a3 * a14 + a11 * a6 + a11 * a14 + a12 * a13 + a4 * a5 + a4 * a13 + a12 * a5 + a12 * a13 + a13 * a12 + a5 * a4 + a5 * a12 + a13 * a4 + a13 * a12 + a14 * a11 + a6 * a3 + a6 * a11 + a14 * a3 + a14 * a11 + a15 * a10 + a7 * a2 + a7 * a10 + a15 * a2 + a15 * a10) = c1 + 2 ^ 28 * l1 /\
    0 <= c0 < 2 ^ 28 /\ 0 <= l0 <= 2 ^ 35 /\ 0 <= c1 < 2 ^ 28 /\ 0 <= l1 <= 2 ^ 35 /\
    square_j [a0; a1; a2; a3; a4; a5; a6; a7; a8; a9; a10; a11; a12; a13; a14; a15]
    [a0 + a8; a1 + a9; a2 + a10; a3 + a11; a4 + a12; a5 + a13; a6 + a14; a7 + a15] 1 (k0, k1, c) = Ok (l0, l1, set_nth 9 c1 (set_nth 1 c0 c)).
Proof.
  intros.
  assert (B0 : 0 <= k0 + (a8 * a9 + a0 * a1 + a9 * a8 + a1 * a0 + a2 * a15 + a10 * a7 + a10 * a15 + a3 * a14 + a11 * a6 + a11 * a14 + a4 * a13 + a12 * a5 + a12 * a13 + a5 * a12 + a13 * a4 + a13 * a12 + a6 * a11 + a14 * a3 + a14 * a11 + a7 * a10 + a15 * a2 + a15 * a10) <= 2 ^ 62) by (eapply bd_le; [solve_bd|vm_compute; reflexivity]).
  assert (B1 : 0 <= k1 + (a0 * a9 + a8 * a1 + a8 * a9 + a1 * a8 + a9 * a0 + a9 * a8 + a10 * a15 + a2 * a7 + a2 * a15 + a10 * a7 + a10 * a15 + a11 * a14 + a3 * a6 + a3 * a14 + a11 * a6 + a11 * a14 + a12 * a13 + a4 * a5 + a4 * a13 + a12 * a5 + a12 * a13 + a13 * a12 + a5 * a4 + a5 * a12 + a13 * a4 + a13 * a12 + a14 * a11 + a6 * a3 + a6 * a11 + a14 * a3 + a14 * a11 + a15 * a10 + a7 * a2 + a7 * a10 + a15 * a2 + a15 * a10) <= 2 ^ 62) by (eapply bd_le; [solve_bd|vm_compute; reflexivity]).
  destruct (split28_lem _ B0) as (c0 & l0 & S0 & C0 & L0 & _ & R0 & T0). destruct (split28_lem _ B1) as (c1 & l1 & S1 & C1 & L1 & _ & R1 & T1).
  exists c0, l0, c1, l1. do 6 (split; [assumption|]).
  unfold square_j. run.
  acc_is (k0 + (a8 * a9 + a0 * a1 + a9 * a8 + a1 * a0 + a2 * a15 + a10 * a7 + a10 * a15 + a3 * a14 + a11 * a6 + a11 * a14 + a4 * a13 + a12 * a5 + a12 * a13 + a5 * a12 + a13 * a4 + a13 * a12 + a6 * a11 + a14 * a3 + a14 * a11 + a7 * a10 + a15 * a2 + a15 * a10)). rewrite R0, T0. acc_is (k1 + (a0 * a9 + a8 * a1 + a8 * a9 + a1 * a8 + a9 * a0 + a9 * a8 + a10 * a15 + a2 * a7 + a2 * a15 + a10 * a7 + a10 * a15 + a11 * a14 + a3 * a6 + a3 * a14 + a11 * a6 + a11 * a14 + a12 * a13 + a4 * a5 + a4 * a13 + a12 * a5 + a12 * a13 + a13 * a12 + a5 * a4 + a5 * a12 + a13 * a4 + a13 * a12 + a14 * a11 + a6 * a3 + a6 * a11 + a14 * a3 + a14 * a11 + a15 * a10 + a7 * a2 + a7 * a10 + a15 * a2 + a15 * a10)). rewrite R1, T1. reflexivity.
Qed.

Lemma sq_stage2 : forall a0 a1 a2 a3 a4 a5 a6 a7 a8 a9 a10 a11 a12 a13 a14 a15 c k0 k1,
  0 <= a0 < 2 ^ 28 + 2 ^ 9 -> 0 <= a1 < 2 ^ 28 + 2 ^ 9 -> 0 <= a2 < 2 ^ 28 + 2 ^ 9 -> 0 <= a3 < 2 ^ 28 + 2 ^ 9 -> 0 <= a4 < 2 ^ 28 + 2 ^ 9 -> 0 <= a5 < 2 ^ 28 + 2 ^ 9 -> 0 <= a6 < 2 ^ 28 + 2 ^ 9 -> 0 <= a7 < 2 ^ 28 + 2 ^ 9 -> 0 <= a8 < 2 ^ 28 + 2 ^ 9 -> 0 <= a9 < 2 ^ 28 + 2 ^ 9 -> 0 <= a10 < 2 ^ 28 + 2 ^ 9 -> 0 <= a11 < 2 ^ 28 + 2 ^ 9 -> 0 <= a12 < 2 ^ 28 + 2 ^ 9 -> 0 <= a13 < 2 ^ 28 + 2 ^ 9 -> 0 <= a14 < 2 ^ 28 + 2 ^ 9 -> 0 <= a15 < 2 ^ 28 + 2 ^ 9 -> 0 <= k0 <= 2 ^ 35 -> 0 <= k1 <= 2 ^ 35 ->
  exists c0 l0 c1 l1, k0 + (a8 * a10 + a0 * a2 + a9 * a9 + a1 * a1 + a10 * a8 + a2 * a0 + a3 * a15 + a11 * a7 + a11 * a15 + a4 * a14 + a12 * a6 + a12 * a14 + a5 * a13 + a13 * a5 + a13 * a13 + a6 * a12 + a14 * a4 + a14 * a12 + a7 * a11 + a15 * a3 + a15 * a11) = c0 + 2 ^ 28 * l0 /\ k1 + (a0 * a10 + a8 * a2 + a8 * a10 + a1 * a9 + a9 * a1 + a9 * a9 + a2 * a8 + a10 * a0 + a10 * a8 + a11 * a15 + a3 * a7 + a3 * a15 + a11 * a7 + a11 * a15 + a12 * a14 + a4 * a6 + a4 * a14 + a12 * a6 + a12 * a14 + a13 * a13 + a5 * a5 + a5 * a13 + a13 * a5 + a13 * a13 + a14 * a12 + a6 * a4 + a6 * a12 + a14 * a4 + a14 * a12 + a15 * a11 + a7 * a3 + a7 * a11 + a15 * a3 + a15 * a11) = c1 + 2 ^ 28 * l1 /\
    0 <= c0 < 2 ^ 28 /\ 0 <= l0 <= 2 ^ 35 /\ 0 <= c1 < 2 ^ 28 /\ 0 <= l1 <= 2 ^ 35 /\
    square_j [a0; a1; a2; a3; a4; a5; a6; a7; a8; a9; a10; a11; a12; a13; a14; a15]
    [a0 + a8; a1 + a9; a2 + a10; a3 + a11; a4 + a12; a5 + a13; a6 + a14; a7 + a15] 2 (k0, k1, c) = Ok (l0, l1, set_nth 10 c1 (set_nth 2 c0 c)).
Proof.
  intros.
  assert (B0 : 0 <= k0 + (a8 * a10 + a0 * a2 + a9 * a9 + a1 * a1 + a10 * a8 + a2 * a0 + a3 * a15 + a11 * a7 + a11 * a15 + a4 * a14 + a12 * a6 + a12 * a14 + a5 * a13 + a13 * a5 + a13 * a13 + a6 * a12 + a14 * a4 + a14 * a12 + a7 * a11 + a15 * a3 + a15 * a11) <= 2 ^ 62) by (eapply bd_le; [solve_bd|vm_compute; reflexivity]).
  assert (B1 : 0 <= k1 + (a0 * a10 + a8 * a2 + a8 * a10 + a1 * a9 + a9 * a1 + a9 * a9 + a2 * a8 + a10 * a0 + a10 * a8 + a11 * a15 + a3 * a7 + a3 * a15 + a11 * a7 + a11 * a15 + a12 * a14 + a4 * a6 + a4 * a14 + a12 * a6 + a12 * a14 + a13 * a13 + a5 * a5 + a5 * a13 + a13 * a5 + a13 * a13 + a14 * a12 + a6 * a4 + a6 * a12 + a14 * a4 + a14 * a12 + a15 * a11 + a7 * a3 + a7 * a11 + a15 * a3 + a15 * a11) <= 2 ^ 62) by (eapply bd_le; [solve_bd|vm_compute; reflexivity]).
  destruct (split28_lem _ B0) as (c0 & l0 & S0 & C0 & L0 & _ & R0 & T0). destruct (split28_lem _ B1) as (c1 & l1 & S1 & C1 & L1 & _ & R1 & T1).
  exists c0, l0, c1, l1. do 6 (split; [assumption|]).
  unfold square_j. run.
  acc_is (k0 + (a8 * a10 + a0 * a2 + a9 * a9 + a1 * a1 + a10 * a8 + a2 * a0 + a3 * a15 + a11 * a7 + a11 * a15 + a4 * a14 + a12 * a6 + a12 * a14 + a5 * a13 + a13 * a5 + a13 * a13 + a6 * a12 + a14 * a4 + a14 * a12 + a7 * a11 + a15 * a3 + a15 * a11)). rewrite R0, T0. acc_is (k1 + (a0 * a10 + a8 * a2 + a8 * a10 + a1 * a9 + a9 * a1 + a9 * a9 + a2 * a8 + a10 * a0 + a10 * a8 + a11 * a15 + a3 * a7 + a3 * a15 + a11 * a7 + a11 * a15 + a12 * a14 + a4 * a6 + a4 * a14 + a12 * a6 + a12 * a14 + a13 * a13 + a5 * a5 + a5 * a13 + a13 * a5 + a13 * a13 + a14 * a12 + a6 * a4 + a6 * a12 + a14 * a4 + a14 * a12 + a15 * a11 + a7 * a3 + a7 * a11 + a15 * a3 + a15 * a11)). rewrite R1, T1. reflexivity.
Qed.

Lemma sq_stage3 : forall a0 a1 a2 a3 a4 a5 a6 a7 a8 a9 a10 a11 a12 a13 a14 a15 c k0 k1,
  0 <= a0 < 2 ^ 28 + 2 ^ 9 -> 0 <= a1 < 2 ^ 28 + 2 ^ 9 -> 0 <= a2 < 2 ^ 28 + 2 ^ 9 -> 0 <= a3 < 2 ^ 28 + 2 ^ 9 -> 0 <= a4 < 2 ^ 28 + 2 ^ 9 -> 0 <= a5 < 2 ^ 28 + 2 ^ 9 -> 0 <= a6 < 2 ^ 28 + 2 ^ 9 -> 0 <= a7 < 2 ^ 28 + 2 ^ 9 -> 0 <= a8 < 2 ^ 28 + 2 ^ 9 -> 0 <= a9 < 2 ^ 28 + 2 ^ 9 -> 0 <= a10 < 2 ^ 28 + 2 ^ 9 -> 0 <= a11 < 2 ^ 28 + 2 ^ 9 -> 0 <= a12 < 2 ^ 28 + 2 ^ 9 -> 0 <= a13 < 2 ^ 28 + 2 ^ 9 -> 0 <= a14 < 2 ^ 28 + 2 ^ 9 -> 0 <= a15 < 2 ^ 28 + 2 ^ 9 -> 0 <= k0 <= 2 ^ 35 -> 0 <= k1 <= 2 ^ 35 ->
  exists c0 l0 c1 l1, k0 + (a8 * a11 + a0 * a3 + a9 * a10 + a1 * a2 + a10 * a9 + a2 * a1 + a11 * a8 + a3 * a0 + a4 * a15 + a12 * a7 + a12 * a15 + a5 * a14 + a13 * a6 + a13 * a14 + a6 * a13 + a14 * a5 + a14 * a13 + a7 * a12 + a15 * a4 + a15 * a12) = c0 + 2 ^ 28 * l0 /\ k1 + (a0 * a11 + a8 * a3 + a8 * a11 + a1 * a10 + a9 * a2 + a9 * a10 + a2 * a9 + a10 * a1 + a10 * a9 + a3 * a8 + a11 * a0 + a11 * a8 + a12 * a15 + a4 * a7 + a4 * a15 + a12 * a7 + a12 * a15 + a13 * a14 + a5 * a6 + a5 * a14 + a13 * a6 + a13 * a14 + a14 * a13 + a6 * a5 + a6 * a13 + a14 * a5 + a14 * a13 + a15 * a12 + a7 * a4 + a7 * a12 + a15 * a4 + a15 * a12) = c1 + 2 ^ 28 * l1 /\
    0 <= c0 < 2 ^ 28 /\ 0 <= l0 <= 2 ^ 35 /\ 0 <= c1 < 2 ^ 28 /\ 0 <= l1 <= 2 ^ 35 /\
    square_j [a0; a1; a2; a3; a4; a5; a6; a7; a8; a9; a10; a11; a12; a13; a14; a15]
    [a0 + a8; a1 + a9; a2 + a10; a3 + a11; a4 + a12; a5 + a13; a6 + a14; a7 + a15] 3 (k0, k1, c) = Ok (l0, l1, set_nth 11 c1 (set_nth 3 c0 c)).
Proof.
  intros.
  assert (B0 : 0 <= k0 + (a8 * a11 + a0 * a3 + a9 * a10 + a1 * a2 + a10 * a9 + a2 * a1 + a11 * a8 + a3 * a0 + a4 * a15 + a12 * a7 + a12 * a15 + a5 * a14 + a13 * a6 + a13 * a14 + a6 * a13 + a14 * a5 + a14 * a13 + a7 * a12 + a15 * a4 + a15 * a12) <= 2 ^ 62) by (eapply bd_le; [solve_bd|vm_compute; reflexivity]).
  assert (B1 : 0 <= k1 + (a0 * a11 + a8 * a3 + a8 * a11 + a1 * a10 + a9 * a2 + a9 * a10 + a2 * a9 + a10 * a1 + a10 * a9 + a3 * a8 + a11 * a0 + a11 * a8 + a12 * a15 + a4 * a7 + a4 * a15 + a12 * a7 + a12 * a15 + a13 * a14 + a5 * a6 + a5 * a14 + a13 * a6 + a13 * a14 + a14 * a13 + a6 * a5 + a6 * a13 + a14 * a5 + a14 * a13 + a15 * a12 + a7 * a4 + a7 * a12 + a15 * a4 + a15 * a12) <= 2 ^ 62) by (eapply bd_le; [solve_bd|vm_compute; reflexivity]).
  destruct (split28_lem _ B0) as (c0 & l0 & S0 & C0 & L0 & _ & R0 & T0). destruct (split28_lem _ B1) as (c1 & l1 & S1 & C1 & L1 & _ & R1 & T1).
  exists c0, l0, c1, l1. do 6 (split; [assumption|]).
  unfold square_j. run.
  acc_is (k0 + (a8 * a11 + a0 * a3 + a9 * a10 + a1 * a2 + a10 * a9 + a2 * a1 + a11 * a8 + a3 * a0 + a4 * a15 + a12 * a7 + a12 * a15 + a5 * a14 + a13 * a6 + a13 * a14 + a6 * a13 + a14 * a5 + a14 * a13 + a7 * a12 + a15 * a4 + a15 * a12)). rewrite R0, T0. acc_is (k1 + (a0 * a11 + a8 * a3 + a8 * a11 + a1 * a10 + a9 * a2 + a9 * a10 + a2 * a9 + a10 * a1 + a10 * a9 + a3 * a8 + a11 * a0 + a11 * a8 + a12 * a15 + a4 * a7 + a4 * a15 + a12 * a7 + a12 * a15 + a13 * a14 + a5 * a6 + a5 * a14 + a13 * a6 + a13 * a14 + a14 * a13 + a6 * a5 + a6 * a13 + a14 * a5 + a14 * a13 + a15 * a12 + a7 * a4 + a7 * a12 + a15 * a4 + a15 * a12)). rewrite R1, T1. reflexivity.
Qed.

Lemma sq_stage4 : forall a0 a1 a2 a3 a4 a5 a6 a7 a8 a9 a10 a11 a12 a13 a14 a15 c k0 k1,
  0 <= a0 < 2 ^ 28 + 2 ^ 9 -> 0 <= a1 < 2 ^ 28 + 2 ^ 9 -> 0 <= a2 < 2 ^ 28 + 2 ^ 9 -> 0 <= a3 < 2 ^ 28 + 2 ^ 9 -> 0 <= a4 < 2 ^ 28 + 2 ^ 9 -> 0 <= a5 < 2 ^ 28 + 2 ^ 9 -> 0 <= a6 < 2 ^ 28 + 2 ^ 9 -> 0 <= a7 < 2 ^ 28 + 2 ^ 9 -> 0 <= a8 < 2 ^ 28 + 2 ^ 9 -> 0 <= a9 < 2 ^ 28 + 2 ^ 9 -> 0 <= a10 < 2 ^ 28 + 2 ^ 9 -> 0 <= a11 < 2 ^ 28 + 2 ^ 9 -> 0 <= a12 < 2 ^ 28 + 2 ^ 9 -> 0 <= a13 < 2 ^ 28 + 2 ^ 9 -> 0 <= a14 < 2 ^ 28 + 2 ^ 9 -> 0 <= a15 < 2 ^ 28 + 2 ^ 9 -> 0 <= k0 <= 2 ^ 35 -> 0 <= k1 <= 2 ^ 35 ->
  exists c0 l0 c1 l1, k0 + (a8 * a12 + a0 * a4 + a9 * a11 + a1 * a3 + a10 * a10 + a2 * a2 + a11 * a9 + a3 * a1 + a12 * a8 + a4 * a0 + a5 * a15 + a13 * a7 + a13 * a15 + a6 * a14 + a14 * a6 + a14 * a14 + a7 * a13 + a15 * a5 + a15 * a13) = c0 + 2 ^ 28 * l0 /\ k1 + (a0 * a12 + a8 * a4 + a8 * a12 + a1 * a11 + a9 * a3 + a9 * a11 + a2 * a10 + a10 * a2 + a10 * a10 + a3 * a9 + a11 * a1 + a11 * a9 + a4 * a8 + a12 * a0 + a12 * a8 + a13 * a15 + a5 * a7 + a5 * a15 + a13 * a7 + a13 * a15 + a14 * a14 + a6 * a6 + a6 * a14 + a14 * a6 + a14 * a14 + a15 * a13 + a7 * a5 + a7 * a13 + a15 * a5 + a15 * a13) = c1 + 2 ^ 28 * l1 /\
    0 <= c0 < 2 ^ 28 /\ 0 <= l0 <= 2 ^ 35 /\ 0 <= c1 < 2 ^ 28 /\ 0 <= l1 <= 2 ^ 35 /\
    square_j [a0; a1; a2; a3; a4; a5; a6; a7; a8; a9; a10; a11; a12; a13; a14; a15]
    [a0 + a8; a1 + a9; a2 + a10; a3 + a11; a4 + a12; a5 + a13; a6 + a14; a7 + a15] 4 (k0, k1, c) = Ok (l0, l1, set_nth 12 c1 (set_nth 4 c0 c)).
Proof.
  intros.
  assert (B0 : 0 <= k0 + (a8 * a12 + a0 * a4 + a9 * a11 + a1 * a3 + a10 * a10 + a2 * a2 + a11 * a9 + a3 * a1 + a12 * a8 + a4 * a0 + a5 * a15 + a13 * a7 + a13 * a15 + a6 * a14 + a14 * a6 + a14 * a14 + a7 * a13 + a15 * a5 + a15 * a13) <= 2 ^ 62) by (eapply bd_le; [solve_bd|vm_compute; reflexivity]).
  assert (B1 : 0 <= k1 + (a0 * a12 + a8 * a4 + a8 * a12 + a1 * a11 + a9 * a3 + a9 * a11 + a2 * a10 + a10 * a2 + a10 * a10 + a3 * a9 + a11 * a1 + a11 * a9 + a4 * a8 + a12 * a0 + a12 * a8 + a13 * a15 + a5 * a7 + a5 * a15 + a13 * a7 + a13 * a15 + a14 * a14 + a6 * a6 + a6 * a14 + a14 * a6 + a14 * a14 + a15 * a13 + a7 * a5 + a7 * a13 + a15 * a5 + a15 * a13) <= 2 ^ 62) by (eapply bd_le; [solve_bd|vm_compute; reflexivity]).
  destruct (split28_lem _ B0) as (c0 & l0 & S0 & C0 & L0 & _ & R0 & T0). destruct (split28_lem _ B1) as (c1 & l1 & S1 & C1 & L1 & _ & R1 & T1).
  exists c0, l0, c1, l1. do 6 (split; [assumption|]).
  unfold square_j. run.
  acc_is (k0 + (a8 * a12 + a0 * a4 + a9 * a11 + a1 * a3 + a10 * a10 + a2 * a2 + a11 * a9 + a3 * a1 + a12 * a8 + a4 * a0 + a5 * a15 + a13 * a7 + a13 * a15 + a6 * a14 + a14 * a6 + a14 * a14 + a7 * a13 + a15 * a5 + a15 * a13)). rewrite R0, T0. acc_is (k1 + (a0 * a12 + a8 * a4 + a8 * a12 + a1 * a11 + a9 * a3 + a9 * a11 + a2 * a10 + a10 * a2 + a10 * a10 + a3 * a9 + a11 * a1 + a11 * a9 + a4 * a8 + a12 * a0 + a12 * a8 + a13 * a15 + a5 * a7 + a5 * a15 + a13 * a7 + a13 * a15 + a14 * a14 + a6 * a6 + a6 * a14 + a14 * a6 + a14 * a14 + a15 * a13 + a7 * a5 + a7 * a13 + a15 * a5 + a15 * a13)). rewrite R1, T1. reflexivity.
Qed.

Lemma sq_stage5 : forall a0 a1 a2 a3 a4 a5 a6 a7 a8 a9 a10 a11 a12 a13 a14 a15 c k0 k1,
  0 <= a0 < 2 ^ 28 + 2 ^ 9 -> 0 <= a1 < 2 ^ 28 + 2 ^ 9 -> 0 <= a2 < 2 ^ 28 + 2 ^ 9 -> 0 <= a3 < 2 ^ 28 + 2 ^ 9 -> 0 <= a4 < 2 ^ 28 + 2 ^ 9 -> 0 <= a5 < 2 ^ 28 + 2 ^ 9 -> 0 <= a6 < 2 ^ 28 + 2 ^ 9 -> 0 <= a7 < 2 ^ 28 + 2 ^ 9 -> 0 <= a8 < 2 ^ 28 + 2 ^ 9 -> 0 <= a9 < 2 ^ 28 + 2 ^ 9 -> 0 <= a10 < 2 ^ 28 + 2 ^ 9 -> 0 <= a11 < 2 ^ 28 + 2 ^ 9 -> 0 <= a12 < 2 ^ 28 + 2 ^ 9 -> 0 <= a13 < 2 ^ 28 + 2 ^ 9 -> 0 <= a14 < 2 ^ 28 + 2 ^ 9 -> 0 <= a15 < 2 ^ 28 + 2 ^ 9 -> 0 <= k0 <= 2 ^ 35 -> 0 <= k1 <= 2 ^ 35 ->
  exists c0 l0 c1 l1, k0 + (a8 * a13 + a0 * a5 + a9 * a12 + a1 * a4 + a10 * a11 + a2 * a3 + a11 * a10 + a3 * a2 + a12 * a9 + a4 * a1 + a13 * a8 + a5 * a0 + a6 * a15 + a14 * a7 + a14 * a15 + a7 * a14 + a15 * a6 + a15 * a14) = c0 + 2 ^ 28 * l0 /\ k1 + (a0 * a13 + a8 * a5 + a8 * a13 + a1 * a12 + a9 * a4 + a9 * a12 + a2 * a11 + a10 * a3 + a10 * a11 + a3 * a10 + a11 * a2 + a11 * a10 + a4 * a9 + a12 * a1 + a12 * a9 + a5 * a8 + a13 * a0 + a13 * a8 + a14 * a15 + a6 * a7 + a6 * a15 + a14 * a7 + a14 * a15 + a15 * a14 + a7 * a6 + a7 * a14 + a15 * a6 + a15 * a14) = c1 + 2 ^ 28 * l1 /\
    0 <= c0 < 2 ^ 28 /\ 0 <= l0 <= 2 ^ 35 /\ 0 <= c1 < 2 ^ 28 /\ 0 <= l1 <= 2 ^ 35 /\
    square_j [a0; a1; a2; a3; a4; a5; a6; a7; a8; a9; a10; a11; a12; a13; a14; a15]
    [a0 + a8; a1 + a9; a2 + a10; a3 + a11; a4 + a12; a5 + a13; a6 + a14; a7 + a15] 5 (k0, k1, c) = Ok (l0, l1, set_nth 13 c1 (set_nth 5 c0 c)).
Proof.
  intros.
  assert (B0 : 0 <= k0 + (a8 * a13 + a0 * a5 + a9 * a12 + a1 * a4 + a10 * a11 + a2 * a3 + a11 * a10 + a3 * a2 + a12 * a9 + a4 * a1 + a13 * a8 + a5 * a0 + a6 * a15 + a14 * a7 + a14 * a15 + a7 * a14 + a15 * a6 + a15 * a14) <= 2 ^ 62) by (eapply bd_le; [solve_bd|vm_compute; reflexivity]).
  assert (B1 : 0 <= k1 + (a0 * a13 + a8 * a5 + a8 * a13 + a1 * a12 + a9 * a4 + a9 * a12 + a2 * a11 + a10 * a3 + a10 * a11 + a3 * a10 + a11 * a2 + a11 * a10 + a4 * a9 + a12 * a1 + a12 * a9 + a5 * a8 + a13 * a0 + a13 * a8 + a14 * a15 + a6 * a7 + a6 * a15 + a14 * a7 + a14 * a15 + a15 * a14 + a7 * a6 + a7 * a14 + a15 * a6 + a15 * a14) <= 2 ^ 62) by (eapply bd_le; [solve_bd|vm_compute; reflexivity]).
  destruct (split28_lem _ B0) as (c0 & l0 & S0 & C0 & L0 & _ & R0 & T0). destruct (split28_lem _ B1) as (c1 & l1 & S1 & C1 & L1 & _ & R1 & T1).
  exists c0, l0, c1, l1. do 6 (split; [assumption|]).
  unfold square_j. run.
  acc_is (k0 + (a8 * a13 + a0 * a5 + a9 * a12 + a1 * a4 + a10 * a11 + a2 * a3 + a11 * a10 + a3 * a2 + a12 * a9 + a4 * a1 + a13 * a8 + a5 * a0 + a6 * a15 + a14 * a7 + a14 * a15 + a7 * a14 + a15 * a6 + a15 * a14)). rewrite R0, T0. acc_is (k1 + (a0 * a13 + a8 * a5 + a8 * a13 + a1 * a12 + a9 * a4 + a9 * a12 + a2 * a11 + a10 * a3 + a10 * a11 + a3 * a10 + a11 * a2 + a11 * a10 + a4 * a9 + a12 * a1 + a12 * a9 + a5 * a8 + a13 * a0 + a13 * a8 + a14 * a15 + a6 * a7 + a6 * a15 + a14 * a7 + a14 * a15 + a15 * a14 + a7 * a6 + a7 * a14 + a15 * a6 + a15 * a14)). rewrite R1, T1. reflexivity.
Qed.

Lemma sq_stage6 : forall a0 a1 a2 a3 a4 a5 a6 a7 a8 a9 a10 a11 a12 a13 a14 a15 c k0 k1,
  0 <= a0 < 2 ^ 28 + 2 ^ 9 -> 0 <= a1 < 2 ^ 28 + 2 ^ 9 -> 0 <= a2 < 2 ^ 28 + 2 ^ 9 -> 0 <= a3 < 2 ^ 28 + 2 ^ 9 -> 0 <= a4 < 2 ^ 28 + 2 ^ 9 -> 0 <= a5 < 2 ^ 28 + 2 ^ 9 -> 0 <= a6 < 2 ^ 28 + 2 ^ 9 -> 0 <= a7 < 2 ^ 28 + 2 ^ 9 -> 0 <= a8 < 2 ^ 28 + 2 ^ 9 -> 0 <= a9 < 2 ^ 28 + 2 ^ 9 -> 0 <= a10 < 2 ^ 28 + 2 ^ 9 -> 0 <= a11 < 2 ^ 28 + 2 ^ 9 -> 0 <= a12 < 2 ^ 28 + 2 ^ 9 -> 0 <= a13 < 2 ^ 28 + 2 ^ 9 -> 0 <= a14 < 2 ^ 28 + 2 ^ 9 -> 0 <= a15 < 2 ^ 28 + 2 ^ 9 -> 0 <= k0 <= 2 ^ 35 -> 0 <= k1 <= 2 ^ 35 ->
  exists c0 l0 c1 l1, k0 + (a8 * a14 + a0 * a6 + a9 * a13 + a1 * a5 + a10 * a12 + a2 * a4 + a11 * a11 + a3 * a3 + a12 * a10 + a4 * a2 + a13 * a9 + a5 * a1 + a14 * a8 + a6 * a0 + a7 * a15 + a15 * a7 + a15 * a15) = c0 + 2 ^ 28 * l0 /\ k1 + (a0 * a14 + a8 * a6 + a8 * a14 + a1 * a13 + a9 * a5 + a9 * a13 + a2 * a12 + a10 * a4 + a10 * a12 + a3 * a11 + a11 * a3 + a11 * a11 + a4 * a10 + a12 * a2 + a12 * a10 + a5 * a9 + a13 * a1 + a13 * a9 + a6 * a8 + a14 * a0 + a14 * a8 + a15 * a15 + a7 * a7 + a7 * a15 + a15 * a7 + a15 * a15) = c1 + 2 ^ 28 * l1 /\
    0 <= c0 < 2 ^ 28 /\ 0 <= l0 <= 2 ^ 35 /\ 0 <= c1 < 2 ^ 28 /\ 0 <= l1 <= 2 ^ 35 /\
    square_j [a0; a1; a2; a3; a4; a5; a6; a7; a8; a9; a10; a11; a12; a13; a14; a15]
    [a0 + a8; a1 + a9; a2 + a10; a3 + a11; a4 + a12; a5 + a13; a6 + a14; a7 + a15] 6 (k0, k1, c) = Ok (l0, l1, set_nth 14 c1 (set_nth 6 c0 c)).
Proof.
  intros.
  assert (B0 : 0 <= k0 + (a8 * a14 + a0 * a6 + a9 * a13 + a1 * a5 + a10 * a12 + a2 * a4 + a11 * a11 + a3 * a3 + a12 * a10 + a4 * a2 + a13 * a9 + a5 * a1 + a14 * a8 + a6 * a0 + a7 * a15 + a15 * a7 + a15 * a15) <= 2 ^ 62) by (eapply bd_le; [solve_bd|vm_compute; reflexivity]).
  assert (B1 : 0 <= k1 + (a0 * a14 + a8 * a6 + a8 * a14 + a1 * a13 + a9 * a5 + a9 * a13 + a2 * a12 + a10 * a4 + a10 * a12 + a3 * a11 + a11 * a3 + a11 * a11 + a4 * a10 + a12 * a2 + a12 * a10 + a5 * a9 + a13 * a1 + a13 * a9 + a6 * a8 + a14 * a0 + a14 * a8 + a15 * a15 + a7 * a7 + a7 * a15 + a15 * a7 + a15 * a15) <= 2 ^ 62) by (eapply bd_le; [solve_bd|vm_compute; reflexivity]).
  destruct (split28_lem _ B0) as (c0 & l0 & S0 & C0 & L0 & _ & R0 & T0). destruct (split28_lem _ B1) as (c1 & l1 & S1 & C1 & L1 & _ & R1 & T1).
  exists c0, l0, c1, l1. do 6 (split; [assumption|]).
  unfold square_j. run.
  acc_is (k0 + (a8 * a14 + a0 * a6 + a9 * a13 + a1 * a5 + a10 * a12 + a2 * a4 + a11 * a11 + a3 * a3 + a12 * a10 + a4 * a2 + a13 * a9 + a5 * a1 + a14 * a8 + a6 * a0 + a7 * a15 + a15 * a7 + a15 * a15)). rewrite R0, T0. acc_is (k1 + (a0 * a14 + a8 * a6 + a8 * a14 + a1 * a13 + a9 * a5 + a9 * a13 + a2 * a12 + a10 * a4 + a10 * a12 + a3 * a11 + a11 * a3 + a11 * a11 + a4 * a10 + a12 * a2 + a12 * a10 + a5 * a9 + a13 * a1 + a13 * a9 + a6 * a8 + a14 * a0 + a14 * a8 + a15 * a15 + a7 * a7 + a7 * a15 + a15 * a7 + a15 * a15)). rewrite R1, T1. reflexivity.
Qed.

Lemma sq_stage7 : forall a0 a1 a2 a3 a4 a5 a6 a7 a8 a9 a10 a11 a12 a13 a14 a15 c k0 k1,
  0 <= a0 < 2 ^ 28 + 2 ^ 9 -> 0 <= a1 < 2 ^ 28 + 2 ^ 9 -> 0 <= a2 < 2 ^ 28 + 2 ^ 9 -> 0 <= a3 < 2 ^ 28 + 2 ^ 9 -> 0 <= a4 < 2 ^ 28 + 2 ^ 9 -> 0 <= a5 < 2 ^ 28 + 2 ^ 9 -> 0 <= a6 < 2 ^ 28 + 2 ^ 9 -> 0 <= a7 < 2 ^ 28 + 2 ^ 9 -> 0 <= a8 < 2 ^ 28 + 2 ^ 9 -> 0 <= a9 < 2 ^ 28 + 2 ^ 9 -> 0 <= a10 < 2 ^ 28 + 2 ^ 9 -> 0 <= a11 < 2 ^ 28 + 2 ^ 9 -> 0 <= a12 < 2 ^ 28 + 2 ^ 9 -> 0 <= a13 < 2 ^ 28 + 2 ^ 9 -> 0 <= a14 < 2 ^ 28 + 2 ^ 9 -> 0 <= a15 < 2 ^ 28 + 2 ^ 9 -> 0 <= k0 <= 2 ^ 35 -> 0 <= k1 <= 2 ^ 35 ->
  exists c0 l0 c1 l1, k0 + (a8 * a15 + a0 * a7 + a9 * a14 + a1 * a6 + a10 * a13 + a2 * a5 + a11 * a12 + a3 * a4 + a12 * a11 + a4 * a3 + a13 * a10 + a5 * a2 + a14 * a9 + a6 * a1 + a15 * a8 + a7 * a0) = c0 + 2 ^ 28 * l0 /\ k1 + (a0 * a15 + a8 * a7 + a8 * a15 + a1 * a14 + a9 * a6 + a9 * a14 + a2 * a13 + a10 * a5 + a10 * a13 + a3 * a12 + a11 * a4 + a11 * a12 + a4 * a11 + a12 * a3 + a12 * a11 + a5 * a10 + a13 * a2 + a13 * a10 + a6 * a9 + a14 * a1 + a14 * a9 + a7 * a8 + a15 * a0 + a15 * a8) = c1 + 2 ^ 28 * l1 /\
    0 <= c0 < 2 ^ 28 /\ 0 <= l0 <= 2 ^ 35 /\ 0 <= c1 < 2 ^ 28 /\ 0 <= l1 <= 2 ^ 35 /\
    square_j7 [a0; a1; a2; a3; a4; a5; a6; a7; a8; a9; a10; a11; a12; a13; a14; a15]
    [a0 + a8; a1 + a9; a2 + a10; a3 + a11; a4 + a12; a5 + a13; a6 + a14; a7 + a15] (k0, k1, c) = Ok (l0, l1, set_nth 15 c1 (set_nth 7 c0 c)).
Proof.
  intros.
  assert (B0 : 0 <= k0 + (a8 * a15 + a0 * a7 + a9 * a14 + a1 * a6 + a10 * a13 + a2 * a5 + a11 * a12 + a3 * a4 + a12 * a11 + a4 * a3 + a13 * a10 + a5 * a2 + a14 * a9 + a6 * a1 + a15 * a8 + a7 * a0) <= 2 ^ 62) by (eapply bd_le; [solve_bd|vm_compute; reflexivity]).
  assert (B1 : 0 <= k1 + (a0 * a15 + a8 * a7 + a8 * a15 + a1 * a14 + a9 * a6 + a9 * a14 + a2 * a13 + a10 * a5 + a10 * a13 + a3 * a12 + a11 * a4 + a11 * a12 + a4 * a11 + a12 * a3 + a12 * a11 + a5 * a10 + a13 * a2 + a13 * a10 + a6 * a9 + a14 * a1 + a14 * a9 + a7 * a8 + a15 * a0 + a15 * a8) <= 2 ^ 62) by (eapply bd_le; [solve_bd|vm_compute; reflexivity]).
  destruct (split28_lem _ B0) as (c0 & l0 & S0 & C0 & L0 & _ & R0 & T0). destruct (split28_lem _ B1) as (c1 & l1 & S1 & C1 & L1 & _ & R1 & T1).
  exists c0, l0, c1, l1. do 6 (split; [assumption|]).
  unfold square_j7. run.
  acc_is (k0 + (a8 * a15 + a0 * a7 + a9 * a14 + a1 * a6 + a10 * a13 + a2 * a5 + a11 * a12 + a3 * a4 + a12 * a11 + a4 * a3 + a13 * a10 + a5 * a2 + a14 * a9 + a6 * a1 + a15 * a8 + a7 * a0)). rewrite R0, T0. acc_is (k1 + (a0 * a15 + a8 * a7 + a8 * a15 + a1 * a14 + a9 * a6 + a9 * a14 + a2 * a13 + a10 * a5 + a10 * a13 + a3 * a12 + a11 * a4 + a11 * a12 + a4 * a11 + a12 * a3 + a12 * a11 + a5 * a10 + a13 * a2 + a13 * a10 + a6 * a9 + a14 * a1 + a14 * a9 + a7 * a8 + a15 * a0 + a15 * a8)). rewrite R1, T1. reflexivity.
Qed.

Lemma square28_ok : forall a, wf28 a -> okp (square28 a) (fun r => wf28 r /\ exists q, val28 r + q * p = val28 a * val28 a).
Proof.
  intros a Ha. destruct (wf28_inv a Ha) as (a0 & a1 & a2 & a3 & a4 & a5 & a6 & a7 & a8 & a9 & a10 & a11 & a12 & a13 & a14 & a15 & -> & Fa). clear Ha. destruct_limbs Fa.
  unfold square28, square28_, range. cbn [seq Nat.sub map_res Nat.add nth]. unfold u64_add. repeat (rewrite chk_u_ok by lia; cbn [bind]).
  edestruct (sq_stage0 a0 a1 a2 a3 a4 a5 a6 a7 a8 a9 a10 a11 a12 a13 a14 a15 zero28) as (c0 & k0 & c8 & l0 & S0 & T0 & Bc0 & Bk0 & Bc8 & Bl0 & E); [assumption..|]. rewrite E; clear E; cbn [bind for_each].
  edestruct (sq_stage1 a0 a1 a2 a3 a4 a5 a6 a7 a8 a9 a10 a11 a12 a13 a14 a15) as (c1 & k1 & c9 & l1 & S1 & T1 & Bc1 & Bk1 & Bc9 & Bl1 & E); cycle 18; [rewrite E; clear E; cbn [bind for_each]|assumption..].
  edestruct (sq_stage2 a0 a1 a2 a3 a4 a5 a6 a7 a8 a9 a10 a11 a12 a13 a14 a15) as (c2 & k2 & c10 & l2 & S2 & T2 & Bc2 & Bk2 & Bc10 & Bl2 & E); cycle 18; [rewrite E; clear E; cbn [bind for_each]|assumption..].
  edestruct (sq_stage3 a0 a1 a2 a3 a4 a5 a6 a7 a8 a9 a10 a11 a12 a13 a14 a15) as (c3 & k3 & c11 & l3 & S3 & T3 & Bc3 & Bk3 & Bc11 & Bl3 & E); cycle 18; [rewrite E; clear E; cbn [bind for_each]|assumption..].
  edestruct (sq_stage4 a0 a1 a2 a3 a4 a5 a6 a7 a8 a9 a10 a11 a12 a13 a14 a15) as (c4 & k4 & c12 & l4 & S4 & T4 & Bc4 & Bk4 & Bc12 & Bl4 & E); cycle 18; [rewrite E; clear E; cbn [bind for_each]|assumption..].
  edestruct (sq_stage5 a0 a1 a2 a3 a4 a5 a6 a7 a8 a9 a10 a11 a12 a13 a14 a15) as (c5 & k5 & c13 & l5 & S5 & T5 & Bc5 & Bk5 & Bc13 & Bl5 & E); cycle 18; [rewrite E; clear E; cbn [bind for_each]|assumption..].
  edestruct (sq_stage6 a0 a1 a2 a3 a4 a5 a6 a7 a8 a9 a10 a11 a12 a13 a14 a15) as (c6 & k6 & c14 & l6 & S6 & T6 & Bc6 & Bk6 & Bc14 & Bl6 & E); cycle 18; [rewrite E; clear E; cbn [bind for_each]|assumption..].
  edestruct (sq_stage7 a0 a1 a2 a3 a4 a5 a6 a7 a8 a9 a10 a11 a12 a13 a14 a15) as (c7 & k7 & c15 & l7 & S7 & T7 & Bc7 & Bk7 & Bc15 & Bl7 & E); cycle 18; [rewrite E; clear E; cbn [bind for_each]|assumption..].
  cbv [set_nth zero28 firstn skipn app square_final]. cbn [nth].
  unfold u64_add. rewrite (chk_u_ok 64 (k7 + l7)) by (clear - Bk7 Bl7; lia). cbn [bind]. rewrite (chk_u_ok 64 (k7 + l7 + c8)) by (clear - Bk7 Bl7 Bc8; lia). cbn [bind].
  rewrite (chk_u_ok 64 (l7 + c0)) by (clear - Bl7 Bc0; lia). cbn [bind].
  replace (k7 + l7 + c8) with (k7 + (l7 + c8)) by (clear; ring).
  assert (BF0 : 0 <= k7 + (l7 + c8) <= 2 ^ 36 + 2 ^ 28) by (clear - Bk7 Bl7 Bc8; lia). assert (BF1 : 0 <= l7 + c0 <= 2 ^ 36) by (clear - Bl7 Bc0; lia).
  destruct (split28_lem (k7 + (l7 + c8)) ltac:(clear - BF0; lia)) as (d8 & u0 & F0 & Hd8 & Hu0 & _ & -> & ->). destruct (split28_lem (l7 + c0) ltac:(clear - BF1; lia)) as (d0 & u1 & F1 & Hd0 & Hu1 & _ & -> & ->).
  assert (U0 : 0 <= u0 < 2 ^ 9) by (clear - F0 BF0 Hd8; lia). assert (U1 : 0 <= u1 < 2 ^ 9) by (clear - F1 BF1 Hd0; lia).
  unfold as_u32. rewrite (wrap_small 32 u0) by (clear - U0; lia). rewrite (wrap_small 32 u1) by (clear - U1; lia).
  unfold u32_add. rewrite (chk_u_ok 32 (c9 + u0)) by (clear - U0 Bc9; lia). rewrite (chk_u_ok 32 (c1 + u1)) by (clear - U1 Bc1; lia). cbn [bind].
  apply okp_ret. split; [clear - Bc0 Bc1 Bc2 Bc3 Bc4 Bc5 Bc6 Bc7 Bc8 Bc9 Bc10 Bc11 Bc12 Bc13 Bc14 Bc15 U0 U1 Hd0 Hd8; apply wf28_intro; repeat constructor; unfold limb_bound; lia|].
  pose proof (telescope_identity (2 ^ 28) c0 c1 c2 c3 c4 c5 c6 c7 c8 c9 c10 c11 c12 c13 c14 c15
    k0 k1 k2 k3 k4 k5 k6 k7 l0 l1 l2 l3 l4 l5 l6 l7
    (a8 * a8 + a0 * a0 + a1 * a15 + a9 * a7 + a9 * a15 + a2 * a14 + a10 * a6 + a10 * a14 + a3 * a13 + a11 * a5 + a11 * a13 + a4 * a12 + a12 * a4 + a12 * a12 + a5 * a11 + a13 * a3 + a13 * a11 + a6 * a10 + a14 * a2 + a14 * a10 + a7 * a9 + a15 * a1 + a15 * a9)
    (a0 * a8 + a8 * a0 + a8 * a8 + a9 * a15 + a1 * a7 + a1 * a15 + a9 * a7 + a9 * a15 + a10 * a14 + a2 * a6 + a2 * a14 + a10 * a6 + a10 * a14 + a11 * a13 + a3 * a5 + a3 * a13 + a11 * a5 + a11 * a13 + a12 * a12 + a4 * a4 + a4 * a12 + a12 * a4 + a12 * a12 + a13 * a11 + a5 * a3 + a5 * a11 + a13 * a3 + a13 * a11 + a14 * a10 + a6 * a2 + a6 * a10 + a14 * a2 + a14 * a10 + a15 * a9 + a7 * a1 + a7 * a9 + a15 * a1 + a15 * a9) (a8 * a9 + a0 * a1 + a9 * a8 + a1 * a0 + a2 * a15 + a10 * a7 + a10 * a15 + a3 * a14 + a11 * a6 + a11 * a14 + a4 * a13 + a12 * a5 + a12 * a13 + a5 * a12 + a13 * a4 + a13 * a12 + a6 * a11 + a14 * a3 + a14 * a11 + a7 * a10 + a15 * a2 + a15 * a10)
    (a0 * a9 + a8 * a1 + a8 * a9 + a1 * a8 + a9 * a0 + a9 * a8 + a10 * a15 + a2 * a7 + a2 * a15 + a10 * a7 + a10 * a15 + a11 * a14 + a3 * a6 + a3 * a14 + a11 * a6 + a11 * a14 + a12 * a13 + a4 * a5 + a4 * a13 + a12 * a5 + a12 * a13 + a13 * a12 + a5 * a4 + a5 * a12 + a13 * a4 + a13 * a12 + a14 * a11 + a6 * a3 + a6 * a11 + a14 * a3 + a14 * a11 + a15 * a10 + a7 * a2 + a7 * a10 + a15 * a2 + a15 * a10) (a8 * a10 + a0 * a2 + a9 * a9 + a1 * a1 + a10 * a8 + a2 * a0 + a3 * a15 + a11 * a7 + a11 * a15 + a4 * a14 + a12 * a6 + a12 * a14 + a5 * a13 + a13 * a5 + a13 * a13 + a6 * a12 + a14 * a4 + a14 * a12 + a7 * a11 + a15 * a3 + a15 * a11)
    (a0 * a10 + a8 * a2 + a8 * a10 + a1 * a9 + a9 * a1 + a9 * a9 + a2 * a8 + a10 * a0 + a10 * a8 + a11 * a15 + a3 * a7 + a3 * a15 + a11 * a7 + a11 * a15 + a12 * a14 + a4 * a6 + a4 * a14 + a12 * a6 + a12 * a14 + a13 * a13 + a5 * a5 + a5 * a13 + a13 * a5 + a13 * a13 + a14 * a12 + a6 * a4 + a6 * a12 + a14 * a4 + a14 * a12 + a15 * a11 + a7 * a3 + a7 * a11 + a15 * a3 + a15 * a11) (a8 * a11 + a0 * a3 + a9 * a10 + a1 * a2 + a10 * a9 + a2 * a1 + a11 * a8 + a3 * a0 + a4 * a15 + a12 * a7 + a12 * a15 + a5 * a14 + a13 * a6 + a13 * a14 + a6 * a13 + a14 * a5 + a14 * a13 + a7 * a12 + a15 * a4 + a15 * a12)
    (a0 * a11 + a8 * a3 + a8 * a11 + a1 * a10 + a9 * a2 + a9 * a10 + a2 * a9 + a10 * a1 + a10 * a9 + a3 * a8 + a11 * a0 + a11 * a8 + a12 * a15 + a4 * a7 + a4 * a15 + a12 * a7 + a12 * a15 + a13 * a14 + a5 * a6 + a5 * a14 + a13 * a6 + a13 * a14 + a14 * a13 + a6 * a5 + a6 * a13 + a14 * a5 + a14 * a13 + a15 * a12 + a7 * a4 + a7 * a12 + a15 * a4 + a15 * a12) (a8 * a12 + a0 * a4 + a9 * a11 + a1 * a3 + a10 * a10 + a2 * a2 + a11 * a9 + a3 * a1 + a12 * a8 + a4 * a0 + a5 * a15 + a13 * a7 + a13 * a15 + a6 * a14 + a14 * a6 + a14 * a14 + a7 * a13 + a15 * a5 + a15 * a13)
    (a0 * a12 + a8 * a4 + a8 * a12 + a1 * a11 + a9 * a3 + a9 * a11 + a2 * a10 + a10 * a2 + a10 * a10 + a3 * a9 + a11 * a1 + a11 * a9 + a4 * a8 + a12 * a0 + a12 * a8 + a13 * a15 + a5 * a7 + a5 * a15 + a13 * a7 + a13 * a15 + a14 * a14 + a6 * a6 + a6 * a14 + a14 * a6 + a14 * a14 + a15 * a13 + a7 * a5 + a7 * a13 + a15 * a5 + a15 * a13) (a8 * a13 + a0 * a5 + a9 * a12 + a1 * a4 + a10 * a11 + a2 * a3 + a11 * a10 + a3 * a2 + a12 * a9 + a4 * a1 + a13 * a8 + a5 * a0 + a6 * a15 + a14 * a7 + a14 * a15 + a7 * a14 + a15 * a6 + a15 * a14)
    (a0 * a13 + a8 * a5 + a8 * a13 + a1 * a12 + a9 * a4 + a9 * a12 + a2 * a11 + a10 * a3 + a10 * a11 + a3 * a10 + a11 * a2 + a11 * a10 + a4 * a9 + a12 * a1 + a12 * a9 + a5 * a8 + a13 * a0 + a13 * a8 + a14 * a15 + a6 * a7 + a6 * a15 + a14 * a7 + a14 * a15 + a15 * a14 + a7 * a6 + a7 * a14 + a15 * a6 + a15 * a14) (a8 * a14 + a0 * a6 + a9 * a13 + a1 * a5 + a10 * a12 + a2 * a4 + a11 * a11 + a3 * a3 + a12 * a10 + a4 * a2 + a13 * a9 + a5 * a1 + a14 * a8 + a6 * a0 + a7 * a15 + a15 * a7 + a15 * a15)
    (a0 * a14 + a8 * a6 + a8 * a14 + a1 * a13 + a9 * a5 + a9 * a13 + a2 * a12 + a10 * a4 + a10 * a12 + a3 * a11 + a11 * a3 + a11 * a11 + a4 * a10 + a12 * a2 + a12 * a10 + a5 * a9 + a13 * a1 + a13 * a9 + a6 * a8 + a14 * a0 + a14 * a8 + a15 * a15 + a7 * a7 + a7 * a15 + a15 * a7 + a15 * a15) (a8 * a15 + a0 * a7 + a9 * a14 + a1 * a6 + a10 * a13 + a2 * a5 + a11 * a12 + a3 * a4 + a12 * a11 + a4 * a3 + a13 * a10 + a5 * a2 + a14 * a9 + a6 * a1 + a15 * a8 + a7 * a0)
    (a0 * a15 + a8 * a7 + a8 * a15 + a1 * a14 + a9 * a6 + a9 * a14 + a2 * a13 + a10 * a5 + a10 * a13 + a3 * a12 + a11 * a4 + a11 * a12 + a4 * a11 + a12 * a3 + a12 * a11 + a5 * a10 + a13 * a2 + a13 * a10 + a6 * a9 + a14 * a1 + a14 * a9 + a7 * a8 + a15 * a0 + a15 * a8) u0 u1 d0 (c1 + u1) d8 (c9 + u0)) as T.
  specialize_all T. exists ((a8 + 2 ^ 28 * (a9 + 2 ^ 28 * (a10 + 2 ^ 28 * (a11 + 2 ^ 28 * (a12 + 2 ^ 28 * (a13 + 2 ^ 28 * (a14 + 2 ^ 28 * a15))))))) * (a8 + 2 ^ 28 * (a9 + 2 ^ 28 * (a10 + 2 ^ 28 * (a11 + 2 ^ 28 * (a12 + 2 ^ 28 * (a13 + 2 ^ 28 * (a14 + 2 ^ 28 * a15))))))) + (((a1 + a9) * (a7 + a15) + (a2 + a10) * (a6 + a14) + (a3 + a11) * (a5 + a13) + (a4 + a12) * (a4 + a12) + (a5 + a13) * (a3 + a11) + (a6 + a14) * (a2 + a10) + (a7 + a15) * (a1 + a9)) + 2 ^ 28 * (((a2 + a10) * (a7 + a15) + (a3 + a11) * (a6 + a14) + (a4 + a12) * (a5 + a13) + (a5 + a13) * (a4 + a12) + (a6 + a14) * (a3 + a11) + (a7 + a15) * (a2 + a10)) + 2 ^ 28 * (((a3 + a11) * (a7 + a15) + (a4 + a12) * (a6 + a14) + (a5 + a13) * (a5 + a13) + (a6 + a14) * (a4 + a12) + (a7 + a15) * (a3 + a11)) + 2 ^ 28 * (((a4 + a12) * (a7 + a15) + (a5 + a13) * (a6 + a14) + (a6 + a14) * (a5 + a13) + (a7 + a15) * (a4 + a12)) + 2 ^ 28 * (((a5 + a13) * (a7 + a15) + (a6 + a14) * (a6 + a14) + (a7 + a15) * (a5 + a13)) + 2 ^ 28 * (((a6 + a14) * (a7 + a15) + (a7 + a15) * (a6 + a14)) + 2 ^ 28 * ((a7 + a15) * (a7 + a15)))))))) - ((a1 * a7 + a2 * a6 + a3 * a5 + a4 * a4 + a5 * a3 + a6 * a2 + a7 * a1) + 2 ^ 28 * ((a2 * a7 + a3 * a6 + a4 * a5 + a5 * a4 + a6 * a3 + a7 * a2) + 2 ^ 28 * ((a3 * a7 + a4 * a6 + a5 * a5 + a6 * a4 + a7 * a3) + 2 ^ 28 * ((a4 * a7 + a5 * a6 + a6 * a5 + a7 * a4) + 2 ^ 28 * ((a5 * a7 + a6 * a6 + a7 * a5) + 2 ^ 28 * ((a6 * a7 + a7 * a6) + 2 ^ 28 * (a7 * a7))))))) + l7). unfold val28. cbn [eval]. rewrite p_X.
  pose proof (square_identity (2 ^ 28) a0 a1 a2 a3 a4 a5 a6 a7 a8 a9 a10 a11 a12 a13 a14 a15) as I. close28 T I.
Qed.
