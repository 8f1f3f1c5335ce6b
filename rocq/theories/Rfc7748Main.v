(** The crate's ladder and X448 of RFC 7748. *)
Require Import ZArith List Bool Lia Ring Field Zpow_facts.
From Verif Require Import Base BaseProofs SpecParams SpecField SpecCurve SpecMontgomery SpecRfc7748 FieldTheory FieldBackend Backends BackendLaws
  EdwardsProofs ScalarModel ScalarProofs ScalarProofs2 ScalarMain ScalarMulProofs EdwardsTheory EdwardsMain MontTheory Ladder MontCurves MontgomeryModel MontgomeryProofs MontgomeryMain.
Import ListNotations.
Open Scope F_scope.
Local Opaque fadd fsub fmul fopp fdiv finv fpow of_Z.

Definition st (s : xstate) : (F * F) * (F * F) := ((of_Z (x_2 s), of_Z (z_2 s)), (of_Z (x_3 s), of_Z (z_3 s))).
Lemma of_mod : forall a, of_Z (a mod p) = of_Z a. Proof. intro a. apply of_Z_eq. apply Zmod_mod. Qed.
Lemma of_sq : forall a, of_Z (a ^ 2) = of_Z a * of_Z a. Proof. intro a. rewrite Z.pow_2_r. apply of_Z_mul. Qed.

Lemma st_swap : forall c s, st (cswap c s) = lswap c (st s). Proof. intros [] s; reflexivity. Qed.
Lemma mA : mont_A = of_Z 4 * of_Z rfc_a24 + of_Z 2.
Proof. unfold mont_A, rfc_a24. rewrite <- of_Z_mul, <- of_Z_add. apply of_Z_eq. reflexivity. Qed.
Lemma st_step : forall u s b, st (x448_step u s b) = let y := lswap (xorb (swap s) b) (st s) in lstep (of_Z u) (fst y) (snd y).
Proof.
  intros u s b. cbv zeta. rewrite <- st_swap. unfold x448_step. set (t := cswap _ s). clearbody t. destruct t as [x2 z2 x3 z3 w].
  unfold st, lstep. cbn [x_2 z_2 x_3 z_3 fst snd]. repeat (rewrite ?of_mod, ?of_sq, ?of_Z_mul, ?of_Z_add, ?of_Z_sub).
  rewrite mA. assert (H4 : of_Z 4 = 1 + 1 + 1 + 1) by (rewrite <- !of_Z_add; reflexivity). assert (H2 : of_Z 2 = 1 + 1) by (rewrite <- !of_Z_add; reflexivity).
  rewrite H4, H2. f_equal; f_equal; ring.
Qed.
Lemma swap_step : forall u s b, swap (x448_step u s b) = b. Proof. reflexivity. Qed.
Lemma st_loop : forall u k n s, lloop (of_Z u) (rev (map (fun i => Z.testbit k (Z.of_nat i)) (seq 0 n))) (swap s) (st s) = fst (st (x448_loop u k n s)).
Proof.
  intros u k. induction n as [|n IH]; intro s; [reflexivity|]. rewrite seq_S, map_app, rev_app_distr. cbn [map rev app lloop x448_loop]. rewrite Nat.add_0_l.
  rewrite <- IH, swap_step, st_step. reflexivity.
Qed.
Lemma swap_loop : forall u k n s, swap (x448_loop u k (S n) s) = Z.testbit k 0.
Proof. intros u k. induction n as [|n IH]; intro s; [reflexivity|]. change (x448_loop u k (S (S n)) s) with (x448_loop u k (S n) (x448_step u s (Z.testbit k (Z.of_nat (S n))))). apply IH. Qed.
Lemma ladder_even : forall k u, Z.even k = true ->
  lval (lloop (of_Z u) (rev (map (fun i => Z.testbit k (Z.of_nat i)) (seq 0 448))) false ((1, 0), (of_Z u, 1))) = of_Z (x448_ladder k u).
Proof.
  intros k u E. unfold x448_ladder. set (s0 := mkX 1 0 u 1 false). change (((1, 0), (of_Z u, 1))) with (st s0). change false with (swap s0) at 1. rewrite st_loop.
  assert (W : swap (x448_loop u k 448 s0) = false) by (rewrite (swap_loop u k 447 s0), Z.bit0_odd, <- Z.negb_even, E; reflexivity).
  rewrite W. cbn [cswap]. generalize (x448_loop u k 448 s0). intro s. unfold lval, st. cbn [fst snd]. rewrite of_mod, of_Z_mul, of_Z_pow by discriminate. reflexivity.
Qed.

Lemma bits_map : forall s, is_scalar s -> scalar_bits s = map (fun i => Z.testbit (sval s) (Z.of_nat i)) (seq 0 448).
Proof.
  intros s Hs. destruct (scalar_bits_spec s Hs) as [L N]. apply (nth_ext _ _ false false).
  - rewrite map_length, seq_length. exact L.
  - intros i Hi. rewrite L in Hi. rewrite N by exact Hi.
    rewrite (nth_indep _ false (Z.testbit (sval s) (Z.of_nat 0))) by (rewrite map_length, seq_length; exact Hi).
    rewrite (map_nth (fun i => Z.testbit (sval s) (Z.of_nat i))), seq_nth by exact Hi. reflexivity.
Qed.
Lemma ladder_range : forall k u, (0 <= x448_ladder k u < p)%Z.
Proof. intros k u. unfold x448_ladder. apply Z.mod_pos_bound. reflexivity. Qed.

Theorem even_ladder : forall B, shipped B -> forall b s, bytes 56 b -> is_scalar s -> Z.even (sval s) = true ->
  mp_mul B b s = Ok (le_bytes 56 (x448_ladder (sval s) (le_val b mod p))).
Proof.
  intros B H b s Hb Hs E. rewrite (mp_mul_ok B (shipped_laws B H) b s Hb), (bits_map s Hs). rewrite <- (of_mod (le_val b)), (ladder_even _ _ E).
  rewrite fval_of_Z, Z.mod_small by apply ladder_range. reflexivity.
Qed.
Theorem crate_x448 : forall B, shipped B -> forall k u, bytes 56 k -> bytes 56 u ->
  mp_mul B u (scalar_from_bytes (clamp448 k)) = Ok (rfc_x448 k u).
Proof.
  intros B H k u Hk Hu. destruct (clamp_bytes k Hk) as [Hc Ev]. destruct (from_bytes_scalar _ Hc) as [Hs Vs].
  rewrite (even_ladder B H u _ Hu Hs) by (rewrite Vs; exact Ev). rewrite Vs. reflexivity.
Qed.

Lemma x448_bytes : forall k u, bytes 56 (rfc_x448 k u). Proof. intros k u. apply le_bytes_bytes. Qed.
Theorem x448_exchange : forall a b u, bytes 56 a -> bytes 56 b -> bytes 56 u -> rfc_x448 a (rfc_x448 b u) = rfc_x448 b (rfc_x448 a u).
Proof.
  intros a b u Ha Hb Hu. set (B := u32_backend). assert (H : shipped B) by (left; reflexivity).
  destruct (from_bytes_scalar _ (proj1 (clamp_bytes a Ha))) as [Sa _]. destruct (from_bytes_scalar _ (proj1 (clamp_bytes b Hb))) as [Sb _].
  destruct (dh B H u _ _ Hu Sa Sb) as (r & E1 & E2).
  rewrite (crate_x448 B H a u Ha Hu) in E1. cbn [bind] in E1. rewrite (crate_x448 B H b _ Hb (x448_bytes _ _)) in E1.
  rewrite (crate_x448 B H b u Hb Hu) in E2. cbn [bind] in E2. rewrite (crate_x448 B H a _ Ha (x448_bytes _ _)) in E2.
  apply ok_inj in E1. apply ok_inj in E2. rewrite E2. symmetry. exact E1.
Qed.
