(** Proofs for C93: how many secrets share a public key, and how many public keys there are. *)
Require Import ZArith Znumtheory List Bool Lia.
From Verif Require Import Base BaseProofs SpecParams SpecField SpecCurve SpecMontgomery SpecTwist SpecDecaf SpecRfc8032 SpecExponent SpecCount FieldTheory
  FieldBackend Backends FieldMain ScalarModel ScalarProofs ScalarMain MontgomeryModel MontgomeryMain TwistPrime MontOrder Signature SignatureMain ApiExpr ExponentMain TwistMain
  CountStrings CountTotals GroupOrder ScalarProofs2 EdwardsMain EdwardsProofs.
Import ListNotations.
Open Scope Z_scope.
Local Opaque le_bytes ell ell_twist p fadd fsub fmul fopp fdiv finv fpow of_Z.

(** ** Clamping as arithmetic *)
Lemma land_252_byte : forall x, 0 <= x < 2 ^ 8 -> Z.land x 252 = x - x mod 4.
Proof.
  intros x H. change 252 with (Z.land 255 (Z.lnot 3)). rewrite Z.land_assoc. change 255 with (Z.ones 8). rewrite Z.land_ones by lia.
  rewrite (Z.mod_small x) by exact H. change (Z.lnot 3) with (Z.lnot (Z.ones 2)). fold (Z.ldiff x (Z.ones 2)). rewrite <- Z.ldiff_land.
  rewrite Z.ldiff_ones_r by lia. rewrite Z.shiftl_mul_pow2, Z.shiftr_div_pow2 by lia. change (2 ^ 2) with 4. pose proof (Z.div_mod x 4 ltac:(lia)). lia.
Qed.
Lemma bits_128 : forall n, 0 <= n -> Z.testbit 128 n = (7 =? n).
Proof. intros n Hn. change 128 with (2 ^ 7). apply Z.pow2_bits_eqb. lia. Qed.
Lemma lor_128_byte : forall w, 0 <= w < 2 ^ 8 -> Z.lor w 128 = w mod 128 + 128.
Proof.
  intros w H. change (w mod 128) with (w mod 2 ^ 7). assert (E : Z.lor w 128 = Z.lor (w mod 2 ^ 7) 128).
  { apply Z.bits_inj'. intros n Hn. rewrite !Z.lor_spec, (bits_128 n Hn).
    destruct (Z.eqb_spec 7 n) as [N|N]; [rewrite !orb_true_r; reflexivity|rewrite !orb_false_r].
    destruct (Z_lt_le_dec n 7) as [Ln|Ln]; [rewrite Z.mod_pow2_bits_low by lia; reflexivity|].
    rewrite Z.mod_pow2_bits_high by lia. destruct (Z.eq_dec w 0) as [->|W]; [apply Z.bits_0|]. apply Z.bits_above_log2; [lia|].
    assert (Z.log2 w < 8) by (apply Z.log2_lt_pow2; lia). lia. }
  rewrite E. assert (A : Z.land (w mod 2 ^ 7) 128 = 0).
  { apply Z.bits_inj'. intros n Hn. rewrite Z.land_spec, Z.bits_0, (bits_128 n Hn).
    destruct (Z.eqb_spec 7 n) as [<-|N]; [|apply andb_false_r]. rewrite Z.mod_pow2_bits_high by lia. reflexivity. }
  rewrite <- (Z.lxor_lor _ _ A), <- (Z.add_nocarry_lxor _ _ A). reflexivity.
Qed.
Lemma clamp_val : forall k, bytes 56 k -> le_val (clamp448 k) = 4 * (le_val k mod 2 ^ 447 / 4) + 2 ^ 447.
Proof.
  intros k [Len Fa]. destruct k as [|x r]; [discriminate|]. cbn [clamp448]. cbn [length] in Len. apply Nat.succ_inj in Len.
  assert (Nr : r <> []) by (intro E; rewrite E in Len; discriminate). pose proof (app_removelast_last 0 Nr) as Er.
  inversion Fa as [|? ? Hx Hr]; subst.
  assert (Hl : 0 <= last r 0 < 2 ^ 8). { rewrite Er in Hr. apply Forall_app in Hr. destruct Hr as [_ Hr]. inversion Hr; subst. assumption. }
  assert (Ll : length (removelast r) = 54%nat). { rewrite Er, app_length in Len. cbn [length] in Len. lia. }
  assert (V : forall y w, le_val (y :: removelast r ++ [w]) = y + 2 ^ 8 * eval 8 (removelast r) + 2 ^ 440 * w).
  { intros y w. unfold le_val. cbn [eval]. rewrite eval_app by lia. rewrite Ll. cbn [eval]. change (8 * Z.of_nat 54) with 432.
    replace (2 ^ 440) with (2 ^ 8 * 2 ^ 432) by reflexivity. ring. }
  assert (Re : 0 <= eval 8 (removelast r) < 2 ^ 432).
  { assert (Ai : array 8 54 (removelast r)). { split; [exact Ll|]. rewrite Er in Hr. apply Forall_app in Hr. exact (proj1 Hr). }
    exact (array_range 8 54 _ ltac:(discriminate) Ai). }
  assert (Vk : le_val (x :: r) = x + 2 ^ 8 * eval 8 (removelast r) + 2 ^ 440 * last r 0) by (rewrite Er at 1; apply V).
  rewrite V, Vk. rewrite (land_252_byte x Hx), (lor_128_byte _ Hl). set (e := eval 8 (removelast r)) in *. set (w := last r 0) in *. clearbody e w.
  clear V Vk Er Nr Len Ll Hr Fa r. pose proof (Z.div_mod w 128 ltac:(lia)) as Dw. pose proof (Z.mod_pos_bound w 128 ltac:(lia)) as Rw.
  pose proof (Z.div_mod x 4 ltac:(lia)) as Dx. pose proof (Z.mod_pos_bound x 4 ltac:(lia)) as Rx.
  assert (P1 : 2 ^ 447 = 2 ^ 440 * 128) by reflexivity. assert (P2 : 2 ^ 440 = 2 ^ 8 * 2 ^ 432) by reflexivity. assert (P3 : 2 ^ 8 = 256) by reflexivity.
  assert (M : (x + 2 ^ 8 * e + 2 ^ 440 * w) mod 2 ^ 447 = x + 2 ^ 8 * e + 2 ^ 440 * (w mod 128)).
  { symmetry. apply Z.mod_unique_pos with (w / 128); [|rewrite P1, Dw at 1; rewrite <- Dw; rewrite Dw at 1; ring].
    rewrite P1. nia. }
  rewrite M. assert (D : (x + 2 ^ 8 * e + 2 ^ 440 * (w mod 128)) / 4 = x / 4 + 64 * e + 2 ^ 438 * (w mod 128)).
  { symmetry. apply Z.div_unique_pos with (x mod 4); [lia|]. rewrite Dx at 1. replace (2 ^ 440) with (4 * 2 ^ 438) by reflexivity. rewrite P3. ring. }
  rewrite D, P1. replace (2 ^ 440) with (4 * 2 ^ 438) by reflexivity. rewrite P3. rewrite Dx at 1. ring.
Qed.

(** ** The secrets with one clamped value *)
Definition clamped (c : Z) : Prop := (4 | c) /\ 2 ^ 447 <= c < 2 ^ 448.
Lemma powers : exists M, 2 ^ 447 = M /\ 2 ^ 448 = 2 * M /\ (4 | M) /\ 0 < M.
Proof. exists (2 ^ 447). split; [reflexivity|]. split; [reflexivity|]. split; [exists (2 ^ 445); reflexivity|reflexivity]. Qed.
Lemma string_range : forall k, bytes 56 k -> 0 <= le_val k < 2 ^ 448.
Proof. intros k Hk. exact (array_range 8 56 k ltac:(discriminate) Hk). Qed.
Lemma clamp_clamped : forall k, bytes 56 k -> clamped (le_val (clamp448 k)).
Proof. intros k Hk. exact (proj2 (clamp_facts k Hk)). Qed.
Lemma clamp_string : forall k, bytes 56 k -> le_bytes 56 (le_val (clamp448 k)) = clamp448 k.
Proof. intros k Hk. apply bytes_le_bytes. exact (proj1 (clamp_facts k Hk)). Qed.
Lemma clamp_values : forall M c v, (4 | M) -> 0 < M -> (4 | c) -> M <= c < 2 * M -> 0 <= v < 2 * M ->
  (4 * (v mod M / 4) + M = c <-> exists i, 0 <= i < 8 /\ v = c - M + i mod 4 + M * (i / 4)).
Proof.
  intros M c v [m Hm] Mp [q Hq] Rc Rv. split.
  - intro E. pose proof (Z.div_mod v M ltac:(lia)) as D1. pose proof (Z.mod_pos_bound v M Mp) as R1. pose proof (Z.div_mod (v mod M) 4 ltac:(lia)) as D2.
    pose proof (Z.mod_pos_bound (v mod M) 4 ltac:(lia)) as R2. set (t := v / M) in *. set (j := (v mod M) mod 4) in *. set (w := v mod M) in *. clearbody t j.
    assert (T : t = 0 \/ t = 1) by nia. exists (j + 4 * t). split; [lia|].
    replace ((j + 4 * t) mod 4) with j by (apply Z.mod_unique_pos with t; lia). replace ((j + 4 * t) / 4) with t by (apply Z.div_unique_pos with j; lia). lia.
  - intros (i & Hi & E). pose proof (Z.div_mod i 4 ltac:(lia)) as D. pose proof (Z.mod_pos_bound i 4 ltac:(lia)) as R. set (j := i mod 4) in *. set (t := i / 4) in *. clearbody j t.
    assert (W : v mod M = c - M + j) by (symmetry; apply Z.mod_unique_pos with t; lia).
    rewrite W. replace ((c - M + j) / 4) with (q - m) by (apply Z.div_unique_pos with j; lia). lia.
Qed.
Theorem clamp_strings : forall c, clamped c -> exactly 8 (fun k => bytes 56 k /\ le_val (clamp448 k) = c).
Proof.
  intros c [D R]. destruct powers as (M & E7 & E8 & DM & MP). rewrite E7, E8 in R.
  assert (V : forall i, 0 <= i < 8 -> 0 <= c - M + i mod 4 + M * (i / 4) < 2 ^ 448).
  { intros i Hi. rewrite E8. pose proof (Z.div_mod i 4 ltac:(lia)). pose proof (Z.mod_pos_bound i 4 ltac:(lia)). destruct D as [q ->]. destruct DM as [m ->].
    assert (i / 4 = 0 \/ i / 4 = 1) as [->| ->] by lia; lia. }
  exists (map (fun i => le_bytes 56 (c - M + Z.of_nat i mod 4 + M * (Z.of_nat i / 4))) (seq 0 8)). split; [|split].
  - apply map_NoDup_range. intros i j Hi Hj E. apply (f_equal le_val) in E. rewrite !le_val_le_bytes in E by (apply V; lia).
    pose proof (Z.div_mod (Z.of_nat i) 4 ltac:(lia)). pose proof (Z.mod_pos_bound (Z.of_nat i) 4 ltac:(lia)).
    pose proof (Z.div_mod (Z.of_nat j) 4 ltac:(lia)). pose proof (Z.mod_pos_bound (Z.of_nat j) 4 ltac:(lia)). destruct DM as [m ->].
    assert (Z.of_nat i / 4 = Z.of_nat j / 4) by nia. nia.
  - reflexivity.
  - intro k. rewrite in_map_iff. split.
    + intros (i & <- & Hin). apply in_seq in Hin. split; [apply le_bytes_bytes|]. rewrite clamp_val by apply le_bytes_bytes.
      rewrite le_val_le_bytes by (apply V; lia). rewrite E7. apply (clamp_values M c _ DM MP D R); [rewrite <- E8; apply V; lia|].
      exists (Z.of_nat i). split; [lia|reflexivity].
    + intros [Hk E]. rewrite (clamp_val k Hk), E7 in E. apply (clamp_values M c _ DM MP D R) in E; [|rewrite <- E8; exact (string_range k Hk)].
      destruct E as (i & Hi & E). exists (Z.to_nat i). split; [|apply in_seq; lia]. rewrite Z2Nat.id by lia. rewrite <- E. apply bytes_le_bytes. exact Hk.
Qed.
Lemma clamp_fixed : forall c, clamped c -> bytes 56 (le_bytes 56 c) /\ le_val (clamp448 (le_bytes 56 c)) = c /\ clamp448 (le_bytes 56 c) = le_bytes 56 c.
Proof.
  intros c [D R]. destruct powers as (M & E7 & E8 & DM & MP). assert (Hb : bytes 56 (le_bytes 56 c)) by apply le_bytes_bytes.
  assert (V : le_val (clamp448 (le_bytes 56 c)) = c).
  { rewrite clamp_val by exact Hb. rewrite le_val_le_bytes by lia. rewrite E7. rewrite E7, E8 in R. apply (clamp_values M c c DM MP D R); [lia|]. exists 4. split; [lia|].
    change (4 mod 4) with 0. change (4 / 4) with 1. lia. }
  split; [exact Hb|]. split; [exact V|]. rewrite <- (clamp_string _ Hb), V. reflexivity.
Qed.

(** ** The results of all secrets *)
Lemma keys_count : forall (g : Z -> list Z) a n (D : list Z -> Prop), 0 <= n -> (forall i, 0 <= i < n -> clamped (a + 4 * i)) ->
  (forall i j, 0 <= i < n -> 0 <= j < n -> g (a + 4 * i) = g (a + 4 * j) -> i = j) ->
  (forall c, clamped c -> exists i, 0 <= i < n /\ g c = g (a + 4 * i)) ->
  (forall r, D r <-> exists k, bytes 56 k /\ g (le_val (clamp448 k)) = r) -> exactly n D.
Proof.
  intros g a n D Hn C I A HD. assert (X : exists m, Z.of_nat m = n) by (exists (Z.to_nat n); lia). destruct X as [m Em].
  exists (map (fun i => g (a + 4 * Z.of_nat i)) (seq 0 m)). split; [|split].
  - apply map_NoDup_range. intros i j Hi Hj E. apply I in E; lia.
  - rewrite map_length, seq_length. exact Em.
  - intro r. rewrite HD, in_map_iff. split.
    + intros (i & <- & Hin). apply in_seq in Hin. destruct (clamp_fixed (a + 4 * Z.of_nat i)) as (Hb & V & _); [apply C; lia|].
      exists (le_bytes 56 (a + 4 * Z.of_nat i)). rewrite V. split; [exact Hb|reflexivity].
    + intros (k & Hk & <-). destruct (A _ (clamp_clamped k Hk)) as (i & Hi & E). exists (Z.to_nat i). split; [rewrite Z2Nat.id by lia; symmetry; exact E|apply in_seq; lia].
Qed.

Section X448.
Variable B : backend.
Hypothesis S : shipped B.
Variable u : list Z.
Hypothesis Hu : bytes 56 u.
Hypothesis NL : ~ u_low (le_val u).
Definition x448_of (c : Z) : res (list Z) := mp_mul B u (scalar_from_bytes (le_bytes 56 c)).
Lemma x448_of_clamp : forall k, bytes 56 k -> x448_of (le_val (clamp448 k)) = mp_mul B u (scalar_from_bytes (clamp448 k)).
Proof. intros k Hk. unfold x448_of. rewrite clamp_string by exact Hk. reflexivity. Qed.
Lemma x448_total : forall c, clamped c -> exists r, x448_of c = Ok r.
Proof.
  intros c Hc. destruct (clamp_fixed c Hc) as (Hb & _ & _). destruct (mod_p B S u u (scalar_from_bytes (le_bytes 56 c)) Hu Hu) as (r & E & _).
  - exact (proj1 (proj1 scalar_bytes_bijection _ Hb)).
  - reflexivity.
  - exists r. exact E.
Qed.
Lemma x448_same : forall c c', clamped c -> clamped c' ->
  (x448_of c = x448_of c' <-> c = c' \/ (u_on_curve (le_val u) /\ c + c' = 8 * ell) \/ (u_on_twist (le_val u) /\ c + c' = 4 * ell_twist)).
Proof.
  intros c c' Hc Hc'. destruct (clamp_fixed c Hc) as (Hb & V & E). destruct (clamp_fixed c' Hc') as (Hb' & V' & E').
  pose proof (x448_equal B S _ _ u Hb Hb' Hu NL) as K. cbv zeta in K. rewrite V, V', E, E' in K. exact K.
Qed.
Definition out (c : Z) : list Z := match x448_of c with Ok r => r | _ => [] end.
Lemma out_ok : forall c r, clamped c -> (x448_of c = Ok r <-> out c = r).
Proof. intros c r Hc. unfold out. destruct (x448_total c Hc) as [r' ->]. split; [intro E; exact (ok_inj _ _ _ E)|intros ->; reflexivity]. Qed.
Lemma out_same : forall c c', clamped c -> clamped c' -> (out c = out c' <-> x448_of c = x448_of c').
Proof. intros c c' Hc Hc'. unfold out. destruct (x448_total c Hc) as [r ->]. destruct (x448_total c' Hc') as [r' ->]. split; [intros ->; reflexivity|apply ok_inj]. Qed.
Lemma out_image : forall r, (exists k, bytes 56 k /\ mp_mul B u (scalar_from_bytes (clamp448 k)) = Ok r) <-> exists k, bytes 56 k /\ out (le_val (clamp448 k)) = r.
Proof.
  intro r. split; intros (k & Hk & E); exists k; (split; [exact Hk|]).
  - rewrite <- (x448_of_clamp k Hk) in E. apply (out_ok _ _ (clamp_clamped k Hk)). exact E.
  - rewrite <- (x448_of_clamp k Hk). apply (out_ok _ _ (clamp_clamped k Hk)). exact E.
Qed.

Lemma twin : forall k c', bytes 56 k -> (forall c, clamped c -> (x448_of (le_val (clamp448 k)) = x448_of c <-> le_val (clamp448 k) = c \/ c' = c)) -> clamped c' ->
  c' <> le_val (clamp448 k) ->
  exactly 16 (fun k' => bytes 56 k' /\ mp_mul B u (scalar_from_bytes (clamp448 k')) = mp_mul B u (scalar_from_bytes (clamp448 k))).
Proof.
  intros k c' Hk E Hc' N. apply (exactly_ext _ (fun k' => (bytes 56 k' /\ le_val (clamp448 k') = le_val (clamp448 k)) \/ (bytes 56 k' /\ le_val (clamp448 k') = c'))).
  - intro k'. split.
    + intros [[Hk' Q]|[Hk' Q]]; (split; [exact Hk'|]); rewrite <- (x448_of_clamp k Hk), <- (x448_of_clamp k' Hk'); symmetry; apply E; try exact (clamp_clamped k' Hk').
      * left. symmetry. exact Q.
      * right. symmetry. exact Q.
    + intros [Hk' Q]. rewrite <- (x448_of_clamp k Hk), <- (x448_of_clamp k' Hk') in Q. symmetry in Q. apply E in Q; [|exact (clamp_clamped k' Hk')].
      destruct Q as [Q|Q]; [left|right]; (split; [exact Hk'|symmetry; exact Q]).
  - change 16 with (8 + 8). apply exactly_union; [apply clamp_strings, clamp_clamped, Hk|apply clamp_strings, Hc'|]. intros b [_ Q] [_ Q']. congruence.
Qed.
Lemma single : forall k, bytes 56 k -> (forall c, clamped c -> (x448_of (le_val (clamp448 k)) = x448_of c <-> le_val (clamp448 k) = c)) ->
  exactly 8 (fun k' => bytes 56 k' /\ mp_mul B u (scalar_from_bytes (clamp448 k')) = mp_mul B u (scalar_from_bytes (clamp448 k))).
Proof.
  intros k Hk E. apply (exactly_ext _ (fun k' => bytes 56 k' /\ le_val (clamp448 k') = le_val (clamp448 k))); [|apply clamp_strings, clamp_clamped, Hk].
  intro k'. split; intros [Hk' Q]; (split; [exact Hk'|]).
  - rewrite <- (x448_of_clamp k Hk), <- (x448_of_clamp k' Hk'). symmetry. apply E; [exact (clamp_clamped k' Hk')|symmetry; exact Q].
  - rewrite <- (x448_of_clamp k Hk), <- (x448_of_clamp k' Hk') in Q. symmetry in Q. apply E in Q; [|exact (clamp_clamped k' Hk')]. symmetry. exact Q.
Qed.
End X448.

Lemma closer : 3 * 2 ^ 447 < 8 * ell /\ 4 * ell_twist < 3 * 2 ^ 447. Proof. split; reflexivity. Qed.
Lemma four_ell : (4 | 8 * ell) /\ (4 | 4 * ell_twist). Proof. split; [exists (2 * ell); ring|exists ell_twist; ring]. Qed.
Theorem curve_secrets : forall B, shipped B -> forall k u, bytes 56 k -> bytes 56 u -> u_on_curve (le_val u) -> ~ u_low (le_val u) ->
  exactly (if (8 * ell - 2 ^ 448 <? le_val (clamp448 k)) && negb (le_val (clamp448 k) =? 4 * ell) then 16 else 8)
    (fun k' => bytes 56 k' /\ mp_mul B u (scalar_from_bytes (clamp448 k')) = mp_mul B u (scalar_from_bytes (clamp448 k))).
Proof.
  intros B S k u Hk Hu C NL. assert (NT : ~ u_on_twist (le_val u)) by (intro T; exact (NL (not_both _ C T))).
  pose proof (clamp_clamped k Hk) as Hc. assert (K : forall c, clamped c -> (x448_of B u (le_val (clamp448 k)) = x448_of B u c <-> le_val (clamp448 k) = c \/ le_val (clamp448 k) + c = 8 * ell)).
  { intros c Cc. rewrite (x448_same B S u Hu NL _ _ Hc Cc). tauto. }
  pose proof ell_bounds as EB. pose proof closer as CB. pose proof pows as PW. destruct Hc as [D4 R]. destruct four_ell as [F8 _].
  destruct (Z.ltb_spec (8 * ell - 2 ^ 448) (le_val (clamp448 k))) as [L|L]; [destruct (Z.eqb_spec (le_val (clamp448 k)) (4 * ell)) as [Q|Q]|]; cbn [andb negb].
  - apply (single B u k Hk). intros c Cc. rewrite (K c Cc). lia.
  - apply (twin B u k (8 * ell - le_val (clamp448 k)) Hk); [intros c Cc; rewrite (K c Cc); lia| |lia]. split; [apply Z.divide_sub_r; assumption|lia].
  - apply (single B u k Hk). intros c Cc. rewrite (K c Cc). destruct Cc. lia.
Qed.
Theorem twist_secrets : forall B, shipped B -> forall k u, bytes 56 k -> bytes 56 u -> u_on_twist (le_val u) -> ~ u_low (le_val u) ->
  exactly (if le_val (clamp448 k) <=? 4 * ell_twist - 2 ^ 447 then 16 else 8)
    (fun k' => bytes 56 k' /\ mp_mul B u (scalar_from_bytes (clamp448 k')) = mp_mul B u (scalar_from_bytes (clamp448 k))).
Proof.
  intros B S k u Hk Hu T NL. assert (NT : ~ u_on_curve (le_val u)) by (intro C; exact (NL (not_both _ C T))).
  pose proof (clamp_clamped k Hk) as Hc. assert (K : forall c, clamped c -> (x448_of B u (le_val (clamp448 k)) = x448_of B u c <-> le_val (clamp448 k) = c \/ le_val (clamp448 k) + c = 4 * ell_twist)).
  { intros c Cc. rewrite (x448_same B S u Hu NL _ _ Hc Cc). tauto. }
  pose proof ell_twist_bounds as EB. pose proof closer as CB. pose proof pows as PW. destruct Hc as [D4 R]. destruct four_ell as [_ F8].
  pose proof ell_twist_mod2 as T2. pose proof (Z.div_mod ell_twist 2 ltac:(lia)) as DT.
  assert (NQ : 2 * le_val (clamp448 k) <> 4 * ell_twist) by (destruct D4 as [q ->]; lia).
  destruct (Z.leb_spec (le_val (clamp448 k)) (4 * ell_twist - 2 ^ 447)) as [L|L].
  - apply (twin B u k (4 * ell_twist - le_val (clamp448 k)) Hk); [intros c Cc; rewrite (K c Cc); lia| |lia]. split; [apply Z.divide_sub_r; assumption|lia].
  - apply (single B u k Hk). intros c Cc. rewrite (K c Cc). destruct Cc. lia.
Qed.
Theorem curve_keys : forall B, shipped B -> forall u, bytes 56 u -> u_on_curve (le_val u) -> ~ u_low (le_val u) ->
  exactly (ell + 1 - 2 ^ 445) (fun r => exists k, bytes 56 k /\ mp_mul B u (scalar_from_bytes (clamp448 k)) = Ok r).
Proof.
  intros B S u Hu C NL. assert (NT : ~ u_on_twist (le_val u)) by (intro T; exact (NL (not_both _ C T))).
  pose proof ell_bounds as EB. pose proof closer as CB. pose proof pows as PW. assert (P5 : 2 ^ 447 = 4 * 2 ^ 445) by reflexivity.
  assert (K : forall c c', clamped c -> clamped c' -> (out B u c = out B u c' <-> c = c' \/ c + c' = 8 * ell)).
  { intros c c' Hc Hc'. rewrite (out_same B S u Hu c c' Hc Hc'), (x448_same B S u Hu NL c c' Hc Hc'). tauto. }
  assert (CL : forall i, 0 <= i < ell + 1 - 2 ^ 445 -> clamped (2 ^ 447 + 4 * i)) by (intros i Hi; split; [exists (2 ^ 445 + i); lia|lia]).
  apply (keys_count (out B u) (2 ^ 447)); [lia|exact CL| | |].
  - intros i j Hi Hj E. apply K in E; [|apply CL; exact Hi|apply CL; exact Hj]. lia.
  - intros c Hc. pose proof Hc as [[q Hq] R]. destruct (Z_le_gt_dec c (4 * ell)) as [L|L].
    + exists (q - 2 ^ 445). split; [lia|]. f_equal. lia.
    + exists (2 * ell - q - 2 ^ 445). split; [lia|]. apply K; [exact Hc|apply CL; lia|]. right. lia.
  - intro r. apply (out_image B S u Hu).
Qed.
Theorem twist_keys : forall B, shipped B -> forall u, bytes 56 u -> u_on_twist (le_val u) -> ~ u_low (le_val u) ->
  exactly (2 ^ 446 - (ell_twist + 1) / 2) (fun r => exists k, bytes 56 k /\ mp_mul B u (scalar_from_bytes (clamp448 k)) = Ok r).
Proof.
  intros B S u Hu T NL. assert (NT : ~ u_on_curve (le_val u)) by (intro C; exact (NL (not_both _ C T))).
  pose proof ell_twist_bounds as EB. pose proof closer as CB. pose proof pows as PW. assert (P5 : 2 ^ 447 = 2 * 2 ^ 446) by reflexivity. assert (P6 : 2 ^ 446 = 2 * 2 ^ 445) by reflexivity.
  pose proof ell_twist_mod2 as T2. pose proof (Z.div_mod ell_twist 2 ltac:(lia)) as DT. rewrite T2 in DT. set (h := ell_twist / 2) in *.
  assert (H1 : (ell_twist + 1) / 2 = h + 1) by (symmetry; apply Z.div_unique_pos with 0; lia). rewrite H1. clearbody h. clear H1 T2.
  assert (K : forall c c', clamped c -> clamped c' -> (out B u c = out B u c' <-> c = c' \/ c + c' = 4 * ell_twist)).
  { intros c c' Hc Hc'. rewrite (out_same B S u Hu c c' Hc Hc'), (x448_same B S u Hu NL c c' Hc Hc'). tauto. }
  assert (CL : forall i, 0 <= i < 2 ^ 446 - (h + 1) -> clamped (4 * (h + 1) + 4 * i)) by (intros i Hi; split; [exists (h + 1 + i); ring|lia]).
  apply (keys_count (out B u) (4 * (h + 1))); [lia|exact CL| | |].
  - intros i j Hi Hj E. apply K in E; [|apply CL; exact Hi|apply CL; exact Hj]. lia.
  - intros c Hc. pose proof Hc as [[q Hq] R]. destruct (Z_le_gt_dec c (2 * ell_twist)) as [L|L].
    + exists (ell_twist - q - (h + 1)). split; [lia|]. apply K; [exact Hc|apply CL; lia|]. right. lia.
    + exists (q - (h + 1)). split; [lia|]. f_equal. lia.
  - intro r. apply (out_image B S u Hu).
Qed.

(** ** Clamped secrets on the Edwards curve and in Decaf *)
Lemma clamped_residue : forall c c', clamped c -> clamped c' -> c mod ell = c' mod ell -> c = c'.
Proof.
  intros c c' [D R] [D' R'] E. pose proof ell_bounds as EB. pose proof pows as PW. assert (EL : (ell | c - c')) by (apply Z.mod_divide; [lia|rewrite Zminus_mod, E, Z.sub_diag; reflexivity]).
  apply (four_l ell) in EL; [|exact ell_mod2|apply Z.divide_sub_r; assumption]. destruct EL as [q Hq]. assert (q = 0) by nia. subst q. lia.
Qed.
Lemma sval_clamp : forall k, bytes 56 k -> is_scalar (scalar_from_bytes (clamp448 k)) /\ sval (scalar_from_bytes (clamp448 k)) = le_val (clamp448 k).
Proof. intros k Hk. apply from_bytes_scalar. exact (proj1 (clamp_facts k Hk)). Qed.
Lemma clamped_count : forall g : Z -> list Z, (forall c c', clamped c -> clamped c' -> g c = g c' -> c = c') -> forall D,
  (forall r, D r <-> exists k, bytes 56 k /\ g (le_val (clamp448 k)) = r) -> exactly (2 ^ 445) D.
Proof.
  intros g I D HD. pose proof pows as PW. assert (P5 : 2 ^ 447 = 4 * 2 ^ 445) by reflexivity.
  assert (CL : forall i, 0 <= i < 2 ^ 445 -> clamped (2 ^ 447 + 4 * i)) by (intros i Hi; split; [exists (2 ^ 445 + i); lia|lia]).
  apply (keys_count g (2 ^ 447)); [lia|exact CL| | |exact HD].
  - intros i j Hi Hj E. apply I in E; [lia|apply CL; exact Hi|apply CL; exact Hj].
  - intros c Hc. pose proof Hc as [[q Hq] R]. exists (q - 2 ^ 445). split; [lia|]. f_equal. lia.
Qed.
Theorem ed_clamped_keys : forall B, shipped B -> exactly (2 ^ 445) (fun r => exists k, bytes 56 k /\ sig_public B (scalar_from_bytes (clamp448 k)) = Ok r).
Proof.
  intros B S. apply (clamped_count rfc8032_public).
  - intros c c' Hc Hc' E. apply (clamped_residue c c' Hc Hc'). apply key_inj; [destruct Hc; pose proof pows; lia|destruct Hc'; pose proof pows; lia|exact E].
  - intro r. split; intros (k & Hk & E); exists k; (split; [exact Hk|]); destruct (sval_clamp k Hk) as [Hs Vs].
    + rewrite (public_ok B S _ Hs), Vs in E. exact (ok_inj _ _ _ E).
    + rewrite (public_ok B S _ Hs), Vs, E. reflexivity.
Qed.
Lemma decaf_public : forall B, shipped B -> forall s, is_scalar s -> api_run B (public_key s) = Ok (Some (string_of (sval s))).
Proof.
  intros B S s Hs. pose proof (encoded B S (ETimes EBase s) (conj I Hs)) as K. cbn [calls exponent] in K. fold (sval s) in K. rewrite Z.mul_1_l in K. exact K.
Qed.
Theorem decaf_clamped_keys : forall B, shipped B -> exactly (2 ^ 445) (fun r => exists k, bytes 56 k /\ api_run B (public_key (scalar_from_bytes (clamp448 k))) = Ok (Some r)).
Proof.
  intros B S. apply (clamped_count string_of).
  - intros c c' Hc Hc' E. apply (clamped_residue c c' Hc Hc'). apply string_inj. exact E.
  - intro r. split; intros (k & Hk & E); exists k; (split; [exact Hk|]); destruct (sval_clamp k Hk) as [Hs Vs].
    + rewrite (decaf_public B S _ Hs), Vs in E. exact (ok_some_inj _ _ _ E).
    + rewrite (decaf_public B S _ Hs), Vs, E. reflexivity.
Qed.
(** ** Secrets that are not clamped *)
Lemma raw_count : forall n (D : list Z -> Prop), 0 <= n < ell -> (forall b, bytes 56 b -> (D b <-> le_val b mod ell = n)) ->
  exactly (if n <? 2 ^ 448 - 4 * ell then 5 else 4) (fun b => bytes 56 b /\ D b).
Proof.
  intros n D Hn HD. rewrite <- ell_five by exact Hn. apply (exactly_ext _ (fun b => bytes 56 b /\ le_val b mod ell = n)).
  - intro b. split; intros [Hb E]; (split; [exact Hb|]); apply (HD b Hb); exact E.
  - apply residues; [lia|exact Hn|]. pose proof ell_bounds. lia.
Qed.
Theorem ed_raw_keys : forall B, shipped B -> forall s, is_scalar s ->
  exactly (if sval s mod ell <? 2 ^ 448 - 4 * ell then 5 else 4) (fun b => bytes 56 b /\ sig_public B (scalar_from_bytes b) = sig_public B s).
Proof.
  intros B S s Hs0. pose proof ell_bounds as EB. pose proof pows as PW. apply raw_count; [apply Z.mod_pos_bound; lia|]. intros b Hb. destruct (from_bytes_scalar b Hb) as [Hs Vs].
  rewrite (edwards_keys B S _ _ Hs Hs0), Vs. reflexivity.
Qed.
Theorem decaf_raw_keys : forall B, shipped B -> forall s, is_scalar s ->
  exactly (if sval s mod ell <? 2 ^ 448 - 4 * ell then 5 else 4) (fun b => bytes 56 b /\ api_run B (public_key (scalar_from_bytes b)) = api_run B (public_key s)).
Proof.
  intros B S s Hs0. pose proof ell_bounds as EB. pose proof pows as PW. apply raw_count; [apply Z.mod_pos_bound; lia|]. intros b Hb. destruct (from_bytes_scalar b Hb) as [Hs Vs].
  rewrite (decaf_keys B S _ _ Hs Hs0), Vs. reflexivity.
Qed.

(** ** Cases *)
Theorem base_keys : forall B, shipped B -> exactly (ell + 1 - 2 ^ 445) (fun r => exists k, bytes 56 k /\ mp_mul B (le_bytes 56 5) (scalar_from_bytes (clamp448 k)) = Ok r).
Proof.
  intros B S. destruct weak_case as (_ & _ & C5 & N5 & _). assert (E5 : le_val (le_bytes 56 5) = 5) by (vm_compute; reflexivity).
  apply (curve_keys B S); [apply le_bytes_bytes| |]; rewrite E5; assumption.
Qed.
Lemma secrets_case : forall B, shipped B ->
  (forall n k, In (n, k) [(16, secret_2); (16, secret_3); (8, weak_secret); (8, secret_1)] ->
     exactly n (fun k' => bytes 56 k' /\ mp_mul B (le_bytes 56 5) (scalar_from_bytes (clamp448 k')) = mp_mul B (le_bytes 56 5) (scalar_from_bytes (clamp448 k)))) /\
  (forall n k, In (n, k) [(16, secret_4); (16, secret_5); (8, secret_2)] ->
     exactly n (fun k' => bytes 56 k' /\ mp_mul B (le_bytes 56 6) (scalar_from_bytes (clamp448 k')) = mp_mul B (le_bytes 56 6) (scalar_from_bytes (clamp448 k)))).
Proof.
  intros B S. destruct weak_case as (_ & _ & C5 & N5 & T6 & N6 & _). assert (E5 : le_val (le_bytes 56 5) = 5) by (vm_compute; reflexivity).
  assert (E6 : le_val (le_bytes 56 6) = 6) by (vm_compute; reflexivity). split; intros n k H.
  - pose proof (fun Hk => curve_secrets B S k (le_bytes 56 5) Hk (le_bytes_bytes 56 5)) as K. rewrite E5 in K. specialize (fun Hk => K Hk C5 N5).
    destruct H as [H|[H|[H|[H|[]]]]]; injection H as <- <-; exact (K (le_bytes_bytes 56 _)).
  - pose proof (fun Hk => twist_secrets B S k (le_bytes 56 6) Hk (le_bytes_bytes 56 6)) as K. rewrite E6 in K. specialize (fun Hk => K Hk T6 N6).
    destruct H as [H|[H|[H|[]]]]; injection H as <- <-; exact (K (le_bytes_bytes 56 _)).
Qed.
Lemma raw_case : is_scalar (scalar_from_bytes (le_bytes 56 (2 ^ 445))) /\ is_scalar scalar_one /\ (sval scalar_one mod ell <? 2 ^ 448 - 4 * ell) = true /\
  (sval (scalar_from_bytes (le_bytes 56 (2 ^ 445))) mod ell <? 2 ^ 448 - 4 * ell) = false.
Proof.
  split; [apply from_bytes_scalar; apply le_bytes_bytes|]. split; [exact (proj1 scalar_one_ok)|]. split; vm_compute; reflexivity.
Qed.
