(** When the ladder returns zero, and which secrets share a public key. *)
Require Import ZArith Znumtheory List Bool Lia Ring Field.
From Verif Require Import Base BaseProofs SpecParams SpecField SpecCurve SpecEncoding SpecMontgomery SpecTwist SpecDecaf SpecRfc8032 SpecExponent FieldTheory EdwardsProofs FieldBackend Backends BackendLaws
  FieldMain ScalarModel ScalarProofs ScalarProofs2 ScalarMain EdwardsTheory CurveTheory Primes AbGroup Order GroupOrder TwistedModel EdwardsModel PointSpec EdwardsMain
  MontgomeryModel MontCurves MontgomeryMain MontgomeryFacts TwistPrime MontOrder Rfc8032Main Signature SignatureMain ApiExpr ExponentMain.
Import ListNotations.
Open Scope Z_scope.
Local Opaque fadd fsub fmul fopp fdiv finv fpow of_Z padd pmul SpecCurve.G pzero ell ell_twist mont_mul p le_bytes digits.

Theorem curve_points : exists L : list mpoint, NoDup L /\ (forall P, In P L <-> on_mont mont_A 1%F P) /\ Z.of_nat (length L) = 4 * ell.
Proof.
  pose proof p_pos as PP. assert (exists n, Z.of_nat n = p) as [n Hn] by (exists (Z.to_nat p); apply Z2Nat.id; lia).
  exists (all_pts 1%F n). destruct (all_pts_ok 1%F n (or_introl eq_refl) Hn) as [H1 H2]. split; [exact H1|]. split; [exact H2|]. exact (curve_count n Hn).
Qed.
Theorem twist_points : exists L : list mpoint, NoDup L /\ (forall P, In P L <-> on_mont mont_A (- (1))%F P) /\ Z.of_nat (length L) = 4 * ell_twist.
Proof.
  pose proof p_pos as PP. assert (exists n, Z.of_nat n = p) as [n Hn] by (exists (Z.to_nat p); apply Z2Nat.id; lia).
  exists (all_pts (- (1))%F n). destruct (all_pts_ok (- (1))%F n (or_intror eq_refl) Hn) as [H1 H2]. split; [exact H1|]. split; [exact H2|]. exact (twist_count n Hn).
Qed.
Theorem both_prime : prime ell /\ prime ell_twist. Proof. exact (conj prime_ell prime_ell_twist). Qed.

Lemma u_kinds : forall u, u_on_curve u \/ u_on_twist u.
Proof. intro u. destruct (mont_u_exists (of_Z u)) as (e & v & [->| ->] & H); [left|right]; exists v; exact H. Qed.
Lemma low_iff : forall e u v, curve_or_twist e -> on_mont mont_A e (Some (of_Z u, v)) -> (ucoord (mont_mul mont_A e 2 (Some (of_Z u, v))) = of_Z 0 <-> u_low u).
Proof.
  intros e u v He H. rewrite (ucoord_dbl e He _ H ltac:(discriminate)). cbn [ucoord]. rewrite udbl_0. unfold u_low. rewrite <- of_Z_opp, !of_Z_eq. reflexivity.
Qed.

Section Main.
Variable B : backend.
Hypothesis S : shipped B.

Lemma even_lmult : forall s, is_scalar s -> (2 | sval s + sval s mod 2).
Proof. intros s Hs. exists (sval s / 2 + sval s mod 2). pose proof (Z.div_mod (sval s) 2 ltac:(lia)). lia. Qed.
Theorem mul_zero : forall u s, bytes 56 u -> is_scalar s -> let m := sval s + sval s mod 2 in
  (mp_mul B u s = Ok zeros <->
   u_low (le_val u) \/ (u_on_curve (le_val u) /\ (ell | m)) \/ (u_on_twist (le_val u) /\ (ell_twist | m))).
Proof.
  intros u s Hu Hs. cbv zeta. destruct (mul_exact B S u s Hu Hs) as [_ M]. pose proof (even_lmult s Hs) as Ev.
  pose proof (lmult_nonneg s Hs) as Nn. unfold lmult in Nn.
  assert (K : forall e l v, order_of e l -> on_mont mont_A e (Some (of_Z (le_val u), v)) -> (mp_mul B u s = Ok zeros <-> (l | sval s + sval s mod 2) \/ u_low (le_val u))).
  { intros e l v Ho H. assert (He : curve_or_twist e) by (destruct Ho as [[-> _]|[-> _]]; [left|right]; reflexivity).
    rewrite (M e v He H), zero_out. rewrite (zero_iff e l Ho _ _ H Nn Ev). rewrite (low_iff e _ v He H). reflexivity. }
  assert (K1 : forall v, on_mont mont_A 1%F (Some (of_Z (le_val u), v)) -> (mp_mul B u s = Ok zeros <-> (ell | sval s + sval s mod 2) \/ u_low (le_val u))).
  { intros v H. apply (K _ _ v (or_introl (conj eq_refl eq_refl)) H). }
  assert (K2 : forall v, on_mont mont_A (- (1))%F (Some (of_Z (le_val u), v)) -> (mp_mul B u s = Ok zeros <-> (ell_twist | sval s + sval s mod 2) \/ u_low (le_val u))).
  { intros v H. apply (K _ _ v (or_intror (conj eq_refl eq_refl)) H). }
  split.
  - intro E. destruct (u_kinds (le_val u)) as [C|C]; destruct C as [v H].
    + apply (K1 v H) in E. destruct E as [E|E]; [right; left; split; [exists v; exact H|exact E]|left; exact E].
    + apply (K2 v H) in E. destruct E as [E|E]; [right; right; split; [exists v; exact H|exact E]|left; exact E].
  - intros [E|[[[v H] E]|[[v H] E]]].
    + destruct (u_kinds (le_val u)) as [[v H]|[v H]]; [apply (K1 v H)|apply (K2 v H)]; right; exact E.
    + apply (K1 v H). left. exact E.
    + apply (K2 v H). left. exact E.
Qed.
Lemma ell_twist_gt : ell < ell_twist. Proof. reflexivity. Qed.
Lemma between : forall q m x a b, 0 < m -> x = q * m -> a * m < x < b * m -> a < q < b.
Proof. intros q m x a b Hm -> [H1 H2]. split; nia. Qed.
Lemma none_or_one : forall q m x, 0 < m -> x = q * m -> 0 <= x -> x = 0 \/ m <= x.
Proof. intros q m x Hm -> H. assert (q = 0 \/ 1 <= q) as [->|Q] by nia; [left; ring|right; nia]. Qed.
Theorem reduced_zero : forall u s, bytes 56 u -> is_scalar s -> sval s < ell -> (mp_mul B u s = Ok zeros <-> u_low (le_val u) \/ sval s = 0).
Proof.
  intros u s Hu Hs Hl. rewrite (mul_zero u s Hu Hs). pose proof (scalar_range s Hs) as R.
  pose proof ell_mod2 as E2. pose proof ell_pos' as EP. pose proof ell_twist_gt as ET.
  pose proof (Z.div_mod (sval s) 2 ltac:(lia)) as D. pose proof (Z.mod_pos_bound (sval s) 2 ltac:(lia)) as Rm.
  pose proof (Z.div_mod ell 2 ltac:(lia)) as De.
  assert (Z0 : sval s = 0 -> sval s + sval s mod 2 = 0) by (intros ->; reflexivity).
  split.
  - intros [E|[[_ [q Hq]]|[_ [q Hq]]]]; [left; exact E|right|right].
    + destruct (none_or_one q ell _ EP Hq) as [H|H]; lia.
    + destruct (none_or_one q ell_twist _ ltac:(lia) Hq) as [H|H]; lia.
  - intros [E|E]; [left; exact E|right]. apply Z0 in E. rewrite E. destruct (u_kinds (le_val u)) as [C|C]; [left|right]; (split; [exact C|apply Z.divide_0_r]).
Qed.

(** ** Clamped secrets *)
Lemma land_252 : forall x, (4 | Z.land x 252).
Proof.
  intro x. apply Z.mod_divide; [lia|]. change 4 with (2 ^ 2). rewrite <- Z.land_ones by lia. rewrite <- Z.land_assoc. change (Z.land 252 (Z.ones 2)) with 0.
  apply Z.land_0_r.
Qed.
Lemma lor_128 : forall x, 0 <= x -> 128 <= Z.lor x 128.
Proof.
  intros x Hx. pose proof (Z.lor_nonneg x 128) as N. destruct (Z_le_gt_dec 128 (Z.lor x 128)) as [L|L]; [exact L|exfalso].
  assert (T : Z.testbit (Z.lor x 128) 7 = true) by (rewrite Z.lor_spec; change (Z.testbit 128 7) with true; apply orb_true_r).
  assert (0 <= Z.lor x 128 < 2 ^ 7) by (change (2 ^ 7) with 128; lia).
  rewrite Z.bits_above_log2 in T; [discriminate|lia|]. destruct (Z.eq_dec (Z.lor x 128) 0) as [Q|Q]; [rewrite Q; reflexivity|]. apply Z.log2_lt_pow2; lia.
Qed.
Lemma clamp_facts : forall k, bytes 56 k -> bytes 56 (clamp448 k) /\ (4 | le_val (clamp448 k)) /\ 2 ^ 447 <= le_val (clamp448 k) < 2 ^ 448.
Proof.
  intros k Hk. destruct (clamp_bytes k Hk) as [Hc _]. split; [exact Hc|].
  pose proof (array_range 8 56 (clamp448 k) ltac:(discriminate) Hc) as R. fold (le_val (clamp448 k)) in R. change (8 * Z.of_nat 56) with 448 in R.
  destruct Hk as [Len Fa]. destruct k as [|x r]; [discriminate|]. cbn [clamp448] in *. cbn [length] in Len. apply Nat.succ_inj in Len.
  assert (Nr : r <> []) by (intro E; rewrite E in Len; discriminate). pose proof (app_removelast_last 0 Nr) as Er.
  inversion Fa as [|? ? Hx Hr]; subst.
  assert (Hl : 0 <= last r 0). { rewrite Er in Hr. apply Forall_app in Hr. destruct Hr as [_ Hr]. inversion Hr; subst. lia. }
  assert (Ll : length (removelast r) = 54%nat). { rewrite Er, app_length in Len. cbn [length] in Len. lia. }
  assert (V : forall y w, le_val (y :: removelast r ++ [w]) = y + 2 ^ 8 * eval 8 (removelast r) + 2 ^ 440 * w).
  { intros y w. unfold le_val. cbn [eval]. rewrite eval_app by lia. rewrite Ll. cbn [eval]. change (8 * Z.of_nat 54) with 432.
    replace (2 ^ 440) with (2 ^ 8 * 2 ^ 432) by reflexivity. ring. }
  split.
  - rewrite V. apply Z.divide_add_r; [apply Z.divide_add_r|].
    + apply land_252.
    + exists (64 * eval 8 (removelast r)). change (2 ^ 8) with 256. ring.
    + exists (2 ^ 438 * Z.lor (last r 0) 128). change (2 ^ 440) with (2 ^ 438 * 4). ring.
  - split; [|exact (proj2 R)]. rewrite V. pose proof (lor_128 _ Hl) as L1.
    assert (0 <= Z.land x 252) by (apply Z.land_nonneg; right; discriminate).
    assert (0 <= eval 8 (removelast r)).
    { assert (Ai : array 8 54 (removelast r)). { split; [exact Ll|]. rewrite Er in Hr. apply Forall_app in Hr. exact (proj1 Hr). }
      exact (proj1 (array_range 8 54 _ ltac:(discriminate) Ai)). }
    change (2 ^ 447) with (2 ^ 440 * 128). assert (2 ^ 440 * 128 <= 2 ^ 440 * Z.lor (last r 0) 128) by (apply Z.mul_le_mono_nonneg_l; [discriminate|exact L1]).
    change (2 ^ 8) with 256. lia.
Qed.
Lemma four_l : forall l n, l mod 2 = 1 -> (4 | n) -> (l | n) -> (4 * l | n).
Proof.
  intros l n E [q ->] D. rewrite Z.mul_comm in D. apply Gauss in D.
  - destruct D as [x ->]. exists x. ring.
  - assert (R : rel_prime l 2).
    { apply rel_prime_sym. apply prime_rel_prime; [exact prime_2|]. intros [y Hy]. rewrite Hy, Z.mod_mul in E by lia. discriminate. }
    change 4 with (2 * 2). apply rel_prime_mult; exact R.
Qed.
Lemma ell_bounds : 2 ^ 445 < ell /\ 4 * ell < 2 ^ 448 /\ 2 ^ 448 < 8 * ell /\ 8 * ell < 2 ^ 449 /\ 2 ^ 449 < 12 * ell. Proof. repeat split; reflexivity. Qed.
Lemma ell_twist_bounds : 2 ^ 448 < 4 * ell_twist /\ 4 * ell_twist < 2 ^ 449 /\ 2 ^ 449 < 8 * ell_twist. Proof. repeat split; reflexivity. Qed.
Lemma pows : 2 ^ 448 = 2 * 2 ^ 447 /\ 2 ^ 449 = 4 * 2 ^ 447 /\ 0 < 2 ^ 447. Proof. repeat split; reflexivity. Qed.
Local Opaque Z.pow.
Theorem x448_zero : forall k u, bytes 56 k -> bytes 56 u ->
  (mp_mul B u (scalar_from_bytes (clamp448 k)) = Ok zeros <-> u_low (le_val u) \/ (u_on_curve (le_val u) /\ le_val (clamp448 k) = 4 * ell)).
Proof.
  intros k u Hk Hu. destruct (clamp_facts k Hk) as (Hc & D4 & R). destruct (from_bytes_scalar _ Hc) as [Hs Vs].
  rewrite (mul_zero u _ Hu Hs). rewrite Vs. set (c := le_val (clamp448 k)) in *.
  assert (E : c + c mod 2 = c). { destruct D4 as [q ->]. replace (q * 4) with (q * 2 * 2) by ring. rewrite Z.mod_mul by lia. ring. }
  rewrite E. pose proof ell_bounds as EB. pose proof ell_twist_bounds as TB. pose proof pows as PW. split.
  - intros [L|[[C D]|[C D]]]; [left; exact L|right; split; [exact C|]|exfalso].
    + apply (four_l ell) in D; [|exact ell_mod2|exact D4]. destruct D as [q Hq]. destruct (between q (4 * ell) _ 0 2 ltac:(lia) Hq) as [Q1 Q2]; [lia|]. assert (q = 1) by lia. subst q. lia.
    + apply (four_l ell_twist) in D; [|exact ell_twist_mod2|exact D4]. destruct D as [q Hq]. assert (1 <= q) by nia. nia.
  - intros [L|[C D]]; [left; exact L|right; left; split; [exact C|]]. rewrite D. exists 4. ring.
Qed.
Theorem x448_equal : forall k k' u, bytes 56 k -> bytes 56 k' -> bytes 56 u -> ~ u_low (le_val u) ->
  let c := le_val (clamp448 k) in let c' := le_val (clamp448 k') in
  (mp_mul B u (scalar_from_bytes (clamp448 k)) = mp_mul B u (scalar_from_bytes (clamp448 k')) <->
   c = c' \/ (u_on_curve (le_val u) /\ c + c' = 8 * ell) \/ (u_on_twist (le_val u) /\ c + c' = 4 * ell_twist)).
Proof.
  intros k k' u Hk Hk' Hu NL. cbv zeta. destruct (clamp_facts k Hk) as (Hc & D4 & R). destruct (clamp_facts k' Hk') as (Hc' & D4' & R').
  pose proof pows as PW.
  assert (K : forall e l v, order_of e l -> on_mont mont_A e (Some (of_Z (le_val u), v)) ->
    (mp_mul B u (scalar_from_bytes (clamp448 k)) = mp_mul B u (scalar_from_bytes (clamp448 k')) <->
     (l | le_val (clamp448 k) - le_val (clamp448 k')) \/ (l | le_val (clamp448 k) + le_val (clamp448 k')))).
  { intros e l v Ho H. assert (He : curve_or_twist e) by (destruct Ho as [[-> _]|[-> _]]; [left|right]; reflexivity).
    destruct (x448 B S k u Hk Hu) as [_ M]. destruct (x448 B S k' u Hk' Hu) as [_ M']. rewrite (M e v He H), (M' e v He H).
    rewrite <- (equal_iff e l Ho _ _ _ H); [|lia|lia|exact D4|exact D4'|].
    - split; [intro E; apply ok_inj in E; apply le_inj; exact E|intros ->; reflexivity].
    - intro E. apply NL. apply (low_iff e _ v He H). exact E. }
  set (c := le_val (clamp448 k)) in *. set (c' := le_val (clamp448 k')) in *. clearbody c c'.
  pose proof ell_bounds as EB. pose proof ell_twist_bounds as TB.
  assert (Ds : (4 | c - c')) by (apply Z.divide_sub_r; assumption). assert (Da : (4 | c + c')) by (apply Z.divide_add_r; assumption).
  assert (K1 : forall v, on_mont mont_A 1%F (Some (of_Z (le_val u), v)) -> (mp_mul B u (scalar_from_bytes (clamp448 k)) = mp_mul B u (scalar_from_bytes (clamp448 k')) <-> c = c' \/ c + c' = 8 * ell)).
  { intros v H. rewrite (K _ _ v (or_introl (conj eq_refl eq_refl)) H). split.
    - intros [D|D]; apply (four_l ell) in D; try exact ell_mod2; try assumption; destruct D as [q Hq].
      + left. destruct (between q (4 * ell) _ (-1) 1 ltac:(lia) Hq) as [Q1 Q2]; [lia|]. assert (q = 0) by lia. subst q. lia.
      + right. destruct (between q (4 * ell) _ 1 3 ltac:(lia) Hq) as [Q1 Q2]; [lia|]. assert (q = 2) by lia. subst q. lia.
    - intros [->|E]; [left; rewrite Z.sub_diag; apply Z.divide_0_r|right; rewrite E; exists 8; ring]. }
  assert (K2 : forall v, on_mont mont_A (- (1))%F (Some (of_Z (le_val u), v)) -> (mp_mul B u (scalar_from_bytes (clamp448 k)) = mp_mul B u (scalar_from_bytes (clamp448 k')) <-> c = c' \/ c + c' = 4 * ell_twist)).
  { intros v H. rewrite (K _ _ v (or_intror (conj eq_refl eq_refl)) H). split.
    - intros [D|D]; apply (four_l ell_twist) in D; try exact ell_twist_mod2; try assumption; destruct D as [q Hq].
      + left. destruct (between q (4 * ell_twist) _ (-1) 1 ltac:(lia) Hq) as [Q1 Q2]; [lia|]. assert (q = 0) by lia. subst q. lia.
      + right. destruct (between q (4 * ell_twist) _ 0 2 ltac:(lia) Hq) as [Q1 Q2]; [lia|]. assert (q = 1) by lia. subst q. lia.
    - intros [->|E]; [left; rewrite Z.sub_diag; apply Z.divide_0_r|right; rewrite E; exists 4; ring]. }
  split.
  - intro E. destruct (u_kinds (le_val u)) as [[v H]|[v H]].
    + apply (K1 v H) in E. destruct E as [E|E]; [left; exact E|right; left; split; [exists v; exact H|exact E]].
    + apply (K2 v H) in E. destruct E as [E|E]; [left; exact E|right; right; split; [exists v; exact H|exact E]].
  - intros [E|[[[v H] E]|[[v H] E]]].
    + destruct (u_kinds (le_val u)) as [[v H]|[v H]]; [apply (K1 v H)|apply (K2 v H)]; left; exact E.
    + apply (K1 v H). right. exact E.
    + apply (K2 v H). right. exact E.
Qed.
(** No coordinate other than 0 belongs to both curves, so at most two clamped secrets give the same result. *)
Lemma not_both : forall u, u_on_curve u -> u_on_twist u -> u_low u.
Proof.
  intros u [v H] [w H']. unfold u_low. left. cbn [on_mont] in H, H'. assert (E : (v * v + w * w = of_Z 0)%F).
  { transitivity (of_Z 1 * (v * v) - - of_Z 1 * (w * w))%F; [ring|]. rewrite H, H'. ring. }
  assert (V : v = of_Z 0).
  { destruct (F_eq_dec w (of_Z 0)) as [W|W].
    - apply fsq_0. transitivity (v * v + w * w)%F; [rewrite W; ring|exact E].
    - exfalso. apply neg1_nonsquare. exists (v / w)%F. apply (fmul_cancel_l (w * w)%F); [apply fmul_nonzero; exact W|].
      transitivity (v * v)%F; [field; exact W|]. transitivity (v * v - (v * v + w * w))%F; [rewrite E; ring|ring]. }
  rewrite V in H. assert (Q : (of_Z u * (of_Z u * of_Z u + mont_A * of_Z u + 1) = of_Z 0)%F).
  { transitivity (of_Z u * of_Z u * of_Z u + mont_A * (of_Z u * of_Z u) + of_Z u)%F; [ring|]. rewrite <- H. ring. }
  apply fmul_integral in Q. destruct Q as [Q|Q]; [|exfalso; exact (quad_A _ Q)]. apply of_Z_eq in Q. exact Q.
Qed.
Theorem x448_two : forall k1 k2 k3 u, bytes 56 k1 -> bytes 56 k2 -> bytes 56 k3 -> bytes 56 u -> ~ u_low (le_val u) ->
  mp_mul B u (scalar_from_bytes (clamp448 k1)) = mp_mul B u (scalar_from_bytes (clamp448 k2)) ->
  mp_mul B u (scalar_from_bytes (clamp448 k1)) = mp_mul B u (scalar_from_bytes (clamp448 k3)) ->
  le_val (clamp448 k1) = le_val (clamp448 k2) \/ le_val (clamp448 k1) = le_val (clamp448 k3) \/ le_val (clamp448 k2) = le_val (clamp448 k3).
Proof.
  intros k1 k2 k3 u H1 H2 H3 Hu NL E2 E3. apply (x448_equal k1 k2 u H1 H2 Hu NL) in E2. apply (x448_equal k1 k3 u H1 H3 Hu NL) in E3.
  cbv zeta in E2, E3. destruct E2 as [E2|[[C2 E2]|[C2 E2]]]; [left; exact E2| |]; (destruct E3 as [E3|[[C3 E3]|[C3 E3]]]; [right; left; exact E3| |]).
  - right. right. lia.
  - exfalso. apply NL. exact (not_both _ C2 C3).
  - exfalso. apply NL. exact (not_both _ C3 C2).
  - right. right. lia.
Qed.
End Main.

(** ** Public keys *)
Lemma pmul_G_eq : forall m n, 0 <= m -> 0 <= n -> (pmul ed_a ed_d m SpecCurve.G = pmul ed_a ed_d n SpecCurve.G <-> m mod ell = n mod ell).
Proof.
  intros m n Hm Hn. pose proof ell_pos' as EP. rewrite <- !zmul_nonneg by assumption. split; intro E.
  - assert (K : zmul ed_a ed_d (m - n) SpecCurve.G = pzero).
    { unfold Z.sub. rewrite (ag_mul_add _ _ _ _ _ _ ed_ab), E, (a_mul_opp _ _ _ _ _ _ ed_ab) by exact on_G.
      apply (ag_inv _ _ _ _ _ _ ed_ab). apply (ag_mul_S _ _ _ _ _ _ ed_ab). exact on_G. }
    apply zmul_G_0 in K. destruct K as [q Hq]. replace m with (n + q * ell) by lia. apply Z.mod_add. lia.
  - rewrite (a_mod _ _ _ _ _ _ ed_ab ell m SpecCurve.G EP on_G z_ell_G), (a_mod _ _ _ _ _ _ ed_ab ell n SpecCurve.G EP on_G z_ell_G), E. reflexivity.
Qed.
Lemma key_inj : forall m n, 0 <= m -> 0 <= n -> (rfc8032_public m = rfc8032_public n <-> m mod ell = n mod ell).
Proof.
  intros m n Hm Hn. rewrite <- (pmul_G_eq m n Hm Hn). unfold rfc8032_public. rewrite !encode_same. split; [|intros ->; reflexivity].
  apply encode_inj; apply (pmul_S _ _ _ ed_group); exact on_G.
Qed.
Theorem edwards_keys : forall B, shipped B -> forall s s', is_scalar s -> is_scalar s' -> (sig_public B s = sig_public B s' <-> sval s mod ell = sval s' mod ell).
Proof.
  intros B S s s' Hs Hs'. rewrite !(public_ok B S) by assumption. pose proof (scalar_range s Hs). pose proof (scalar_range s' Hs').
  rewrite <- key_inj by lia. split; [intro E; exact (ok_inj _ _ _ E)|intros ->; reflexivity].
Qed.
Lemma ok_some : forall x y : list Z, Ok (Some x) = Ok (Some y) <-> x = y.
Proof. intros x y. split; [intro E; injection E; auto|intros ->; reflexivity]. Qed.
Theorem decaf_keys : forall B, shipped B -> forall s s', is_scalar s -> is_scalar s' ->
  (api_run B (public_key s) = api_run B (public_key s') <-> sval s mod ell = sval s' mod ell).
Proof.
  intros B S s s' Hs Hs'. pose proof (encoded B S (ETimes EBase s)) as K. pose proof (encoded B S (ETimes EBase s')) as K'. cbn [scalars_ok calls exponent] in K, K'.
  unfold public_key. rewrite K, K' by (split; [exact I|assumption]). fold (sval s) (sval s'). rewrite !Z.mul_1_l. rewrite <- string_inj. apply ok_some.
Qed.
Theorem decaf_shared : forall B, shipped B -> forall b s s', bytes 56 b -> decaf_ok b -> is_scalar s -> is_scalar s' ->
  (api_run B (shared_secret b s) = api_run B (shared_secret b s') <-> b = repeat 0 56 \/ sval s mod ell = sval s' mod ell).
Proof.
  intros B S b s s' Hb OK Hs Hs'. apply string_all in OK; [|exact Hb]. destruct OK as (n & Hn & ->). pose proof ell_pos' as EP.
  pose proof (encoded B S (ETimes (EReceived n) s)) as K. pose proof (encoded B S (ETimes (EReceived n) s')) as K'. cbn [scalars_ok calls exponent] in K, K'.
  unfold shared_secret. specialize (K (conj I Hs)). specialize (K' (conj I Hs')). fold (sval s) in K. fold (sval s') in K'. rewrite K, K'. clear K K'.
  rewrite <- string_zero, string_inj, (Z.mod_0_l ell) by lia. rewrite (Z.mod_small n) by exact Hn.
  rewrite ok_some, string_inj. split.
  - intro E. assert (D : (ell | n * (sval s - sval s'))).
    { rewrite Z.mul_sub_distr_l. apply Z.mod_divide; [lia|]. rewrite Zminus_mod, E, Z.sub_diag. apply Z.mod_0_l. lia. }
    apply prime_mult in D; [|exact prime_ell]. destruct D as [D|D].
    + left. destruct D as [q Hq]. assert (q = 0 \/ 1 <= q \/ q <= -1) as [->|[Q|Q]] by lia; [lia| |]; nia.
    + right. destruct D as [q Hq]. replace (sval s) with (sval s' + q * ell) by lia. apply Z.mod_add. lia.
  - intros [->|E]; [reflexivity|]. rewrite Z.mul_mod, E, <- Z.mul_mod by lia. reflexivity.
Qed.

(** Keys made from random scalars. *)
Lemma random_of : forall n, 0 <= n < ell -> forall Q : scalar -> Prop, (forall s, is_scalar s -> sval s < ell -> (Q s <-> sval s = n)) ->
  exists L, NoDup L /\ (forall r, In r L <-> bytes 114 r /\ exists s, scalar_random r = Ok s /\ Q s) /\
    (Z.of_nat (length L) = 2 ^ 912 / ell \/ Z.of_nat (length L) = 2 ^ 912 / ell + 1).
Proof.
  intros n Hn Q HQ. assert (R : 0 <= n < 2 ^ 448). { pose proof ell_bounds. lia. }
  destruct (digits_scalar n R) as [Hs Vs]. destruct (scalar_random_count (digits 32 14 n) Hs ltac:(lia)) as (L & HN & HL & Len).
  exists L. split; [exact HN|]. split; [|exact Len]. intro r. rewrite HL. split; intros [Hr E]; (split; [exact Hr|]).
  - exists (digits 32 14 n). split; [exact E|]. apply HQ; [exact Hs|lia|exact Vs].
  - destruct E as (s & E & Qs). destruct (scalar_random_canonical r Hr) as (s' & E' & Hs' & Ls'). rewrite E in E'. apply ok_inj in E'. subst s'.
    apply HQ in Qs; [|exact Hs'|exact Ls']. rewrite E. f_equal. apply scalar_inj; [exact Hs'|exact Hs|congruence].
Qed.
Theorem random_edwards : forall B, shipped B -> forall n, 0 <= n < ell ->
  exists L, NoDup L /\ (forall r, In r L <-> bytes 114 r /\ exists s, scalar_random r = Ok s /\ sig_public B s = Ok (rfc8032_public n)) /\
    (Z.of_nat (length L) = 2 ^ 912 / ell \/ Z.of_nat (length L) = 2 ^ 912 / ell + 1).
Proof.
  intros B S n Hn. apply (random_of n Hn). intros s Hs Ls. pose proof (scalar_range s Hs). rewrite (public_ok B S) by exact Hs.
  split; [intro E; apply ok_inj in E; apply key_inj in E; try lia|intros ->; reflexivity]. rewrite !Z.mod_small in E by lia. exact E.
Qed.
Theorem random_decaf : forall B, shipped B -> forall b, bytes 56 b -> decaf_ok b ->
  exists L, NoDup L /\ (forall r, In r L <-> bytes 114 r /\ exists s, scalar_random r = Ok s /\ api_run B (public_key s) = Ok (Some b)) /\
    (Z.of_nat (length L) = 2 ^ 912 / ell \/ Z.of_nat (length L) = 2 ^ 912 / ell + 1).
Proof.
  intros B S b Hb OK. apply string_all in OK; [|exact Hb]. destruct OK as (n & Hn & ->). apply (random_of n Hn). intros s Hs Ls.
  pose proof (scalar_range s Hs). pose proof (encoded B S (ETimes EBase s) (conj I Hs)) as K. cbn [calls exponent] in K. fold (sval s) in K. rewrite Z.mul_1_l in K.
  unfold public_key. rewrite K. split.
  - intro E. apply (proj1 (ok_some _ _)) in E. apply string_inj in E. rewrite !Z.mod_small in E by lia. exact E.
  - intros ->. reflexivity.
Qed.

(** ** Cases *)
Definition weak_secret : list Z := le_bytes 56 (4 * ell).
Lemma weak_case : bytes 56 weak_secret /\ le_val (clamp448 weak_secret) = 4 * ell /\ u_on_curve 5 /\ ~ u_low 5 /\ u_on_twist 6 /\ ~ u_low 6 /\
  forall B, shipped B -> mp_mul B (le_bytes 56 5) (scalar_from_bytes (clamp448 weak_secret)) = Ok zeros.
Proof.
  assert (Hb : bytes 56 weak_secret) by apply le_bytes_bytes.
  assert (Hc : le_val (clamp448 weak_secret) = 4 * ell) by (vm_compute; reflexivity).
  assert (C5 : u_on_curve 5) by (eexists; exact curve_point).
  split; [exact Hb|]. split; [exact Hc|]. split; [exact C5|]. split; [unfold u_low; vm_compute; intuition discriminate|].
  split; [eexists; exact twist_point|]. split; [unfold u_low; vm_compute; intuition discriminate|].
  intros B S. apply (x448_zero B S); [exact Hb|apply le_bytes_bytes|]. right. assert (E5 : le_val (le_bytes 56 5) = 5) by (vm_compute; reflexivity). rewrite E5. split; [exact C5|exact Hc].
Qed.
Definition secret_1 : list Z := le_bytes 56 (2 ^ 447 + 4).
Definition secret_2 : list Z := le_bytes 56 (8 * ell - (4 * ell - 4)).
Definition secret_3 : list Z := le_bytes 56 (4 * ell - 4).
Definition secret_4 : list Z := le_bytes 56 (4 * ell_twist - (2 ^ 447 + 2 ^ 100)).
Definition secret_5 : list Z := le_bytes 56 (2 ^ 447 + 2 ^ 100).
Lemma pair_case :
  (bytes 56 secret_2 /\ bytes 56 secret_3 /\ le_val (clamp448 secret_2) <> le_val (clamp448 secret_3) /\ le_val (clamp448 secret_2) + le_val (clamp448 secret_3) = 8 * ell) /\
  (bytes 56 secret_4 /\ bytes 56 secret_5 /\ le_val (clamp448 secret_4) <> le_val (clamp448 secret_5) /\ le_val (clamp448 secret_4) + le_val (clamp448 secret_5) = 4 * ell_twist) /\
  (bytes 56 secret_1 /\ le_val (clamp448 secret_1) <> le_val (clamp448 secret_2) /\ le_val (clamp448 secret_1) + le_val (clamp448 secret_2) <> 8 * ell).
Proof.
  split; [|split].
  - split; [apply le_bytes_bytes|]. split; [apply le_bytes_bytes|]. split; [vm_compute; discriminate|vm_compute; reflexivity].
  - split; [apply le_bytes_bytes|]. split; [apply le_bytes_bytes|]. split; [vm_compute; discriminate|vm_compute; reflexivity].
  - split; [apply le_bytes_bytes|]. split; [vm_compute; discriminate|vm_compute; discriminate].
Qed.
