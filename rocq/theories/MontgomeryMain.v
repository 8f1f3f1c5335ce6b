(** The Montgomery properties in the form used by PropsMontgomery.v. *)
Require Import ZArith List Bool Lia Ring Field.
From Verif Require Import Base BaseProofs SpecParams SpecField SpecCurve SpecMontgomery FieldTheory FieldBackend FieldModel Backends BackendLaws
  FieldMain Wp ScalarModel ScalarProofs ScalarProofs2 ScalarMain EdwardsTheory CurveTheory TwistedModel ScalarMulModel EdwardsModel PointSpec
  TwistedProofs ScalarMulProofs EdwardsProofs EdwardsMain EdwardsCases EdwardsFacts Ladder MontCurves MontgomeryModel MontgomeryProofs.
Import ListNotations.
Open Scope F_scope.
Open Scope res_scope.
Local Opaque fadd fsub fmul fopp fdiv finv fpow of_Z padd pmul G pzero ell Gx Gy.

Lemma of_Z_le : forall w, of_Z (le_val (le_bytes 56 (fval w))) = w.
Proof. intro w. rewrite le_val_canon. apply of_Z_fval. Qed.
Lemma le_inj : forall x y, le_bytes 56 (fval x) = le_bytes 56 (fval y) -> x = y.
Proof. intros x y E. rewrite <- (of_Z_le x), <- (of_Z_le y), E. reflexivity. Qed.

Lemma land_le : forall x n, (0 <= n)%Z -> (Z.land x n <= n)%Z.
Proof.
  intros x n Hn. pose proof (Z.land_nonneg x n) as K.
  assert (E : (n = Z.land x n + Z.ldiff n x)%Z).
  { rewrite (Z.add_nocarry_lxor (Z.land x n) (Z.ldiff n x)).
    - apply Z.bits_inj'. intros i Hi. rewrite Z.lxor_spec, Z.land_spec, Z.ldiff_spec. destruct (Z.testbit x i), (Z.testbit n i); reflexivity.
    - apply Z.bits_inj'. intros i Hi. rewrite Z.land_spec, Z.land_spec, Z.ldiff_spec, Z.bits_0. destruct (Z.testbit x i), (Z.testbit n i); reflexivity. }
  assert (0 <= Z.ldiff n x)%Z by (apply Z.ldiff_nonneg; left; exact Hn). lia.
Qed.
Lemma even_multiple : forall n, (n + n mod 2 = (n + n mod 2) / 2 * 2)%Z.
Proof.
  intro n. pose proof (Z.div_mod n 2 ltac:(discriminate)) as D. assert (E : (n + n mod 2 = (n / 2 + n mod 2) * 2)%Z) by lia.
  rewrite E, Z.div_mul by discriminate. reflexivity.
Qed.

Section Main.
Variable B : backend.
Hypothesis S : shipped B.
Let L := shipped_laws B S.

(** The multiplier that the loop without a final swap applies. *)
Definition lmult (s : scalar) : Z := (sval s + sval s mod 2)%Z.
Lemma lmult_nonneg : forall s, is_scalar s -> (0 <= lmult s)%Z.
Proof. intros s Hs. pose proof (scalar_range s Hs). pose proof (Z.mod_pos_bound (sval s) 2 ltac:(reflexivity)). unfold lmult. lia. Qed.
Lemma lmult_bits : forall s, is_scalar s -> (bits_acc (rev (scalar_bits s)) 0 + Z.b2z (last (rev (scalar_bits s)) false))%Z = lmult s.
Proof. intros s Hs. rewrite scalar_bits_val, last_rev_bits by exact Hs. reflexivity. Qed.

Theorem mul_exact : forall b s, bytes 56 b -> is_scalar s -> let u := of_Z (le_val b) in
  (exists e v, curve_or_twist e /\ on_mont mont_A e (Some (u, v))) /\
  (forall e v, curve_or_twist e -> on_mont mont_A e (Some (u, v)) ->
     mp_mul B b s = Ok (le_bytes 56 (fval (ucoord (mont_mul mont_A e (sval s + sval s mod 2) (Some (u, v))))))).
Proof.
  intros b s Hb Hs. cbv zeta. split; [apply mont_u_exists|]. intros e v He H. rewrite (mp_mul_ok B L) by exact Hb.
  apply (f_equal (fun z => Ok (le_bytes 56 (fval z)))). pose proof (ladder_exact e (rev (scalar_bits s)) _ He H ltac:(discriminate)) as K.
  cbv zeta in K. cbn [ucoord] in K. rewrite K, lmult_bits by exact Hs. reflexivity.
Qed.

(** The general form: any point with that u, infinity included. *)
Lemma mul_point : forall e P s, curve_or_twist e -> on_mont mont_A e P -> is_scalar s ->
  mp_mul B (le_bytes 56 (fval (ucoord P))) s = Ok (le_bytes 56 (fval (ucoord (mont_mul mont_A e (lmult s) P)))).
Proof.
  intros e [[u v]|] s He H Hs.
  - destruct (mul_exact (le_bytes 56 (fval u)) s (le_bytes_bytes _ _) Hs) as [_ K]. rewrite of_Z_le in K. cbn [ucoord]. exact (K e v He H).
  - assert (H0 : on_mont mont_A e (Some (0, 0))) by (cbn; ring).
    destruct (mul_exact (le_bytes 56 (fval 0)) s (le_bytes_bytes _ _) Hs) as [_ K]. rewrite of_Z_le in K.
    specialize (K e 0 He H0). rewrite (u0_mul e He _ _ H0 eq_refl) in K. rewrite (u0_mul e He (lmult s) None I eq_refl). exact K.
Qed.

Theorem even_scalar : forall P s, ed_valid B P -> is_scalar s -> Z.even (sval s) = true ->
  exists r, (u <- ed_to_montgomery B P ;; mp_mul B u s) = Ok r /\ (Q <- ed_scalar_mul B P s ;; ed_to_montgomery B Q) = Ok r.
Proof.
  intros P s V Hs Ev. pose proof (rep_of B P V) as HP. pose proof (valid_on B P V) as HO.
  destruct (ed_scalar_mul_ok B L P _ s HP Hs) as (R & ER & HR). rewrite ER. cbn [bind].
  rewrite (ed_to_montgomery_ok B L _ _ HP), (ed_to_montgomery_ok B L _ _ HR). cbn [bind]. eexists. split; [|reflexivity].
  rewrite (mp_mul_ok B L) by apply le_bytes_bytes. rewrite of_Z_le. apply (f_equal (fun z => Ok (le_bytes 56 (fval z)))).
  pose proof (ed_ladder (rev (scalar_bits s)) (ed_affine B P) HO) as K. cbv zeta in K. unfold edN, edD in K. rewrite K, lmult_bits by exact Hs.
  unfold lmult. rewrite Zmod_even, Ev, Z.add_0_r. reflexivity.
Qed.
(** What the ladder returns for odd scalars. *)
Theorem odd_scalar : forall P s, ed_valid B P -> is_scalar s -> Z.odd (sval s) = true ->
  exists r, (u <- ed_to_montgomery B P ;; mp_mul B u s) = Ok r /\
    (Q <- ed_scalar_mul B P s ;; Q' <- ed_add B Q P ;; ed_to_montgomery B Q') = Ok r.
Proof.
  intros P s V Hs Od. pose proof (rep_of B P V) as HP. pose proof (valid_on B P V) as HO.
  destruct (ed_scalar_mul_ok B L P _ s HP Hs) as (R & ER & HR). rewrite ER. cbn [bind].
  destruct (ed_add_ok B L _ _ _ _ HR HP) as (R2 & ER2 & HR2). rewrite ER2. cbn [bind].
  rewrite (ed_to_montgomery_ok B L _ _ HP), (ed_to_montgomery_ok B L _ _ HR2). cbn [bind]. eexists. split; [|reflexivity].
  rewrite (mp_mul_ok B L) by apply le_bytes_bytes. rewrite of_Z_le. apply (f_equal (fun z => Ok (le_bytes 56 (fval z)))).
  pose proof (ed_ladder (rev (scalar_bits s)) (ed_affine B P) HO) as K. cbv zeta in K. unfold edN, edD in K. rewrite K, lmult_bits by exact Hs.
  unfold lmult. rewrite Zmod_odd, Od. rewrite pmul_succ by (apply scalar_range in Hs; lia). rewrite padd_comm. reflexivity.
Qed.

Lemma gen_u_val : Gy * Gy = of_Z 5 * (Gx * Gx).
Proof. Local Transparent Gx Gy. unfold Gx, Gy. rewrite <- !of_Z_mul. apply of_Z_eq. vm_compute. reflexivity. Qed.
Local Opaque Gx Gy.
Lemma gen_x_nz : Gx <> 0.
Proof. Local Transparent Gx. unfold Gx. intro E. apply of_Z_eq in E. revert E. vm_compute. discriminate. Qed.
Local Opaque Gx.
Lemma gen_u : snd G * snd G * finv (fst G * fst G) = of_Z 5.
Proof.
  pose proof gen_x_nz as N. Local Transparent G. unfold G. cbn [fst snd]. Local Opaque G. rewrite gen_u_val. field. exact N.
Qed.
Theorem generator_u : ed_to_montgomery B (ed_generator B) = Ok mp_generator.
Proof. rewrite (ed_to_montgomery_ok B L _ _ (gen_rep B S)), gen_u. vm_compute. reflexivity. Qed.

Lemma udbl_5 : udbl (of_Z 5) <> of_Z 5.
Proof.
  intro E. assert (N : of_Z 4 * of_Z 5 * (of_Z 5 * of_Z 5 + mont_A * of_Z 5 + 1) <> 0).
  { repeat apply fmul_nonzero; [exact F_4_neq_0|apply of_Z_small_nonzero; split; reflexivity|apply quad_A]. }
  unfold udbl in E. set (x := of_Z 5 * of_Z 5) in *. set (y := of_Z 4 * of_Z 5 * _) in *.
  assert (K : (x - 1) * (x - 1) = of_Z 5 * y). { rewrite <- E. field. exact N. }
  subst x y. unfold mont_A in K. rewrite <- ?of_Z_mul, <- ?of_Z_add, <- ?of_Z_sub, <- ?of_Z_mul in K. apply of_Z_eq in K. revert K. vm_compute. discriminate.
Qed.

Theorem odd_refuted : exists P s, ed_valid B P /\ is_scalar s /\ Z.odd (sval s) = true /\
  (u <- ed_to_montgomery B P ;; mp_mul B u s) <> (Q <- ed_scalar_mul B P s ;; ed_to_montgomery B Q).
Proof.
  exists (ed_generator B), scalar_one. split; [exact (proj1 (gen_valid B S))|]. split; [exact (proj1 scalar_one_ok)|].
  split; [rewrite (proj2 scalar_one_ok); reflexivity|].
  destruct (ed_scalar_mul_ok B L _ _ _ (gen_rep B S) (proj1 scalar_one_ok)) as (R & ER & HR). rewrite ER. cbn [bind].
  rewrite (proj2 scalar_one_ok), pmul_1 in HR. rewrite (ed_to_montgomery_ok B L _ _ (gen_rep B S)), (ed_to_montgomery_ok B L _ _ HR), gen_u. cbn [bind].
  destruct (mont_u_exists (of_Z 5)) as (e & v & He & Hv). pose proof (mul_point e _ scalar_one He Hv (proj1 scalar_one_ok)) as K. cbn [ucoord] in K.
  rewrite K. intro E. apply ok_inj in E. apply le_inj in E. revert E. unfold lmult. rewrite (proj2 scalar_one_ok).
  change (1 + 1 mod 2)%Z with 2%Z. rewrite (ucoord_dbl e He _ Hv ltac:(discriminate)). exact udbl_5.
Qed.

Theorem dh : forall b s t, bytes 56 b -> is_scalar s -> is_scalar t ->
  exists r, (x <- mp_mul B b s ;; mp_mul B x t) = Ok r /\ (x <- mp_mul B b t ;; mp_mul B x s) = Ok r.
Proof.
  intros b s t Hb Hs Ht. destruct (mont_u_exists (of_Z (le_val b))) as (e & v & He & Hv).
  destruct (mul_exact b s Hb Hs) as [_ K1]. destruct (mul_exact b t Hb Ht) as [_ K2]. rewrite (K1 e v He Hv), (K2 e v He Hv). cbn [bind].
  pose proof (lmult_nonneg s Hs). pose proof (lmult_nonneg t Ht). fold (lmult s) (lmult t).
  rewrite !(mul_point e) by (assumption || apply mont_mul_on; assumption). rewrite !(mont_mul_assoc e He) by assumption.
  eexists. split; [reflexivity|]. rewrite Z.mul_comm. reflexivity.
Qed.

Theorem mod_p : forall b b' s, bytes 56 b -> bytes 56 b' -> is_scalar s -> (le_val b mod p = le_val b' mod p)%Z ->
  exists r, mp_mul B b s = Ok r /\ mp_mul B b' s = Ok r /\ bytes 56 r /\ (le_val r < p)%Z.
Proof.
  intros b b' s Hb Hb' Hs E. rewrite !(mp_mul_ok B L) by assumption. apply of_Z_eq in E. rewrite E. eexists. split; [reflexivity|]. split; [reflexivity|].
  split; [apply le_bytes_bytes|]. rewrite le_val_canon. apply fval_range.
Qed.

(** ** X448 *)
Lemma clamp_bytes : forall k, bytes 56 k -> bytes 56 (clamp448 k) /\ Z.even (le_val (clamp448 k)) = true.
Proof.
  intros k [Len Fa]. destruct k as [|x r]; [discriminate|]. cbn [clamp448]. cbn [length] in Len. apply Nat.succ_inj in Len.
  assert (Nr : r <> []) by (intro E; rewrite E in Len; discriminate). pose proof (app_removelast_last 0%Z Nr) as Er.
  inversion Fa as [|? ? Hx Hr]; subst.
  assert (Hl : (0 <= last r 0 < 256)%Z). { rewrite Er in Hr. apply Forall_app in Hr. destruct Hr as [_ Hr]. inversion Hr; subst. exact H1. }
  assert (Hi : Forall (fun x => (0 <= x < 2 ^ 8)%Z) (removelast r)). { rewrite Er in Hr. apply Forall_app in Hr. exact (proj1 Hr). }
  assert (Hx' : (0 <= Z.land x 252 < 2 ^ 8)%Z).
  { split; [apply Z.land_nonneg; right; discriminate|]. apply Z.le_lt_trans with 252%Z; [|reflexivity]. apply (land_le x 252). discriminate. }
  assert (Hl' : (0 <= Z.lor (last r 0) 128 < 2 ^ 8)%Z).
  { split; [apply Z.lor_nonneg; split; [lia|discriminate]|]. destruct (Z.eq_dec (Z.lor (last r 0%Z) 128) 0%Z) as [E0|N0]; [rewrite E0; reflexivity|].
    assert (0 <= Z.lor (last r 0) 128)%Z by (apply Z.lor_nonneg; split; [lia|discriminate]).
    apply Z.log2_lt_pow2; [lia|]. rewrite Z.log2_lor by lia. apply Z.max_lub_lt; [|reflexivity].
    destruct (Z.eq_dec (last r 0%Z) 0%Z) as [E|N]; [rewrite E; reflexivity|]. apply Z.log2_lt_pow2; lia. }
  split.
  - split.
    + cbn [length]. rewrite app_length. cbn [length]. rewrite Er, app_length in Len. cbn [length] in Len. lia.
    + constructor; [exact Hx'|]. apply Forall_app. split; [exact Hi|]. constructor; [exact Hl'|constructor].
  - unfold le_val. cbn [eval]. rewrite Z.even_add. replace (Z.even (Z.land x 252)) with true.
    + rewrite Z.even_mul. reflexivity.
    + symmetry. rewrite <- Z.negb_odd, <- Z.bit0_odd, Z.land_spec, andb_false_r. reflexivity.
Qed.
Theorem x448 : forall k b, bytes 56 k -> bytes 56 b -> let u := of_Z (le_val b) in
  (exists e v, curve_or_twist e /\ on_mont mont_A e (Some (u, v))) /\
  (forall e v, curve_or_twist e -> on_mont mont_A e (Some (u, v)) ->
     mp_mul B b (scalar_from_bytes (clamp448 k)) = Ok (le_bytes 56 (fval (ucoord (mont_mul mont_A e (le_val (clamp448 k)) (Some (u, v))))))).
Proof.
  intros k b Hk Hb. cbv zeta. destruct (clamp_bytes k Hk) as [Hc Ev]. destruct (from_bytes_scalar _ Hc) as [Hs Vs].
  destruct (mul_exact b _ Hb Hs) as [E M]. split; [exact E|]. intros e v He Hv. rewrite (M e v He Hv), Vs, Zmod_even, Ev, Z.add_0_r. reflexivity.
Qed.
Theorem projective_roundtrip : forall b, bytes 56 b ->
  (x <- mp_to_projective B b ;; pm_to_affine B x) = Ok (le_bytes 56 (le_val b mod p)).
Proof.
  intros b Hb. apply okp_eq. unfold mp_to_projective. cbn [bind]. destruct (l_from B L b Hb) as (u & -> & Tu & Vu). cbn [bind]. unfold pm_to_affine. cbn [pmU pmW].
  pose proof (proj1 (l_one B L)) as T1. fsteps. rewrite (l_to B L) by assumption. eexists. split; [reflexivity|].
  rewrite <- fval_of_Z. apply (f_equal (fun z => le_bytes 56 (fval z))). fvals. fconsts. rewrite ?Vu. field. exact F_1_neq_0.
Qed.

(** ** Low order *)
Lemma zero_out : forall x, Ok (le_bytes 56 (fval x)) = Ok zeros <-> x = 0.
Proof.
  intro x. split; [|intros ->; reflexivity]. intro E. apply ok_inj in E. apply le_inj. exact E.
Qed.
Theorem collapse_iff : forall b, bytes 56 b ->
  ((forall s, is_scalar s -> mp_mul B b s = Ok zeros) <->
   (le_val b mod p = 0 \/ le_val b mod p = 1 \/ le_val b mod p = p - 1)%Z).
Proof.
  intros b Hb. destruct (mont_u_exists (of_Z (le_val b))) as (e & v & He & Hv). set (u := of_Z (le_val b)) in *.
  assert (U : (u = 0 \/ u = 1 \/ u = - (1)) <-> (le_val b mod p = 0 \/ le_val b mod p = 1 \/ le_val b mod p = p - 1)%Z).
  { subst u. rewrite <- of_Z_opp. rewrite !of_Z_eq. reflexivity. }
  pose proof (ucoord_dbl e He _ Hv ltac:(discriminate)) as UD. cbn [ucoord] in UD. rewrite <- U, <- udbl_0, <- UD. split.
  - intro K. specialize (K scalar_one (proj1 scalar_one_ok)). destruct (mul_exact b scalar_one Hb (proj1 scalar_one_ok)) as [_ M].
    rewrite (M e v He Hv) in K. apply zero_out in K. rewrite (proj2 scalar_one_ok) in K. exact K.
  - intros K s Hs. destruct (mul_exact b s Hb Hs) as [_ M]. rewrite (M e v He Hv). apply zero_out.
    pose proof (scalar_range s Hs). pose proof (Z.mod_pos_bound (sval s) 2 ltac:(reflexivity)).
    pose proof (even_multiple (sval s)) as E.
    rewrite E. rewrite <- (mont_mul_assoc e He) by (try assumption; try (apply Z.div_pos; lia); lia).
    apply u0_mul; [exact He|apply mont_mul_on; assumption|exact K].
Qed.

Lemma low_order_iff : forall b, bytes 56 b -> (mp_is_low_order b = true <-> (le_val b = 0 \/ le_val b = 1 \/ le_val b = p - 1)%Z).
Proof.
  intros b Hb. unfold mp_is_low_order, mp_eq. rewrite !orb_true_iff, !list_eqb_eq.
  assert (I : forall b', bytes 56 b' -> (b = b' <-> le_val b = le_val b')).
  { intros b' Hb'. split; [intros ->; reflexivity|]. intro E. rewrite <- (bytes_le_bytes 56 b Hb), <- (bytes_le_bytes 56 b' Hb'), E. reflexivity. }
  assert (BA : LOW_A = le_bytes 56 0) by reflexivity. assert (BB : LOW_B = le_bytes 56 1) by reflexivity.
  assert (BC : LOW_C = le_bytes 56 (p - 1)) by (vm_compute; reflexivity).
  rewrite BA, BB, BC, !I by apply le_bytes_bytes. rewrite !le_val_le_bytes by (split; [discriminate || (vm_compute; discriminate)|reflexivity]). tauto.
Qed.

Theorem low_order_sound : forall b, bytes 56 b -> mp_is_low_order b = true -> forall s, is_scalar s -> mp_mul B b s = Ok zeros.
Proof.
  intros b Hb H. apply (collapse_iff b Hb). apply (low_order_iff b Hb) in H. destruct H as [E|[E|E]]; rewrite E; [left|right; left|right; right]; reflexivity.
Qed.
Theorem low_order_complete : forall b, bytes 56 b -> (le_val b < p)%Z ->
  (mp_is_low_order b = true <-> forall s, is_scalar s -> mp_mul B b s = Ok zeros).
Proof.
  intros b Hb Hc. rewrite (collapse_iff b Hb), (low_order_iff b Hb).
  rewrite Z.mod_small; [reflexivity|]. split; [|exact Hc]. exact (proj1 (array_range 8 56 b ltac:(discriminate) Hb)).
Qed.
Theorem low_order_exact : forall b, bytes 56 b ->
  ((forall s, is_scalar s -> mp_mul B b s = Ok zeros) <-> mp_is_low_order b = true \/ le_val b = p \/ le_val b = (p + 1)%Z).
Proof.
  intros b Hb. rewrite (collapse_iff b Hb), (low_order_iff b Hb). pose proof (array_range 8 56 b ltac:(discriminate) Hb) as R.
  fold (le_val b) in R. change (8 * Z.of_nat 56)%Z with 448%Z in R. assert (P2 : (2 ^ 448 < 2 * p - 1)%Z) by reflexivity.
  assert (P0 : (2 < p)%Z) by reflexivity. revert R P2 P0. clear. generalize (le_val b) as v. generalize p as q. generalize (2 ^ 448)%Z as m. intros m q v R P2 P0.
  destruct (Z.lt_ge_cases v q) as [C|C].
  - rewrite Z.mod_small by lia. lia.
  - replace (v mod q)%Z with (v - q)%Z; [lia|]. apply (Z.mod_unique_pos v q 1); lia.
Qed.
Theorem low_order_refuted : exists b, bytes 56 b /\ mp_is_low_order b = false /\ forall s, is_scalar s -> mp_mul B b s = Ok zeros.
Proof.
  assert (R : (0 <= p + 1 < 2 ^ 448)%Z) by (split; [discriminate|reflexivity]).
  exists (le_bytes 56 (p + 1)). split; [apply le_bytes_bytes|]. split.
  - apply not_true_iff_false. intro E. apply (low_order_iff _ (le_bytes_bytes _ _)) in E. rewrite le_val_le_bytes in E by exact R. revert E. vm_compute. intuition discriminate.
  - apply (collapse_iff _ (le_bytes_bytes _ _)). rewrite le_val_le_bytes by exact R. right. left. reflexivity.
Qed.
End Main.
