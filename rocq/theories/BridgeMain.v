(** The two forms of Ed448 have the same integers: the map to Montgomery form doubles them. *)
Require Import ZArith Znumtheory List Bool Lia Ring Field.
From Verif Require Import Base BaseProofs SpecParams SpecField SpecCurve SpecEncoding SpecCount SpecMontgomery SpecTwist SpecRfc8032 SpecExponent SpecApi FieldTheory CurveTheory EdwardsTheory ScalarMulProofs
  EdwardsProofs EdwardsCases EdwardsMain Primes AbGroup Order GroupOrder FieldBackend Backends BackendLaws FieldMain ScalarModel ScalarProofs ScalarMain PointSpec TwistedModel ScalarMulModel EdwardsModel ApiExpr ApiRun ApiMeaning ExponentMain MapTheory MapMain
  MontTheory Ladder LadderMont MontCurves MontgomeryModel MontgomeryMain MontOrder FibreMain SpecExponentEd CountStrings FibreGroup ExponentEd SpecLine LineMain SpecMontgomery SpecBridge.
Import ListNotations.
Open Scope Z_scope.
Local Opaque fadd fsub fmul fopp fdiv finv fpow of_Z zmul pmul padd psi ell ell_twist p Gx Gy pzero mont_mul le_bytes T4.

(** ** Both registers of the ladder *)
Definition step2 (u : F) (b : bool) (x : (F * F) * (F * F)) : (F * F) * (F * F) :=
  if b then let y := lstep u (snd x) (fst x) in (snd y, fst y) else lstep u (fst x) (snd x).
Fixpoint both (u : F) (n : positive) : (F * F) * (F * F) :=
  match n with
  | xH => step2 u true (((1)%F, (0)%F), (u, (1)%F))
  | xO m => step2 u false (both u m)
  | xI m => step2 u true (both u m)
  end.
Section Track.
Variables (a d : F) (S : point -> Prop) (N D : point -> F).
Hypothesis G : edw_group a d S.
Hypothesis Nneg : forall P, N (pneg P) = N P.
Hypothesis Dneg : forall P, D (pneg P) = D P.
Hypothesis D0 : D pzero = (0)%F.
Hypothesis N0 : N pzero <> (0)%F.
Hypothesis Hdbl : forall P, S P -> exists z, z <> (0)%F /\
  ((N P * N P - D P * D P) * (N P * N P - D P * D P) = N (padd a d P P) * z)%F /\
  (of_Z 4 * (N P * D P) * (N P * N P + mont_A * (N P * D P) + D P * D P) = D (padd a d P P) * z)%F.
Hypothesis Hadd : forall P Q, S P -> S Q -> N (padd a d P (pneg Q)) <> (0)%F -> D (padd a d P (pneg Q)) <> (0)%F -> exists z, z <> (0)%F /\
  (D (padd a d P (pneg Q)) * (of_Z 4 * ((N P * N Q - D P * D Q) * (N P * N Q - D P * D Q))) = N (padd a d P Q) * z)%F /\
  (N (padd a d P (pneg Q)) * (of_Z 4 * ((D P * N Q - N P * D Q) * (D P * N Q - N P * D Q))) = D (padd a d P Q) * z)%F.
Variable Q : point.
Hypothesis HQ : S Q.
Hypothesis NQ : N Q <> (0)%F.
Hypothesis DQ : D Q <> (0)%F.
Let u := (N Q / D Q)%F.
Lemma step2_rep : forall k b x, 0 <= k -> lrep N D (fst x) (pmul a d k Q) -> lrep N D (snd x) (pmul a d (k + 1) Q) ->
  lrep N D (fst (step2 u b x)) (pmul a d (2 * k + Z.b2z b) Q) /\ lrep N D (snd (step2 u b x)) (pmul a d (2 * k + Z.b2z b + 1) Q).
Proof.
  intros k b x Hk H0 H1. unfold step2. destruct b; cbn [Z.b2z].
  - pose proof (step_rep a d S N D G Nneg Dneg Hdbl Hadd Q HQ NQ DQ k true (snd x, fst x) Hk) as K. cbn [fst snd Z.b2z] in K. replace (k + 1 - 1) with k in K by ring. specialize (K H1 H0). cbv zeta in K. destruct K as [K0 K1].
    cbn [fst snd]. split; [replace (2 * k + 1) with (2 * k + 1 + 1 - 1) by ring; exact K1|exact K0].
  - pose proof (step_rep a d S N D G Nneg Dneg Hdbl Hadd Q HQ NQ DQ k false x Hk) as K. cbn [Z.b2z] in K. replace (k + 1 - 0) with (k + 1) in K by ring. replace (k + 0) with k in K by ring.
    specialize (K H0 H1). cbv zeta in K. destruct K as [K0 K1]. replace (2 * k + 0 + 1) with (2 * k + 0 + 1 - 0) by ring. replace (2 * k + 0) with (2 * k + 0 + 0) at 1 by ring. split; [exact K0|exact K1].
Qed.
Lemma both_rep : forall n, lrep N D (fst (both u n)) (pmul a d (Zpos n) Q) /\ lrep N D (snd (both u n)) (pmul a d (Zpos n + 1) Q).
Proof.
  induction n as [m [I0 I1]|m [I0 I1]|]; cbn [both].
  - exact (step2_rep (Zpos m) true _ ltac:(lia) I0 I1).
  - exact (step2_rep (Zpos m) false _ ltac:(lia) I0 I1).
  - apply (step2_rep 0 true); [lia| |]; cbn [fst snd].
    + rewrite pmul_0. exists (finv (N pzero)). split; [apply finv_nonzero; exact N0|]. cbn [fst snd]. rewrite D0. split; [field; exact N0|ring].
    + change (0 + 1) with 1. rewrite pmul_1. exists (finv (D Q)). split; [apply finv_nonzero; exact DQ|]. cbn [fst snd]. unfold u. split; field; exact DQ.
Qed.
Lemma both_val : forall n, lval (fst (both u n)) = (N (pmul a d (Zpos n) Q) * finv (D (pmul a d (Zpos n) Q)))%F.
Proof. intro n. apply lval_rep. exact (proj1 (both_rep n)). Qed.
End Track.
Lemma both_ed : forall Q n, on_ed Q -> (fst Q * snd Q)%F <> (0)%F -> lval (fst (both (edN Q / edD Q)%F n)) = uc (pmul ed_a ed_d (Zpos n) Q).
Proof.
  intros Q n H Nz. apply fmul_nonzero_inv in Nz. destruct Nz as [Nx Ny]. rewrite (both_val ed_a ed_d on_ed edN edD ed_group); try assumption.
  - reflexivity.
  - intros [x y]. reflexivity.
  - intros [x y]. unfold edD, pneg. cbn [fst]. ring.
  - Local Transparent pzero. unfold edD, pzero. cbn [fst]. ring.
  - unfold edN, pzero. cbn [snd]. replace (1 * 1)%F with (1 : F)%F by ring. exact F_1_neq_0.
  - exact ed_mont_dbl.
  - exact ed_mont_add.
  - apply fmul_nonzero; assumption.
  - apply fmul_nonzero; assumption.
Qed.
Lemma both_mo : forall P n, on_mont mont_A (1)%F P -> ucoord P <> (0)%F -> lval (fst (both (ucoord P) n)) = ucoord (mont_mul mont_A (1)%F (Zpos n) P).
Proof.
  intros P n H Nu. destruct curve_c as (c & HA & Nc). set (d := ((mont_A + of_Z 2) / (c * c))%F). pose proof (dcc _ c Nc : (d * (c * c))%F = (mont_A + of_Z 2)%F) as Hd.
  destruct (psi_mul mont_A c d HA Nc nsq_A2 Hd (Zpos n) P H) as [HM EM]. pose proof (psi_on mont_A c d HA Nc nsq_A2 Hd P H) as OP.
  assert (Hs : ((1) * (1) = (1) :> F)%F) by ring. assert (HAs : mont_A = (1 * mont_A)%F) by ring.
  assert (U : ucoord P = (moN (1)%F (psi c P) / moD (psi c P))%F). { rewrite <- (psi_ucoord mont_A c nsq_A2 P H). unfold moN, moD. rewrite !(Fdiv_def F_field). ring. }
  assert (DP : moD (psi c P) <> (0)%F). { intro E. apply Nu. rewrite U, E, (Fdiv_def F_field), finv_0. ring. }
  assert (NP : moN (1)%F (psi c P) <> (0)%F). { intro E. apply Nu. rewrite U, E, (Fdiv_def F_field). ring. }
  rewrite U. rewrite (both_val (1)%F d (on_curve (1)%F d) (moN (1)%F) moD (MontTheory.G mont_A c d nsq_A2 Hd)); try assumption.
  - rewrite <- (psi_ucoord mont_A c nsq_A2 _ HM), EM. unfold moN, moD. rewrite !(Fdiv_def F_field). ring.
  - intros [x y]. reflexivity.
  - intros [x y]. reflexivity.
  - unfold moD, pzero. cbn [snd]. ring.
  - unfold moN, pzero. cbn [snd]. replace (1 * (1 + 1))%F with (of_Z 2) by ring. exact F_2_neq_0.
  - apply (mo_dbl (1)%F mont_A c d); assumption || exact nsq_A2.
  - apply (mo_add (1)%F mont_A c d); assumption || exact nsq_A2.
Qed.

(** ** Edwards integers and Montgomery integers *)
Local Notation "n ∘ P" := (zmul ed_a ed_d n P) (at level 40).
Lemma ell_five : 5 < ell. Proof. reflexivity. Qed.
Lemma ell_pos2 : 0 < ell. Proof. reflexivity. Qed.
Lemma full_axis : (fst g_full * snd g_full)%F <> (0)%F.
Proof.
  assert (E1 : 1 ∘ g_full = g_full) by (rewrite zmul_nonneg by lia; apply pmul_1). destruct g_full as [x y] eqn:E. rewrite <- E in E1 at 1. intro K. cbn [fst snd] in K. apply (axis_multiple 1 x y) in K; [|exact E1].
  apply Z.divide_pos_le in K; [|lia]. pose proof ell_five. lia.
Qed.
Lemma full_uc : uc g_full = (edN g_full / edD g_full)%F.
Proof. unfold uc, edN, edD. rewrite (Fdiv_def F_field). reflexivity. Qed.
Lemma full_uc_nz : uc g_full <> (0)%F.
Proof.
  pose proof full_axis as K. apply fmul_nonzero_inv in K. destruct K as [Kx Ky]. unfold uc. apply fmul_nonzero; [apply fmul_nonzero; exact Ky|apply finv_nonzero; apply fmul_nonzero; exact Kx].
Qed.
Section Slope.
Variable g : mpoint.
Hypothesis Gn : generates (1)%F ell g.
Lemma slope : exists t, 0 <= t /\ forall n, uc (n ∘ g_full) = line_u (1)%F ell g (t * n).
Proof.
  pose proof ell_pos2 as EP. destruct (proj1 (uc_image (uc g_full)) (ex_intro _ g_full (conj on_full eq_refl))) as [_ [v Hv]].
  assert (HP : on_mont mont_A (1)%F (Some (uc g_full, v))). { cbn [on_mont]. transitivity (v * v)%F; [ring|exact Hv]. }
  destruct (proj1 (proj2 Gn) _ HP) as (t & Ht & Et). exists t. split; [lia|]. intro n.
  assert (R : exists m, n mod (4 * ell) + 4 * ell = Zpos m). { pose proof (Z.mod_pos_bound n (4 * ell) ltac:(lia)). exists (Z.to_pos (n mod (4 * ell) + 4 * ell)). rewrite Z2Pos.id by lia. reflexivity. }
  destruct R as [m Hm]. assert (E : n ∘ g_full = (Zpos m) ∘ g_full). { apply full_inj. rewrite <- Hm. rewrite <- Zplus_mod_idemp_r, Z.mod_same, Z.add_0_r, Z.mod_mod by lia. reflexivity. }
  rewrite E, zmul_nonneg by lia. rewrite <- (both_ed g_full m on_full full_axis), <- full_uc.
  change (uc g_full) with (ucoord (Some (uc g_full, v))). rewrite (both_mo _ m HP) by exact full_uc_nz. rewrite Et.
  rewrite (mont_mul_assoc (1)%F (or_introl eq_refl)) by (lia || exact (proj1 Gn)). unfold line_u. apply f_equal. apply (proj2 (proj2 Gn)); [lia|apply Z.mod_pos_bound; lia|].
  rewrite Z.mod_mod by lia. rewrite <- Hm. rewrite Z.mul_comm. rewrite <- Z.mul_mod_idemp_r by lia. rewrite <- Zplus_mod_idemp_r, Z.mod_same, Z.add_0_r, Z.mod_mod by lia. apply Z.mul_mod_idemp_r. lia.
Qed.
Lemma uc_same : forall m n, uc (m ∘ g_full) = uc (n ∘ g_full) <-> (2 * ell | m - n) \/ (2 * ell | m + n) \/ ((ell | m) /\ (ell | n)).
Proof.
  intros m n. pose proof (on_mult m) as Om. pose proof (on_mult n) as On. destruct (m ∘ g_full) as [x y] eqn:Em. destruct (n ∘ g_full) as [x' y'] eqn:En.
  rewrite (uc_fibre x y x' y' Om On), (signs_multiple m n x y x' y' Em En), (axis_multiple m x y Em), (axis_multiple n x' y' En). tauto.
Qed.
Lemma no_small : forall k, 0 < k < 5 -> ~ (ell | k).
Proof. intros k Hk D. apply Z.divide_pos_le in D; [|lia]. pose proof ell_five. lia. Qed.
Lemma sub_div : forall a b : Z, (ell | a + b * ell) -> (ell | a).
Proof. intros a b [q K]. exists (q - b). lia. Qed.
Lemma slope_half : exists t, rel_prime t (4 * ell) /\ 0 <= t /\ forall n, uc (n ∘ g_full) = line_u (1)%F ell g (t * (2 * n)).
Proof.
  destruct slope as (t & T0 & Ht). pose proof ell_pos2 as EP. pose proof prime_ell as PE. pose proof ell_mod2 as E2. pose proof ell_five as E5.
  assert (K : forall m n, line_same ell (t * m) (t * n) <-> (2 * ell | m - n) \/ (2 * ell | m + n) \/ ((ell | m) /\ (ell | n))).
  { intros m n. rewrite <- uc_same, !Ht. symmetry. apply (u_iff (1)%F ell g o1 Gn). }
  assert (half : forall a, (2 * ell | a) -> (ell | a)) by (intros a [q Q]; exists (2 * q); lia).
  assert (four : forall a, (4 * ell | a) -> (ell | a)) by (intros a [q Q]; exists (4 * q); lia).
  assert (two : forall a, (ell | 2 * a) -> (ell | a)). { intros a D. apply prime_mult in D; [|exact PE]. destruct D as [D|D]; [exfalso; exact (no_small 2 ltac:(lia) D)|exact D]. }
  assert (Nl : ~ (ell | t)).
  { intros [q Q]. assert (X : line_same ell (t * 2) (t * 0)) by (right; right; split; [exists q; lia|exists 0; lia]). apply K in X. destruct X as [X|[X|[X _]]]; apply (no_small 2 ltac:(lia)); [apply half in X; exact X|apply half in X; exact X|exact X]. }
  assert (Ev : (2 | t)).
  { assert (X : line_same ell (t * (2 * ell + 1)) (t * 1)) by (apply K; left; exists 1; ring). destruct X as [[q X]|[X|[_ X]]].
    - exists q. nia.
    - exfalso. apply Nl. apply four in X. apply two. apply (sub_div _ (2 * t)). replace (2 * t + 2 * t * ell) with (t * (2 * ell + 1) + t * 1) by ring. exact X.
    - exfalso. apply Nl. apply half in X. rewrite Z.mul_1_r in X. exact X. }
  destruct Ev as [r Hr]. assert (Od : ~ (2 | r)).
  { intros [q Q]. assert (X : line_same ell (t * (ell + 1)) (t * 1)) by (left; exists q; rewrite Hr, Q; ring). apply K in X. destruct X as [X|[X|[_ X]]].
    - destruct X as [w X]. assert (Y : ell * (2 * w - 1) = 0) by lia. apply Z.mul_eq_0 in Y. lia.
    - apply (no_small 2 ltac:(lia)). apply half in X. apply (sub_div _ 1). replace (2 + 1 * ell) with (ell + 1 + 1) by ring. exact X.
    - exact (no_small 1 ltac:(lia) X). }
  exists r. split; [|split; [lia|intro n; rewrite Ht; f_equal; rewrite Hr; ring]]. apply rel_prime_sym. apply rel_prime_sym. apply rel_prime_mult.
  - change 4 with (2 * 2). apply rel_prime_mult; apply rel_prime_sym; apply prime_rel_prime; (exact prime_2 || exact Od).
  - apply rel_prime_sym. apply prime_rel_prime; [exact PE|]. intros [q Q]. apply Nl. exists (2 * q). lia.
Qed.
End Slope.
Lemma unit_generates : forall g t, generates (1)%F ell g -> rel_prime t (4 * ell) -> 0 <= t -> generates (1)%F ell (mont_mul mont_A (1)%F t g).
Proof.
  intros g t Gn Rp T0. pose proof ell_pos2 as EP. pose proof (proj1 Gn) as Og. assert (CT : curve_or_twist (1)%F) by (left; reflexivity). split; [apply mont_mul_on; [exact CT|exact Og]|]. split.
  - intros P HP. destruct (proj1 (proj2 Gn) P HP) as (n & Hn & En). destruct (rel_prime_bezout _ _ Rp) as [a b Bz]. exists ((n * a) mod (4 * ell)). split; [apply Z.mod_pos_bound; lia|].
    pose proof (Z.mod_pos_bound (n * a) (4 * ell) ltac:(lia)) as Rg. rewrite (mont_mul_assoc _ CT) by (lia || exact Og). rewrite En. apply (proj2 (proj2 Gn)); [lia|nia|].
    rewrite Z.mul_mod_idemp_l by lia. replace (n * a * t) with (n + (- (n * b)) * (4 * ell)); [symmetry; apply Z.mod_add; lia|]. replace (n * a * t) with (n * (a * t)) by ring. replace (a * t) with (1 - b * (4 * ell)) by lia. ring.
  - intros m n Hm Hn. rewrite !(mont_mul_assoc _ CT) by (lia || exact Og). rewrite (proj2 (proj2 Gn)) by nia. rewrite <- !LineMain.mod_div by lia. replace (m * t - n * t) with (t * (m - n)) by ring. split.
    + intro D. apply Gauss with t; [exact D|]. apply rel_prime_sym. exact Rp.
    + intro D. apply Z.divide_mul_r. exact D.
Qed.
Theorem bridge_exists : exists g, bridges g.
Proof.
  destruct (generators _ _ o1) as [h Hh]. destruct (slope_half h Hh) as (t & Rp & T0 & Ht). exists (mont_mul mont_A (1)%F t h). pose proof ell_pos2 as EP. split; [apply unit_generates; assumption|].
  intro n. rewrite multiple_z. change (ed_u (n ∘ g_full)) with (uc (n ∘ g_full)). rewrite Ht. unfold line_u. apply f_equal. pose proof (Z.mod_pos_bound (2 * n) (4 * ell) ltac:(lia)). rewrite (mont_mul_assoc (1)%F (or_introl eq_refl)) by (lia || exact (proj1 Hh)).
  apply (proj2 (proj2 Hh)); [apply Z.mod_pos_bound; lia|nia|]. rewrite Z.mod_mod by lia. rewrite Z.mul_mod_idemp_l by lia. f_equal. ring.
Qed.

Section Bridge.
Variable g : mpoint.
Hypothesis Hg : bridges g.
Let Gn : generates (1)%F ell g := proj1 Hg.
Local Notation str := (line_string (1)%F ell g).
Section Run.
Variable B : backend.
Hypothesis Sh : shipped B.
Let L := shipped_laws B Sh.
Theorem bridge_point : forall P n, ed_valid B P -> ed_affine B P = multiple n -> ed_to_montgomery B P = Ok (str (2 * n)).
Proof.
  intros P n V E. rewrite (ed_to_montgomery_ok B L _ _ (rep_of B P V)). rewrite E. unfold line_string. rewrite <- (proj2 Hg n). reflexivity.
Qed.
Theorem bridge_program : forall e, ed_inputs_ok e -> api_run B (AEdToMontgomery (ed_calls e)) = Ok (Some (str (2 * ed_exponent e))).
Proof.
  intros e H. refine (eq_trans (data_meaning B Sh _ (AEdToMontgomery (ed_calls e)) (ed_calls_ok e H)) _). cbn [meaning]. rewrite (ed_invariant e H). cbn [ob]. rewrite <- multiple_z.
  unfold line_string. rewrite <- (proj2 Hg). unfold ed_u. destruct (multiple (ed_exponent e)) as [x y]. reflexivity.
Qed.
Theorem bridge_ladder : forall P n s, ed_valid B P -> ed_affine B P = multiple n -> is_scalar s ->
  (u <- ed_to_montgomery B P ;; mp_mul B u s)%res = Ok (str (2 * n * (sval s + sval s mod 2))).
Proof.
  intros P n s V E Hs. rewrite (bridge_point P n V E). cbn [bind]. apply (line_mul (1)%F ell g o1 Gn B Sh); [apply le_bytes_bytes|exact Hs|apply stands_string].
Qed.
Theorem bridge_mul : forall P n s, ed_valid B P -> ed_affine B P = multiple n -> is_scalar s ->
  (Q <- ed_scalar_mul B P s ;; ed_to_montgomery B Q)%res = Ok (str (2 * (n * sval s))).
Proof.
  intros P n s V E Hs. pose proof (scalar_range s Hs) as R. destruct (ed_scalar_mul_ok B L P _ s (rep_of B P V) Hs) as (Q & EQ & HQ). rewrite EQ. cbn [bind]. rewrite (ed_to_montgomery_ok B L _ _ HQ).
  rewrite E. unfold line_string. rewrite <- (proj2 Hg). replace (multiple (n * sval s)) with (pmul ed_a ed_d (sval s) (multiple n)); [reflexivity|].
  rewrite !multiple_z. rewrite <- zmul_nonneg by lia. rewrite <- (a_mul_mul _ _ _ _ _ _ ed_ab) by exact on_full. f_equal. ring.
Qed.
Theorem bridge_odd : forall P n s, ed_valid B P -> ed_affine B P = multiple n -> is_scalar s ->
  ((u <- ed_to_montgomery B P ;; mp_mul B u s)%res = (Q <- ed_scalar_mul B P s ;; ed_to_montgomery B Q)%res <->
   Z.even (sval s) = true \/ (ell | n) \/ (2 * ell | n * (2 * sval s + 1))).
Proof.
  intros P n s V E Hs. pose proof ell_pos2 as EP. rewrite (bridge_ladder P n s V E Hs), (bridge_mul P n s V E Hs). transitivity (line_same ell (2 * n * (sval s + sval s mod 2)) (2 * (n * sval s))).
  { rewrite <- (string_iff (1)%F ell g o1 Gn). split; [apply ok_inj|intros ->; reflexivity]. }
  rewrite Zmod_even. destruct (Z.even (sval s)).
  - split; [intros _; left; reflexivity|]. intros _. left. exists 0. ring.
  - split.
    + intros [[q K]|[[q K]|[[q K] [r M]]]]; right.
      * left. exists (2 * q). lia.
      * right. exists q. lia.
      * left. exists (q - r). lia.
    + intros [X|[[q X]|[q X]]]; [discriminate| |].
      * right. right. split; [exists (q * (sval s + 1))|exists (q * sval s)]; rewrite X; ring.
      * right. left. exists q. lia.
Qed.
Lemma gen_multiple : ed_valid B (ed_generator B) /\ ed_affine B (ed_generator B) = multiple (ell + 1).
Proof. destruct (EdwardsCases.gen_valid B Sh) as [V E]. split; [exact V|]. rewrite E, multiple_z. exact base_multiple. Qed.
Theorem bridge_generator : mp_generator = str (2 * (ell + 1)).
Proof.
  destruct gen_multiple as [V E]. pose proof (bridge_point _ _ V E) as K. rewrite (generator_u B Sh) in K. apply ok_inj in K. exact K.
Qed.
Theorem bridge_public : forall s, is_scalar s -> mp_mul B mp_generator s = Ok (str (2 * (ell + 1) * (sval s + sval s mod 2))).
Proof.
  intros s Hs. rewrite bridge_generator. apply (line_mul (1)%F ell g o1 Gn B Sh); [apply le_bytes_bytes|exact Hs|apply stands_string].
Qed.
Theorem bridge_image : forall m, (exists P, ed_valid B P /\ ed_to_montgomery B P = Ok (str m)) <-> (2 | m).
Proof.
  intro m. split.
  - intros (P & V & E). destruct (full_all (ed_affine B P) (valid_on B P V)) as (n & _ & En). rewrite <- multiple_z in En. rewrite (bridge_point P n V En) in E. apply ok_inj in E.
    apply (string_iff (1)%F ell g o1 Gn) in E. destruct E as [[q K]|[[q K]|[_ [q K]]]]; [exists (n - 2 * ell * q)|exists (2 * ell * q - n)|exists (ell * q)]; lia.
  - intros [n ->]. assert (O : on_ed (multiple n)) by (rewrite multiple_z; apply on_mult). destruct (ed_of B Sh _ O) as (P & V & E). exists P. split; [exact V|]. rewrite (bridge_point P n V E). do 2 f_equal. ring.
Qed.
End Run.
End Bridge.

(** The generator with 1, where the two sides differ, and with (l - 1) / 2, an odd scalar where they agree. *)
Lemma half_scalar : 0 <= (ell - 1) / 2 < 2 ^ 448 /\ Z.even ((ell - 1) / 2) = false /\ 2 * ((ell - 1) / 2) + 1 = ell.
Proof. Local Transparent ell. vm_compute. repeat split; discriminate. Qed.
Local Opaque ell.
Lemma four_gen : (2 | ell + 1). Proof. Local Transparent ell. exists ((ell + 1) / 2). vm_compute. reflexivity. Qed.
Local Opaque ell.
Theorem bridge_case : let h := digits 32 14 ((ell - 1) / 2) in is_scalar h /\ Z.even (sval h) = false /\
  forall B, shipped B -> ed_valid B (ed_generator B) /\ ed_affine B (ed_generator B) = multiple (ell + 1) /\
    (u <- ed_to_montgomery B (ed_generator B) ;; mp_mul B u h)%res = (Q <- ed_scalar_mul B (ed_generator B) h ;; ed_to_montgomery B Q)%res /\
    (u <- ed_to_montgomery B (ed_generator B) ;; mp_mul B u (digits 32 14 1))%res <> (Q <- ed_scalar_mul B (ed_generator B) (digits 32 14 1) ;; ed_to_montgomery B Q)%res.
Proof.
  destruct half_scalar as (R & Ev & E2). destruct (digits_scalar _ R) as [Hs Vs]. cbv zeta. split; [exact Hs|]. split; [rewrite Vs; exact Ev|]. intros B Sh. destruct (gen_multiple B Sh) as [V E]. split; [exact V|]. split; [exact E|].
  destruct bridge_exists as [g Hg]. destruct (n_scalar 1 ltac:(lia)) as [H1 V1]. pose proof ell_five as E5. split.
  - apply (bridge_odd g Hg B Sh _ (ell + 1) _ V E Hs). right. right. rewrite Vs, E2. destruct four_gen as [q Q]. rewrite Q. exists q. ring.
  - intro K. apply (bridge_odd g Hg B Sh _ (ell + 1) _ V E H1) in K. rewrite V1 in K. destruct K as [K|[[q K]|[q K]]]; [discriminate| |].
    + apply (no_small 1 ltac:(lia)). exists (q - 1). lia.
    + apply (no_small 3 ltac:(lia)). exists (2 * q - 3). lia.
Qed.
Theorem bridge_agree : forall B, shipped B -> forall P n s, ed_valid B P -> ed_affine B P = multiple n -> is_scalar s ->
  ((u <- ed_to_montgomery B P ;; mp_mul B u s)%res = (Q <- ed_scalar_mul B P s ;; ed_to_montgomery B Q)%res <->
   Z.even (sval s) = true \/ (ell | n) \/ (2 * ell | n * (2 * sval s + 1))).
Proof. destruct bridge_exists as [g Hg]. exact (bridge_odd g Hg). Qed.

(** ** Public keys on one form, shared secrets on the other *)
Lemma scaled : forall B, shipped B -> forall P n s, ed_valid B P -> ed_affine B P = multiple n -> is_scalar s ->
  exists Q, ed_scalar_mul B P s = Ok Q /\ ed_valid B Q /\ ed_affine B Q = multiple (n * sval s).
Proof.
  intros B Sh P n s V E Hs. pose proof (scalar_range s Hs) as R. destruct (ed_scalar_mul_ok B (shipped_laws B Sh) P _ s (rep_of B P V) Hs) as (Q & EQ & HQ). exists Q. split; [exact EQ|].
  destruct (of_rep B _ _ HQ) as [VQ AQ]. split; [exact VQ|]. rewrite AQ, E, !multiple_z. rewrite <- zmul_nonneg by lia. rewrite <- (a_mul_mul _ _ _ _ _ _ ed_ab) by exact on_full. f_equal. ring.
Qed.
Theorem mixed : forall B, shipped B -> forall P n a b, ed_valid B P -> ed_affine B P = multiple n -> is_scalar a -> is_scalar b ->
  (mixed_secret B P a b = mixed_secret B P b a <-> line_same ell (2 * n * (sval a * (sval b + sval b mod 2))) (2 * n * (sval b * (sval a + sval a mod 2)))).
Proof.
  intros B Sh P n a b V E Ha Hb. destruct bridge_exists as [g Hg]. destruct (scaled B Sh P n a V E Ha) as (Q & EQ & VQ & AQ). destruct (scaled B Sh P n b V E Hb) as (R & ER & VR & AR).
  unfold mixed_secret. rewrite EQ, ER. cbn [bind]. rewrite (bridge_ladder g Hg B Sh Q _ b VQ AQ Hb), (bridge_ladder g Hg B Sh R _ a VR AR Ha). rewrite !Z.mul_assoc.
  rewrite <- (string_iff (1)%F ell g o1 (proj1 Hg)). split; [apply ok_inj|intros ->; reflexivity].
Qed.
Theorem mixed_even : forall B, shipped B -> forall P a b, ed_valid B P -> is_scalar a -> is_scalar b -> Z.even (sval a) = true -> Z.even (sval b) = true -> mixed_secret B P a b = mixed_secret B P b a.
Proof.
  intros B Sh P a b V Ha Hb Ea Eb. destruct (full_all (ed_affine B P) (valid_on B P V)) as (n & _ & En). rewrite <- multiple_z in En. apply (mixed B Sh P n a b V En Ha Hb).
  rewrite !Zmod_even, Ea, Eb. left. exists 0. ring.
Qed.
Lemma gen_four : exists q, ell + 1 = 4 * q. Proof. Local Transparent ell. exists ((ell + 1) / 4). vm_compute. reflexivity. Qed.
Local Opaque ell.
Lemma four_div : forall x, (4 * ell | 2 * (ell + 1) * x) <-> (ell | x).
Proof.
  intro x. destruct gen_four as [q Q]. pose proof ell_five as E5. split.
  - intros [r K]. assert (D : (ell | 2 * (ell + 1) * x)) by (exists (4 * r); lia). assert (D2 : (ell | 2 * x)) by (destruct D as [w W]; exists (w - 2 * x); lia).
    apply prime_mult in D2; [|exact prime_ell]. destruct D2 as [D2|D2]; [exfalso; exact (no_small 2 ltac:(lia) D2)|exact D2].
  - intros [r ->]. rewrite Q. exists (2 * q * r). ring.
Qed.
Lemma same_gen : forall x y, line_same ell (2 * (ell + 1) * x) (2 * (ell + 1) * y) <-> (ell | x - y) \/ (ell | x + y).
Proof.
  intros x y. unfold line_same. rewrite <- Z.mul_sub_distr_l, <- Z.mul_add_distr_l, !four_div. split; [|tauto]. intros [K|[K|[K M]]]; [left; exact K|right; exact K|left].
  assert (H : forall z, (2 * ell | 2 * (ell + 1) * z) -> (ell | z)). { intros z [q Q]. exists (q - z). lia. }
  apply H in K, M. apply Z.divide_sub_r; assumption.
Qed.
Theorem mixed_generator : forall B, shipped B -> forall a b, is_scalar a -> is_scalar b ->
  (mixed_secret B (ed_generator B) a b = mixed_secret B (ed_generator B) b a <->
   (ell | sval a * (sval b + sval b mod 2) - sval b * (sval a + sval a mod 2)) \/ (ell | sval a * (sval b + sval b mod 2) + sval b * (sval a + sval a mod 2))).
Proof.
  intros B Sh a b Ha Hb. destruct (gen_multiple B Sh) as [V E]. exact (iff_trans (mixed B Sh _ (ell + 1) a b V E Ha Hb) (same_gen _ _)).
Qed.
Theorem mixed_case : is_scalar (digits 32 14 1) /\ is_scalar (digits 32 14 2) /\ is_scalar (digits 32 14 4) /\ Z.even (sval (digits 32 14 2)) = true /\ Z.even (sval (digits 32 14 4)) = true /\
  forall B, shipped B -> mixed_secret B (ed_generator B) (digits 32 14 1) (digits 32 14 2) <> mixed_secret B (ed_generator B) (digits 32 14 2) (digits 32 14 1).
Proof.
  destruct (n_scalar 1 ltac:(lia)) as [H1 V1]. destruct (n_scalar 2 ltac:(lia)) as [H2 V2]. destruct (n_scalar 4 ltac:(lia)) as [H4 V4]. rewrite V2, V4. repeat (split; [assumption || reflexivity|]). intros B Sh K.
  apply (mixed_generator B Sh _ _ H1 H2) in K. rewrite V1, V2 in K. change ((ell | -2) \/ (ell | 6)) in K. destruct K as [K|K].
  - apply (no_small 2 ltac:(lia)). apply Z.divide_opp_r in K. exact K.
  - apply Z.divide_pos_le in K; [|lia]. revert K. Local Transparent ell. vm_compute. intro K. apply K. reflexivity.
Qed.
Theorem mixed_x448 : forall B, shipped B -> forall P k k', ed_valid B P -> bytes 56 k -> bytes 56 k' -> let a := scalar_from_bytes (clamp448 k) in let b := scalar_from_bytes (clamp448 k') in
  mixed_secret B P a b = mixed_secret B P b a.
Proof.
  intros B Sh P k k' V Hk Hk'. cbv zeta. destruct (clamp_bytes k Hk) as [Hc Ec]. destruct (clamp_bytes k' Hk') as [Hc' Ec']. destruct (ScalarProofs2.from_bytes_scalar _ Hc) as [Hs Vs]. destruct (ScalarProofs2.from_bytes_scalar _ Hc') as [Hs' Vs'].
  apply (mixed_even B Sh P _ _ V Hs Hs'); [rewrite Vs; exact Ec|rewrite Vs'; exact Ec'].
Qed.
