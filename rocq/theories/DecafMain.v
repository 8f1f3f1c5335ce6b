(** The Decaf properties in the form used by PropsDecaf.v. *)
Require Import ZArith Znumtheory List Bool Lia Ring Field.
From Verif Require Import Base BaseProofs SpecParams SpecField SpecCurve SpecEncoding SpecDecaf FieldTheory FieldBackend FieldModel Backends BackendLaws FieldProofs FieldMain Wp
  ScalarModel ScalarProofs ScalarProofs2 ScalarMain EdwardsTheory CurveTheory TwistedModel ScalarMulModel DecafModel PointSpec EdSigns TwistedProofs ScalarMulProofs EdwardsProofs EdwardsExpr
  EdwardsRun Order GroupOrder EdwardsMain TwistedMain MontTheory MontgomeryMain DecafTheory DecafGroup DecafProofs DecafExpr DecafRun.
Import ListNotations.
Open Scope F_scope.
Open Scope res_scope.
Local Opaque fadd fsub fmul fopp fdiv finv fpow of_Z padd pmul pzero fsqrt G D ell dc_add dc_sub dc_neg dc_mul dc_equals dc_compress dc_decompress even_tw tw_affine.
Local Notation "P ⊕ Q" := (padd tw_a tw_d P Q) (at level 50, left associativity).
Local Notation "n • P" := (pmul tw_a tw_d n P) (at level 40).

Section Main.
Variable B : backend.
Hypothesis S : shipped B.
Let L := shipped_laws B S.
Local Notation rep := (tw_rep B).

Lemma dc_rep : forall P, tw_valid B P -> rep P (tw_affine B P). Proof. exact (tw_rep_of B). Qed.
Lemma id_rep : rep (dc_identity B) pzero. Proof. exact (tw_identity_rep B L). Qed.
Lemma gen_rep : rep (dc_generator B) D. Proof. exact (tw_generator_rep B S). Qed.

Ltac dstep := first
  [ eapply okp_bind; [eapply (dc_add_ok B L); eassumption|]
  | eapply okp_bind; [eapply (dc_sub_ok B L); eassumption|]
  | eapply okp_bind; [eapply (dc_neg_ok B L); eassumption|]
  | eapply okp_bind; [eapply (dc_mul_ok B L); eassumption|] ];
  let R := fresh "R" in let H := fresh "HR" in intros R H; cbv beta in H.
Ltac devens := repeat match goal with H : tw_rep B _ ?Q |- _ => match goal with K : even_tw Q |- _ => fail 1 | _ => pose proof (tw_rep_even B _ _ H) end end.
Ltac deq := apply okp_eq; repeat dstep;
  erewrite (dc_equals_ok B L) by eassumption; apply okp_ret; devens; apply ceqb_class; [assumption|assumption|].

(** ** C43 *)
Theorem equals_class : forall P Q, tw_valid B P -> tw_valid B Q ->
  exists e, dc_equals B P Q = Ok e /\ (e = true <-> same_class (tw_affine B P) (tw_affine B Q)).
Proof.
  intros P Q VP VQ. apply dc_rep in VP, VQ. eexists. split; [exact (dc_equals_ok B L _ _ _ _ VP VQ)|]. devens. apply ceqb_class; assumption.
Qed.
Lemma equals_iff : forall P Q, tw_valid B P -> tw_valid B Q -> (dc_equals B P Q = Ok true <-> same_class (tw_affine B P) (tw_affine B Q)).
Proof.
  intros P Q VP VQ. destruct (equals_class P Q VP VQ) as (e & -> & I). rewrite <- I. split; [apply ok_inj|]. intros ->. reflexivity.
Qed.
Theorem compress_exact : forall P, tw_valid B P -> dc_compress B P = Ok (decaf_encode (tw_affine B P)).
Proof. intros P V. apply (dc_compress_ok B L). apply dc_rep. exact V. Qed.
Theorem compress_function : forall P Q, tw_valid B P -> tw_valid B Q ->
  exists b c e, dc_compress B P = Ok b /\ dc_compress B Q = Ok c /\ dc_equals B P Q = Ok e /\ (e = true <-> b = c).
Proof.
  intros P Q VP VQ. destruct (equals_class P Q VP VQ) as (e & E & I). exists (decaf_encode (tw_affine B P)), (decaf_encode (tw_affine B Q)), e.
  split; [exact (compress_exact P VP)|]. split; [exact (compress_exact Q VQ)|]. split; [exact E|].
  rewrite I. symmetry. apply encode_class; apply tw_valid_even; assumption.
Qed.

(** ** C44, C42 *)
Theorem decompress_canonical : forall b P, bytes 56 b -> dc_decompress B b = Ok (Some P) -> tw_valid B P /\ dc_compress B P = Ok b.
Proof.
  intros b P Hb E. destruct (dc_decode_ok B L b Hb) as (o & E' & H). rewrite E in E'. apply ok_inj in E'. subst o.
  destruct (decaf_decode b) as [q|]; [|contradiction]. destruct H as (_ & _ & Q & HQ & _ & EQ).
  split; [exact (proj1 (tw_of_rep B _ _ HQ))|]. rewrite <- EQ. exact (dc_compress_ok B L _ _ HQ).
Qed.
Theorem decompress_injective : forall b c P Q, bytes 56 b -> bytes 56 c -> dc_decompress B b = Ok (Some P) -> dc_decompress B c = Ok (Some Q) ->
  (dc_equals B P Q = Ok true <-> b = c).
Proof.
  intros b c P Q Hb Hc Eb Ec. destruct (decompress_canonical b P Hb Eb) as [VP CP]. destruct (decompress_canonical c Q Hc Ec) as [VQ CQ].
  rewrite equals_iff by assumption. rewrite <- encode_class by (apply tw_valid_even; assumption).
  rewrite (compress_exact P VP) in CP. rewrite (compress_exact Q VQ) in CQ. apply ok_inj in CP, CQ. rewrite CP, CQ. reflexivity.
Qed.
Lemma accept : forall b, bytes 56 b -> decaf_ok b -> exists P Q, dc_decompress B b = Ok (Some P) /\ rep P Q /\
  same_class Q (decaf_point (of_Z (le_val b))) /\ decaf_encode Q = b.
Proof.
  intros b Hb OK. destruct (dc_decode_ok B L b Hb) as (o & E & H). rewrite (proj1 (ok_decode b) OK) in H. destruct o as [P|]; [|contradiction].
  destruct H as (_ & _ & Q & HQ & C & EQ). exists P, Q. auto.
Qed.
Lemma reject : forall b, bytes 56 b -> ~ decaf_ok b -> dc_decompress B b = Ok None.
Proof.
  intros b Hb N. destruct (dc_decode_ok B L b Hb) as (o & E & H). rewrite (proj2 (ok_decode b) N) in H. destruct o as [P|]; [contradiction|]. exact E.
Qed.
Theorem roundtrip : forall P, tw_valid B P ->
  exists b Q, dc_compress B P = Ok b /\ bytes 56 b /\ dc_decompress B b = Ok (Some Q) /\ tw_valid B Q /\ dc_equals B Q P = Ok true.
Proof.
  intros P V. pose proof (tw_valid_even B P V) as Ev. set (b := decaf_encode (tw_affine B P)).
  destruct (accept b (decaf_encode_bytes _) (encode_ok _ Ev)) as (R & Q & E & HR & _ & EQ). destruct (tw_of_rep B _ _ HR) as [VR AR].
  exists b, R. split; [exact (compress_exact P V)|]. split; [apply decaf_encode_bytes|]. split; [exact E|]. split; [exact VR|].
  apply equals_iff; [exact VR|exact V|]. rewrite AR. apply encode_class; [exact (tw_rep_even B _ _ HR)|exact Ev|exact EQ].
Qed.

(** ** C45 *)
Theorem acceptance : forall b, bytes 56 b -> let s := of_Z (le_val b) in
  let acceptable := (le_val b < p)%Z /\ Z.odd (le_val b) = false /\ s * s <> 1 /\
    is_square ((1 - s * s) * (1 - s * s) + of_Z 156328 * (s * s)) /\ (1 - s * s) * (1 - s * s) + of_Z 156328 * (s * s) <> 0 in
  ((exists P, dc_decompress B b = Ok (Some P)) <-> acceptable) /\
  (dc_decompress B b = Ok None <-> ~ acceptable) /\
  ((exists P, tw_valid B P /\ dc_compress B P = Ok b) <-> acceptable).
Proof.
  intros b Hb s acceptable. change acceptable with (decaf_ok b). clear acceptable.
  assert (A : (exists P, dc_decompress B b = Ok (Some P)) <-> decaf_ok b).
  { split.
    - intros [P E]. destruct (ok_dec b) as [H|H]; [exact H|]. rewrite (reject b Hb H) in E. discriminate E.
    - intro H. destruct (accept b Hb H) as (P & _ & E & _). exists P. exact E. }
  split; [exact A|]. split; [split; [|apply reject; exact Hb]|].
  - intros E H. apply A in H. destruct H as [P E']. rewrite E in E'. discriminate E'.
  - rewrite <- A. split.
    + intros (P & V & E). rewrite (compress_exact P V) in E. apply ok_inj in E. apply A. rewrite <- E. apply encode_ok. apply tw_valid_even; assumption.
    + intros (P & E). exists P. apply decompress_canonical; assumption.
Qed.
Theorem decoded_point : forall b P, bytes 56 b -> dc_decompress B b = Ok (Some P) ->
  tw_valid B P /\ same_class (tw_affine B P) (decaf_point (of_Z (le_val b))).
Proof.
  intros b P Hb E. split; [exact (proj1 (decompress_canonical b P Hb E))|]. destruct (ok_dec b) as [H|H]; [|rewrite (reject b Hb H) in E; discriminate E].
  destruct (accept b Hb H) as (P' & Q & E' & HR & C & _). rewrite E in E'. apply ok_some_inj in E'. subst P'. rewrite (proj2 (tw_of_rep B _ _ HR)). exact C.
Qed.

(** ** C46 *)
Theorem dc_abelian : forall P Q R, tw_valid B P -> tw_valid B Q -> tw_valid B R ->
  (t <- dc_add B P Q ;; l <- dc_add B t R ;; u <- dc_add B Q R ;; r <- dc_add B P u ;; dc_equals B l r) = Ok true /\
  (l <- dc_add B P Q ;; r <- dc_add B Q P ;; dc_equals B l r) = Ok true /\
  (l <- dc_add B P (dc_identity B) ;; dc_equals B l P) = Ok true /\
  (n <- dc_neg B P ;; l <- dc_add B P n ;; dc_equals B l (dc_identity B)) = Ok true /\
  (l <- dc_sub B P Q ;; n <- dc_neg B Q ;; r <- dc_add B P n ;; dc_equals B l r) = Ok true.
Proof.
  intros P Q R VP VQ VR. apply dc_rep in VP, VQ, VR. pose proof id_rep as H0. split; [|split; [|split; [|split]]]; deq.
  - left. apply (g_assoc _ _ _ tw_group); assumption.
  - left. apply padd_comm.
  - left. apply padd_0_r.
  - left. apply (g_neg_r _ _ _ tw_group). assumption.
  - left. reflexivity.
Qed.
Theorem dc_equiv :
  (forall P, tw_valid B P -> dc_equals B P P = Ok true) /\
  (forall P Q, tw_valid B P -> tw_valid B Q -> dc_equals B P Q = Ok true -> dc_equals B Q P = Ok true) /\
  (forall P Q R, tw_valid B P -> tw_valid B Q -> tw_valid B R ->
     dc_equals B P Q = Ok true -> dc_equals B Q R = Ok true -> dc_equals B P R = Ok true).
Proof.
  pose proof (tw_valid_even B) as E. split; [|split].
  - intros P VP. apply equals_iff; [exact VP|exact VP|]. apply class_refl.
  - intros P Q VP VQ. rewrite !equals_iff by assumption. exact (class_sym _ _ (E _ VP) (E _ VQ)).
  - intros P Q R VP VQ VR. rewrite !equals_iff by assumption. exact (class_trans _ _ _ (E _ VP) (E _ VQ) (E _ VR)).
Qed.
Theorem dc_congruence : forall P P' Q Q' s, tw_valid B P -> tw_valid B P' -> tw_valid B Q -> tw_valid B Q' -> is_scalar s ->
  dc_equals B P P' = Ok true -> dc_equals B Q Q' = Ok true ->
  (l <- dc_add B P Q ;; r <- dc_add B P' Q' ;; dc_equals B l r) = Ok true /\
  (l <- dc_sub B P Q ;; r <- dc_sub B P' Q' ;; dc_equals B l r) = Ok true /\
  (l <- dc_neg B P ;; r <- dc_neg B P' ;; dc_equals B l r) = Ok true /\
  (l <- dc_mul B P s ;; r <- dc_mul B P' s ;; dc_equals B l r) = Ok true /\
  dc_equals B P Q = dc_equals B P' Q' /\
  dc_compress B P = dc_compress B P'.
Proof.
  intros P P' Q Q' s VP VP' VQ VQ' Hs E1 E2. pose proof (tw_valid_even B) as Ev.
  assert (C1 : same_class (tw_affine B P) (tw_affine B P')) by (apply equals_iff; assumption).
  assert (C2 : same_class (tw_affine B Q) (tw_affine B Q')) by (apply equals_iff; assumption).
  pose proof (Ev _ VP) as EP. pose proof (Ev _ VP') as EP'. pose proof (Ev _ VQ) as EQ. pose proof (Ev _ VQ') as EQ'.
  split; [|split; [|split; [|split; [|split]]]].
  - apply dc_rep in VP, VP', VQ, VQ'. deq. exact (class_add _ _ _ _ EP EP' EQ EQ' C1 C2).
  - apply dc_rep in VP, VP', VQ, VQ'. deq. exact (class_add _ _ _ _ EP EP' (even_neg _ EQ) (even_neg _ EQ') C1 (class_neg _ _ EQ EQ' C2)).
  - apply dc_rep in VP, VP', VQ, VQ'. deq. exact (class_neg _ _ EP EP' C1).
  - apply dc_rep in VP, VP', VQ, VQ'. deq. exact (class_mul _ _ _ (proj1 (scalar_range s Hs)) EP EP' C1).
  - destruct (equals_class P Q VP VQ) as (e & -> & I). destruct (equals_class P' Q' VP' VQ') as (e' & -> & I'). apply (f_equal Ok).
    assert (X : e = true <-> e' = true).
    { rewrite I, I'. split; intro H.
      - exact (class_trans _ _ _ EP' EP EQ' (class_sym _ _ EP EP' C1) (class_trans _ _ _ EP EQ EQ' H C2)).
      - exact (class_trans _ _ _ EP EP' EQ C1 (class_trans _ _ _ EP' EQ' EQ H (class_sym _ _ EQ EQ' C2))). }
    clear - X. destruct e, e'; try reflexivity; [symmetry|]; tauto.
  - rewrite (compress_exact P VP), (compress_exact P' VP'). apply (f_equal Ok). apply encode_class; [exact EP|exact EP'|exact C1].
Qed.
Theorem dc_ops_valid : forall P Q s, tw_valid B P -> tw_valid B Q -> is_scalar s ->
  (exists R, dc_add B P Q = Ok R /\ tw_valid B R /\ tw_affine B R = tw_affine B P ⊕ tw_affine B Q) /\
  (exists R, dc_sub B P Q = Ok R /\ tw_valid B R /\ tw_affine B R = tw_affine B P ⊕ pneg (tw_affine B Q)) /\
  (exists R, dc_neg B P = Ok R /\ tw_valid B R /\ tw_affine B R = pneg (tw_affine B P)) /\
  (exists R, dc_mul B P s = Ok R /\ tw_valid B R /\ tw_affine B R = sval s • tw_affine B P).
Proof.
  intros P Q s VP VQ Hs. apply dc_rep in VP, VQ. split; [|split; [|split]]; apply tw_ex_rep.
  - exact (dc_add_ok B L _ _ _ _ VP VQ).
  - exact (dc_sub_ok B L _ _ _ _ VP VQ).
  - exact (dc_neg_ok B L _ _ VP).
  - exact (dc_mul_ok B L _ _ _ VP Hs).
Qed.

(** ** C47 *)
Theorem dc_mul_repeat : forall P, tw_valid B P ->
  (forall s, is_scalar s -> sval s = 0%Z -> (r <- dc_mul B P s ;; dc_equals B r (dc_identity B)) = Ok true) /\
  (forall s s', is_scalar s -> is_scalar s' -> sval s' = (sval s + 1)%Z ->
     (l <- dc_mul B P s' ;; t <- dc_mul B P s ;; r <- dc_add B t P ;; dc_equals B l r) = Ok true) /\
  (forall s, is_scalar s -> exists R, dc_mul B P s = Ok R /\ tw_valid B R /\ tw_affine B R = sval s • tw_affine B P).
Proof.
  intros P V. pose proof V as VP. apply dc_rep in V. pose proof id_rep as H0. split; [|split].
  - intros s Hs E. deq. rewrite E. left. reflexivity.
  - intros s s' Hs Hs' E. deq. rewrite E. left. pose proof (scalar_range s Hs). rewrite (pmul_add _ _ _ tw_group) by (lia || assumption). rewrite pmul_1. reflexivity.
  - intros s Hs. apply tw_ex_rep. exact (dc_mul_ok B L _ _ _ V Hs).
Qed.
Lemma class_mod' : forall n P, (0 <= n)%Z -> even_tw P -> same_class ((n mod ell)%Z • P) (n • P).
Proof. intros n P Hn H. apply class_sym; try (apply even_pmul; exact H). apply class_mod; assumption. Qed.
Theorem dc_mul_mod : forall P s s', tw_valid B P -> is_scalar s -> is_scalar s' -> (sval s mod ell = sval s' mod ell)%Z ->
  (l <- dc_mul B P s ;; r <- dc_mul B P s' ;; dc_equals B l r) = Ok true.
Proof.
  intros P s s' V Hs Hs' E. apply dc_rep in V. pose proof (scalar_range s Hs). pose proof (scalar_range s' Hs'). deq.
  pose proof (tw_rep_even B _ _ V) as O. refine (class_trans _ ((sval s mod ell)%Z • tw_affine B P) _ (even_pmul _ _ O) (even_pmul _ _ O) (even_pmul _ _ O) _ _).
  - apply class_mod; [lia|exact O].
  - rewrite E. apply class_mod'; [lia|exact O].
Qed.
Theorem dc_scalar_hom : forall P a b, tw_valid B P -> canonical a -> canonical b ->
  (c <- scalar_add a b ;; l <- dc_mul B P c ;;
   x <- dc_mul B P a ;; y <- dc_mul B P b ;; r <- dc_add B x y ;; dc_equals B l r) = Ok true /\
  (c <- scalar_sub a b ;; l <- dc_mul B P c ;;
   x <- dc_mul B P a ;; y <- dc_mul B P b ;; r <- dc_sub B x y ;; dc_equals B l r) = Ok true /\
  (c <- scalar_mul a b ;; l <- dc_mul B P c ;;
   x <- dc_mul B P b ;; r <- dc_mul B x a ;; dc_equals B l r) = Ok true /\
  (sval a <> 0%Z ->
   (i <- scalar_invert a ;; x <- dc_mul B P a ;; r <- dc_mul B x i ;; dc_equals B r P) = Ok true).
Proof.
  intros P a b V Ca Cb. pose proof (tw_valid_even B P V) as O. apply dc_rep in V. pose proof ell_pos' as EP.
  destruct (canonical_add a b Ca Cb) as (c1 & E1 & C1 & V1). destruct (canonical_sub a b Ca Cb) as (c2 & E2 & C2 & V2).
  destruct (canonical_mul a b Ca Cb) as (c3 & E3 & C3 & V3).
  destruct Ca as [Sa La], Cb as [Sb Lb], C1 as [S1 _], C2 as [S2 _], C3 as [S3 _].
  pose proof (scalar_range a Sa) as Ra. pose proof (scalar_range b Sb) as Rb.
  set (Q := tw_affine B P) in *.
  split; [|split; [|split]].
  - rewrite E1. cbn [bind]. deq. rewrite V1. rewrite <- (pmul_add _ _ _ tw_group) by (lia || exact O). apply class_mod'; [lia|exact O].
  - rewrite E2. cbn [bind]. deq. rewrite V2. replace ((sval a - sval b) mod ell)%Z with ((sval a + ell - sval b) mod ell)%Z.
    2:{ replace (sval a + ell - sval b)%Z with (sval a - sval b + 1 * ell)%Z by ring. apply Z.mod_add. lia. }
    pose proof (even_pmul (sval a) Q O) as OA. pose proof (even_pmul ell Q O) as OE. pose proof (even_pmul (sval b) Q O) as OB.
    refine (class_trans _ ((sval a + ell - sval b)%Z • Q) _ (even_pmul _ _ O) (even_pmul _ _ O) (even_padd _ _ OA (even_neg _ OB)) _ _); [apply class_mod'; [lia|exact O]|].
    rewrite (pmul_sub _ _ _ tw_group (sval a + ell) (sval b) Q) by (exact O || lia). rewrite (pmul_add _ _ _ tw_group (sval a) ell Q) by (exact O || lia).
    refine (class_add _ _ _ _ (even_padd _ _ OA OE) OA (even_neg _ OB) (even_neg _ OB) _ (class_refl _)).
    pose proof (class_add (sval a • Q) (sval a • Q) (ell • Q) pzero OA OA OE even_zero (class_refl _) (class_ell Q O)) as K. rewrite (padd_0_r tw_a tw_d (sval a • Q)) in K. exact K.
  - rewrite E3. cbn [bind]. deq. rewrite V3. rewrite <- (pmul_mul _ _ _ tw_group) by (lia || exact O). apply class_mod'; [nia|exact O].
  - intro N. destruct (scalar_invert_mul a Sa) as (i & Ei & Si & Li & M & _); [rewrite Z.mod_small by lia; exact N|].
    destruct (scalar_mul_ok i a Si Sa) as (m & Em & Sm & Vm). rewrite M in Em. apply ok_inj in Em. rewrite <- Em in *.
    pose proof (scalar_range i Si) as Ri. rewrite Ei. cbn [bind]. deq.
    rewrite <- (pmul_mul _ _ _ tw_group) by (exact O || lia).
    refine (class_trans _ ((sval i * sval a mod ell)%Z • Q) _ (even_pmul _ _ O) (even_pmul _ _ O) O _ _); [apply class_mod; [nia|exact O]|].
    rewrite <- Vm. rewrite (proj2 scalar_one_ok), pmul_1. apply class_refl.
Qed.

(** ** C48 *)
Lemma ell_448 : (0 <= ell < 2 ^ 448)%Z. Proof. split; [exact ell_nonneg|reflexivity]. Qed.
Theorem dc_ell : forall P s, tw_valid B P -> is_scalar s -> sval s = ell ->
  (r <- dc_mul B P s ;; dc_equals B r (dc_identity B)) = Ok true.
Proof.
  intros P s V Hs E. pose proof (tw_valid_even B P V) as O. apply dc_rep in V. pose proof id_rep as H0. deq. rewrite E. apply class_ell. exact O.
Qed.
Lemma small_scalar : forall k, (0 <= k < ell)%Z -> canonical (digits 32 14 k) /\ sval (digits 32 14 k) = k.
Proof.
  intros k H. pose proof ell_448 as E. destruct (digits_scalar k ltac:(lia)) as [Hs V]. split; [split; [exact Hs|rewrite V; lia]|exact V].
Qed.
Theorem dc_generated : forall P, tw_valid B P ->
  exists s, canonical s /\ (r <- dc_mul B (dc_generator B) s ;; dc_equals B r P) = Ok true /\
    forall s', canonical s' -> (r <- dc_mul B (dc_generator B) s' ;; dc_equals B r P) = Ok true -> s' = s.
Proof.
  intros P V. pose proof (tw_valid_even B P V) as O. apply dc_rep in V. destruct (class_gen _ O) as (k & Hk & C). destruct (small_scalar k Hk) as [Cs Vs].
  pose proof gen_rep as HG. exists (digits 32 14 k). split; [exact Cs|]. split.
  - destruct Cs as [Hs _]. deq. rewrite Vs. exact (class_sym _ _ O (even_pmul _ _ even_D) C).
  - intros s' [Hs' Ls'] E. assert (K : okp (r <- dc_mul B (dc_generator B) s' ;; dc_equals B r P) (fun b => b = ceqb (sval s' • D) (tw_affine B P))).
    { dstep. erewrite (dc_equals_ok B L) by eassumption. apply okp_ret. reflexivity. }
    apply okp_eq in K. rewrite K in E. apply ok_inj in E. apply ceqb_class in E; [|apply even_pmul; exact even_D|exact O].
    assert (C' : same_class (sval s' • D) (k • D)).
    { exact (class_trans _ _ _ (even_pmul _ _ even_D) O (even_pmul _ _ even_D) E C). }
    apply class_D_inj in C'; [|split; [apply scalar_range; exact Hs'|exact Ls']|exact Hk].
    apply scalar_inj; [exact Hs'|exact (proj1 Cs)|]. exact (eq_trans C' (eq_sym Vs)).
Qed.
(** The canonical scalars are in bijection with the accepted strings. *)
Theorem dc_order : prime ell /\ (forall s, canonical s -> exists b, (r <- dc_mul B (dc_generator B) s ;; dc_compress B r) = Ok b /\ bytes 56 b /\ decaf_ok b) /\
  (forall b, bytes 56 b -> decaf_ok b -> exists s, canonical s /\ (r <- dc_mul B (dc_generator B) s ;; dc_compress B r) = Ok b /\
     forall s', canonical s' -> (r <- dc_mul B (dc_generator B) s' ;; dc_compress B r) = Ok b -> s' = s).
Proof.
  pose proof gen_rep as HG. split; [exact Primes.prime_ell|].
  assert (K : forall s, is_scalar s -> (r <- dc_mul B (dc_generator B) s ;; dc_compress B r) = Ok (decaf_encode (sval s • D))).
  { intros s Hs. apply okp_eq. dstep. rewrite (dc_compress_ok B L _ _ HR). apply okp_ret. reflexivity. }
  split.
  - intros s [Hs _]. exists (decaf_encode (sval s • D)). split; [apply K; exact Hs|]. split; [apply decaf_encode_bytes|]. apply encode_ok. apply even_pmul. exact even_D.
  - intros b Hb OK. destruct (accept b Hb OK) as (P & Q & E & HQ & _ & EQ). pose proof (tw_rep_even B _ _ HQ) as EvQ.
    destruct (class_gen Q EvQ) as (k & Hk & C). destruct (small_scalar k Hk) as [Cs Vs]. exists (digits 32 14 k). split; [exact Cs|]. split.
    + rewrite K by exact (proj1 Cs). apply (f_equal Ok). rewrite <- EQ, Vs. apply encode_class; [apply even_pmul; exact even_D|exact EvQ|].
      apply class_sym; [exact EvQ|apply even_pmul; exact even_D|exact C].
    + intros s' [Hs' Ls'] E'. rewrite K in E' by exact Hs'. apply ok_inj in E'. rewrite <- EQ in E'.
      apply encode_class in E'; [|apply even_pmul; exact even_D|exact EvQ].
      assert (C' : same_class (sval s' • D) (k • D)) by exact (class_trans _ _ _ (even_pmul _ _ even_D) EvQ (even_pmul _ _ even_D) E' C).
      apply class_D_inj in C'; [|split; [apply scalar_range; exact Hs'|exact Ls']|exact Hk].
      apply scalar_inj; [exact Hs'|exact (proj1 Cs)|]. exact (eq_trans C' (eq_sym Vs)).
Qed.

(** ** C49 *)
Theorem dcexp_valid : forall e, dcexp_ok e ->
  exists o, dcexp_run B e = Ok o /\
    match o with
    | Some P => tw_valid B P /\ exists q, dcexp_val e = Some q /\ same_class (tw_affine B P) q
    | None => dcexp_val e = None
    end.
Proof.
  intros e He. destruct (dcexp_run_ok B L gen_rep e He) as (o & E & H). exists o. split; [exact E|].
  destruct o as [P|], (dcexp_val e) as [q|]; cbn [ocrep] in H; try contradiction; [|reflexivity].
  destruct H as (Eq & Q & HQ & C). destruct (tw_of_rep B _ _ HQ) as [V A]. split; [exact V|]. exists q. split; [reflexivity|]. rewrite A. exact C.
Qed.
Theorem dc_denominators : forall P Q, tw_valid B P -> tw_valid B Q ->
  let (x1, y1) := tw_affine B P in let (x2, y2) := tw_affine B Q in
  1 + tw_d * x1 * x2 * y1 * y2 <> 0 /\ 1 - tw_d * x1 * x2 * y1 * y2 <> 0.
Proof.
  intros P Q VP VQ. pose proof (even_den _ _ (tw_valid_even B P VP) (tw_valid_even B Q VQ)) as H. unfold den_ok in H.
  destruct (tw_affine B P) as [x1 y1], (tw_affine B Q) as [x2 y2]. exact H.
Qed.

(** ** C50 *)
Lemma encode_zero : decaf_encode pzero = repeat 0%Z 56.
Proof.
  apply drel_encode; [split; [reflexivity|]; apply Forall_forall; intros x Hx; apply repeat_spec in Hx; subst x; split; [discriminate|reflexivity]|reflexivity|exact even_zero|].
  rewrite zero_pair. split; [reflexivity|]. exists 1. split; [ring|]. split; [rewrite zero_term; apply fodd_0|]. change (le_val (repeat 0%Z 56)) with 0%Z. ring.
Qed.
Lemma zeros_bytes : bytes 56 (repeat 0%Z 56). Proof. rewrite <- encode_zero. apply decaf_encode_bytes. Qed.
Theorem identity_string :
  dc_compress B (dc_identity B) = Ok (repeat 0%Z 56) /\
  (exists P, dc_decompress B cd_identity = Ok (Some P) /\ dc_equals B P (dc_identity B) = Ok true) /\
  (forall P, tw_valid B P -> (dc_compress B P = Ok (repeat 0%Z 56) <-> dc_equals B P (dc_identity B) = Ok true)).
Proof.
  destruct (tw_of_rep B _ _ id_rep) as [VI AI]. split; [|split].
  - rewrite <- encode_zero. exact (dc_compress_ok B L _ _ id_rep).
  - destruct (roundtrip _ VI) as (b & Q & E & Hb & ED & VQ & EE). rewrite (compress_exact _ VI), AI, encode_zero in E. apply ok_inj in E. subst b.
    exists Q. split; [exact ED|exact EE].
  - intros P V. rewrite (compress_exact P V), equals_iff by assumption. rewrite <- encode_class by (apply tw_valid_even; assumption). rewrite AI, encode_zero.
    split; [apply ok_inj|]. intros ->. reflexivity.
Qed.
End Main.

(** ** C51 *)
Theorem unimplemented : forall B,
  (forall A (self : list Z) sign, MontgomeryModel.mp_to_edwards (A := A) self sign = Panic) /\
  (forall self, rs_encode B self = Panic) /\
  (forall self, rs_decode B self = Panic).
Proof. intro B. split; [|split]; reflexivity. Qed.
Theorem ristretto_equals : forall B, shipped B -> forall P Q,
  rs_equals B P Q = dc_equals B P Q /\
  (tw_valid B P -> tw_valid B Q -> exists e, rs_equals B P Q = Ok e /\ (e = true <-> same_class (tw_affine B P) (tw_affine B Q))).
Proof. intros B S P Q. assert (E : rs_equals B P Q = dc_equals B P Q) by reflexivity. split; [exact E|]. rewrite E. apply equals_class. exact S. Qed.
