(** Proofs for C83. *)
Require Import ZArith List Bool Lia.
From Verif Require Import Base BaseProofs Wp SpecParams SpecField SpecCurve SpecDecaf FieldTheory CurveTheory FieldBackend FieldModel FieldU32Model Backends BackendLaws FieldProofs
  FieldMain ScalarModel ScalarProofs ScalarProofs2 ScalarMain TwistedModel EdwardsModel MontgomeryModel DecafModel PointSpec DecafProofs TwistedProofs EdwardsProofs EdwardsMain TwistedMain
  AffineFacts ApiRun DecafTheory DecafGroup DecafRun DecafMain MontgomeryProofs MontgomeryMain EncodingFacts HashModel EqSpec.
Import ListNotations.
Open Scope Z_scope.

(** A comparison of images under a function is an equivalence. *)
Lemma by_image : forall (A V : Type) (ok : A -> Prop) (eq : A -> A -> res bool) (f : A -> V),
  (forall a b, ok a -> ok b -> exists v, eq a b = Ok v /\ (v = true <-> f a = f b)) -> equivalence ok eq.
Proof.
  intros A V ok eq f H. split; [|split].
  - intros a b Ha Hb. destruct (H a b Ha Hb) as (v & Ev & Iv), (H b a Hb Ha) as (w & Ew & Iw). exists v. split; [exact Ev|]. rewrite Ew. apply (f_equal Ok).
    apply Bool.eq_iff_eq_true. rewrite Iv, Iw. split; intro; symmetry; assumption.
  - intros a Ha. destruct (H a a Ha Ha) as (v & Ev & Iv). rewrite Ev. apply (f_equal Ok). apply Iv. reflexivity.
  - intros a b c Ha Hb Hc E1 E2. destruct (H a b Ha Hb) as (v & Ev & Iv), (H b c Hb Hc) as (w & Ew & Iw), (H a c Ha Hc) as (x & Ex & Ix).
    rewrite Ev in E1. rewrite Ew in E2. apply ok_inj in E1, E2. rewrite Ex. apply (f_equal Ok). apply Ix. transitivity (f b); [apply Iv; exact E1|apply Iw; exact E2].
Qed.
Lemma by_bytes : forall eq : list Z -> list Z -> bool, (forall a b, eq a b = true <-> a = b) -> equivalence (fun _ => True) (fun a b => Ok (eq a b)).
Proof. intros eq H. apply (by_image _ _ _ _ (fun a => a)). intros a b _ _. exists (eq a b). split; [reflexivity|apply H]. Qed.

Theorem bytes_equivalences :
  equivalence (fun _ => True) (fun a b => Ok (mp_eq a b)) /\ equivalence (fun _ => True) (fun a b => Ok (cd_eq a b)) /\ equivalence (fun _ => True) (fun a b => Ok (cr_eq a b)) /\
  equivalence is_scalar (fun a b => Ok (scalar_eqb a b)).
Proof.
  split; [exact (by_bytes _ montgomery_bytes_eq)|]. split; [exact (by_bytes _ decaf_bytes_eq)|]. split; [exact (by_bytes _ ristretto_bytes_eq)|].
  apply (by_image _ _ _ _ sval). intros a b Ha Hb. exists (scalar_eqb a b). split; [reflexivity|apply scalar_eqb_ok; assumption].
Qed.
Section Eq.
Variable B : backend.
Hypothesis S : shipped B.
Let L := shipped_laws B S.
Theorem field_equivalence : equivalence (fe_tight B) (fe_ct_eq B).
Proof. apply (by_image _ _ _ _ (fv B)). intros a b Ha Hb. eexists. split; [exact (ct_eq_ok B L a b Ha Hb)|apply feqb_eq]. Qed.
Theorem point_equivalences : equivalence (ed_valid B) (ed_ct_eq B) /\ equivalence (tw_valid B) (tw_ct_eq B) /\ equivalence (xt_valid B) (xt_ct_eq B) /\
  equivalence (twa_valid B) (twa_eq B) /\ equivalence (tw_valid B) (dc_equals B) /\ equivalence (tw_valid B) (rs_equals B) /\
  equivalence (fun N => exists Q, pn_rep B N Q) (pn_eq B).
Proof.
  assert (DE : equivalence (tw_valid B) (dc_equals B)).
  { apply (by_image _ _ _ _ (fun P => decaf_encode (tw_affine B P))). intros P Q VP VQ. destruct (equals_class B S P Q VP VQ) as (e & E & I). exists e. split; [exact E|]. rewrite I.
    split; intro K; apply encode_class; try assumption; apply tw_valid_even; assumption. }
  split; [|split; [|split; [|split; [|split; [|split]]]]]; [| | | |exact DE|exact DE|].
  - apply (by_image _ _ _ _ (ed_affine B)). intros P Q VP VQ. exact (ed_eq_iff B S P Q VP VQ).
  - apply (by_image _ _ _ _ (tw_affine B)). intros P Q VP VQ. eexists. split; [exact (tw_ct_eq_ok B L _ _ _ _ (tw_rep_of B P VP) (tw_rep_of B Q VQ))|apply peqb_eq].
  - apply (by_image _ _ _ _ (xt_affine B)). intros P Q VP VQ. assert (HP : xt_rep B P (xt_affine B P)) by (apply xt_rep_iff; split; [exact VP|reflexivity]).
    assert (HQ : xt_rep B Q (xt_affine B Q)) by (apply xt_rep_iff; split; [exact VQ|reflexivity]). eexists. split; [exact (xt_ct_eq_ok B S _ _ _ _ HP HQ)|apply peqb_eq].
  - apply (by_image _ _ _ _ (twa_affine B)). intros P Q [[TX TY] _] [[TX' TY'] _]. unfold twa_eq. rewrite (ct_eq_ok B L) by assumption. cbn [bind].
    destruct (feqb (fv B (twAx P)) (fv B (twAx Q))) eqn:E.
    + rewrite (ct_eq_ok B L) by assumption. eexists. split; [reflexivity|]. rewrite feqb_eq. apply feqb_eq in E. unfold twa_affine. split; intro K; [rewrite E, K; reflexivity|exact (f_equal snd K)].
    + exists false. split; [reflexivity|]. split; [discriminate|]. unfold twa_affine. intro K. apply (f_equal fst) in K. cbn [fst] in K. apply feqb_eq in K. rewrite K in E. discriminate E.
  - split; [|split].
    + intros M N [P HP] [Q HQ]. exists (peqb P Q). split; [exact (pn_eq_ok B S _ _ _ _ HP HQ)|]. rewrite (pn_eq_ok B S _ _ _ _ HQ HP). apply (f_equal Ok).
      apply Bool.eq_iff_eq_true. rewrite !peqb_eq. split; intro; symmetry; assumption.
    + intros M [P HP]. rewrite (pn_eq_ok B S _ _ _ _ HP HP). apply (f_equal Ok). apply peqb_refl.
    + intros M N K [P HP] [Q HQ] [R HR] E1 E2. rewrite (pn_eq_ok B S _ _ _ _ HP HQ) in E1. rewrite (pn_eq_ok B S _ _ _ _ HQ HR) in E2. apply ok_inj in E1, E2.
      rewrite (pn_eq_ok B S _ _ _ _ HP HR). apply (f_equal Ok). apply peqb_eq. apply peqb_eq in E1, E2. congruence.
Qed.
End Eq.
Theorem hash_ok : hash_agrees (fun _ => True) (fun a b => Ok (mp_eq a b)) mp_hash.
Proof. intros a b _ _ E H s. apply ok_inj in E. apply montgomery_bytes_eq in E. rewrite E. reflexivity. Qed.
(** The hasher that remembers what it is given. *)
Definition recorder : hasher := mkHasher (list (list Z)) (fun s n => s ++ [[n]]) (fun s b => s ++ [b]).
Theorem hash_exact : forall a b, (forall H s, mp_hash H a s = mp_hash H b s) <-> mp_eq a b = true.
Proof.
  intros a b. rewrite montgomery_bytes_eq. split; [|intros ->; reflexivity]. intro E. specialize (E recorder []). unfold mp_hash in E. cbn in E. congruence.
Qed.
Theorem hash_products : forall B, shipped B -> forall a b s t, bytes 56 a -> bytes 56 b -> is_scalar s -> is_scalar t ->
  exists u v, mp_mul B a s = Ok u /\ mp_mul B b t = Ok v /\ ((forall H x, mp_hash H u x = mp_hash H v x) <-> le_val u mod p = le_val v mod p).
Proof.
  intros B S a b s t Ha Hb Hs Ht.
  assert (K : forall c r, bytes 56 c -> is_scalar r -> exists u, mp_mul B c r = Ok u /\ bytes 56 u /\ le_val u < p).
  { intros c r Hc Hr. destruct (mul_exact B S c r Hc Hr) as [(e & v & He & Hv) M]. rewrite (M e v He Hv). eexists. split; [reflexivity|]. split; [apply le_bytes_bytes|].
    set (w := SpecMontgomery.ucoord _). pose proof (fval_range w). assert (p < 2 ^ 448) by reflexivity. rewrite le_val_le_bytes by lia. lia. }
  destruct (K a s Ha Hs) as (u & Eu & Bu & Cu), (K b t Hb Ht) as (v & Ev & Bv & Cv). exists u, v. split; [exact Eu|]. split; [exact Ev|].
  rewrite hash_exact. exact (montgomery_eq_canonical u v Bu Bv Cu Cv).
Qed.
Theorem hash_refuted : exists a b, bytes 56 a /\ bytes 56 b /\ le_val a mod p = le_val b mod p /\ ~ (forall H s, mp_hash H a s = mp_hash H b s).
Proof.
  destruct montgomery_eq_wrong as (a & b & Ha & Hb & E & M & _). exists a, b. split; [exact Ha|]. split; [exact Hb|]. split; [exact M|]. rewrite hash_exact, E. discriminate.
Qed.
Theorem zeroize_ok : forall a, bytes 56 a -> mp_zeroize a = repeat 0 56 /\ mp_is_low_order (mp_zeroize a) = true.
Proof.
  intros a [Hl _]. assert (E : mp_zeroize a = repeat 0 56). { unfold mp_zeroize. rewrite <- Hl. clear Hl. induction a as [|x a IH]; [reflexivity|]. cbn [map length repeat]. rewrite IH. reflexivity. }
  split; [exact E|]. rewrite E. vm_compute. reflexivity.
Qed.
(** Outside the valid points == is no equivalence: coordinates all zero equal every point. *)
Theorem equivalence_refuted : exists P Q R : EdPoint u32_backend,
  ed_ct_eq u32_backend P Q = Ok true /\ ed_ct_eq u32_backend Q R = Ok true /\ ed_ct_eq u32_backend P R = Ok false.
Proof.
  exists (ed_identity u32_backend), (@mkEd u32_backend zero28 zero28 zero28 zero28), (ed_generator u32_backend). vm_compute. auto.
Qed.
Lemma eq_case : bytes 56 mp_generator /\ mp_eq mp_generator LOW_B = false /\ is_scalar scalar_one /\ fe_tight u32_backend one28.
Proof.
  split; [split; [reflexivity|repeat constructor; vm_compute; congruence]|]. split; [reflexivity|]. split; [exact (proj1 scalar_one_ok)|].
  exact (proj1 (l_one _ (shipped_laws _ shipped_u32))).
Qed.
