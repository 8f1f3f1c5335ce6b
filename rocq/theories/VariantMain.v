(** What the variants of signature checking accept. *)
Require Import ZArith Znumtheory List Bool Lia.
From Verif Require Import Base BaseProofs SpecParams SpecField SpecCurve SpecEncoding SpecRfc8032 SpecSignature SpecCount SpecVariants Primes FieldTheory FieldBackend Backends BackendLaws Wp
  ScalarModel ScalarProofs ScalarProofs2 ScalarMain EdwardsTheory CurveTheory AbGroup Order GroupOrder TwistedModel TwistedProofs ScalarMulModel EdwardsModel PointSpec EdSigns EdwardsProofs EdwardsRun
  EdwardsMain MapTheory Signature SignatureVariants Rfc8032Main SignatureMain SignatureCases SignatureLog CountStrings CountTotals.
Import ListNotations.
Open Scope Z_scope.
Open Scope res_scope.
Local Opaque fadd fsub fmul fopp fdiv finv fpow of_Z padd pmul G pzero ell rfc8032_decode rfc8032_encode.
Local Notation "n • P" := (pmul ed_a ed_d n P) (at level 40).
Local Notation "P ⊕ Q" := (padd ed_a ed_d P Q) (at level 50).

Definition direct_spec (A R S h : list Z) : bool :=
  match rfc8032_decode A, rfc8032_decode R with
  | Some A', Some R' => (le_val S <? ell)%Z && same_point (le_val S • G) (R' ⊕ (le_val h mod ell) • A')
  | _, _ => false
  end.

Section Variants.
Variable B : backend.
Hypothesis Sh : shipped B.
Let L := shipped_laws B Sh.

Theorem direct_ok : forall A R S h, bytes 57 A -> bytes 57 R -> bytes 57 S -> bytes 114 h ->
  sig_direct B A R S h = Ok (direct_spec A R S h).
Proof.
  intros A R S h HA HR HS Hh. unfold sig_direct, direct_spec.
  destruct (dec_case B Sh A HA) as [[EA DA]|(a & ca & EA & VA & CA & DA)]; rewrite EA; cbn [bind].
  { rewrite DA. destruct (dec_case B Sh R HR) as [[ER _]|(r & cr & ER & _)]; rewrite ER; cbn [bind];
    (destruct (Z.lt_ge_cases (le_val S) ell) as [Lt|Ge];
     [destruct (canonical_exists S HS Lt) as (s & -> & _)|rewrite (canonical_bytes_reject S HS Ge)]); reflexivity. }
  destruct (dec_case B Sh R HR) as [[ER DR]|(r & cr & ER & VR & CR & DR)]; rewrite ER; cbn [bind].
  { rewrite DR. destruct (Z.lt_ge_cases (le_val S) ell) as [Lt|Ge];
     [destruct (canonical_exists S HS Lt) as (s & -> & _)|rewrite (canonical_bytes_reject S HS Ge)]; cbn [bind]; destruct (rfc8032_decode A); reflexivity. }
  destruct (Z.lt_ge_cases (le_val S) ell) as [Lt|Ge].
  2:{ rewrite (canonical_bytes_reject S HS Ge). cbn [bind]. assert (Q : (le_val S <? ell) = false) by (apply Z.ltb_ge; exact Ge). rewrite Q. cbn [andb].
      destruct (rfc8032_decode A), (rfc8032_decode R); reflexivity. }
  destruct (canonical_exists S HS Lt) as (s & Es & Ss & Vs). rewrite Es. cbn [bind]. rewrite CA, CR. cbn [bind].
  destruct (from_bytes_wide_ok h Hh) as (k & -> & Sk & Vk). cbn [bind].
  pose proof (rep_of B a VA) as RA. pose proof (rep_of B r VR) as RR.
  set (pa := ed_affine B a) in *. set (pr := ed_affine B r) in *. clearbody pa pr.
  destruct (ed_scalar_mul_ok B L _ _ s (ed_generator_rep B L) Ss) as (P1 & -> & H1). cbn [bind].
  destruct (ed_scalar_mul_ok B L _ _ k RA Sk) as (Q1 & -> & I1). cbn [bind]. destruct (ed_add_ok B L _ _ _ _ RR I1) as (Q2 & -> & I2). cbn [bind].
  rewrite (ed_ct_eq_ok B L _ _ _ _ H1 I2). cbn [bind]. apply (f_equal (@Ok bool)). clear H1 I1 I2.
  destruct DA as [[QA DA]|[QA DA]]; rewrite DA.
  2:{ rewrite QA. reflexivity. }
  destruct DR as [[QR DR]|[QR DR]]; rewrite DR.
  2:{ rewrite QR. rewrite andb_false_r. reflexivity. }
  rewrite (proj2 (list_eqb_eq ca A) QA), (proj2 (list_eqb_eq cr R) QR). cbn [andb]. assert (Q : (le_val S <? ell) = true) by (apply Z.ltb_lt; exact Lt). rewrite Q. cbn [andb].
  rewrite <- Vk, <- Vs. reflexivity.
Qed.

(** The string is decoded by the crate, to the point Q. *)
Definition reads (b : list Z) (Q : point) : Prop := exists P, ed_decompress B b = Ok (Some P) /\ ed_affine B P = Q.
Lemma reads_on : forall b Q, bytes 57 b -> reads b Q -> on_ed Q.
Proof. intros b Q Hb (P & E & <-). destruct (ed_decompress_exact B Sh b Hb) as (K & _). exact (valid_on B P (proj1 (K P E))). Qed.
Lemma reads_fun : forall b Q Q', reads b Q -> reads b Q' -> Q = Q'.
Proof. intros b Q Q' (P & E & <-) (P' & E' & <-). rewrite E in E'. apply ok_some_inj in E'. rewrite E'. reflexivity. Qed.
Lemma enc_bytes : forall Q, bytes 57 (rfc8032_encode Q). Proof. intro Q. rewrite encode_same. exact (proj1 (encode_bytes Q)). Qed.
Lemma enc_reads : forall Q, on_ed Q -> reads (rfc8032_encode Q) Q.
Proof.
  intros Q O. pose proof (rfc_roundtrip Q O) as D. apply (crate_decode B Sh _ _ (enc_bytes Q)) in D. destruct D as (P & E & A & _). exists P. split; [exact E|exact A].
Qed.
Lemma rfc_reads : forall b Q, bytes 57 b -> rfc8032_decode b = Some Q -> reads b Q.
Proof. intros b Q Hb D. apply (crate_decode B Sh b Q Hb) in D. destruct D as (P & E & A & _). exists P. split; [exact E|exact A]. Qed.

Theorem loose_ok : forall A R S h QA QR, bytes 57 A -> bytes 57 R -> bytes 57 S -> bytes 114 h -> reads A QA -> reads R QR ->
  sig_loose B A R S h = Ok (rfc8032_verify (rfc8032_encode QA) (rfc8032_encode QR) S h).
Proof.
  intros A R S h QA QR HA HR HS Hh RdA RdR. pose proof (reads_on A QA HA RdA) as OA. pose proof (reads_on R QR HR RdR) as OR.
  unfold sig_loose, rfc8032_verify. rewrite (rfc_roundtrip QA OA), (rfc_roundtrip QR OR).
  destruct RdA as (a & EA & AA), RdR as (r & ER & AR). rewrite EA, ER. cbn [bind].
  destruct (ed_decompress_exact B Sh A HA) as (KA & _). destruct (ed_decompress_exact B Sh R HR) as (KR & _).
  pose proof (rep_of B a (proj1 (KA a EA))) as RA. pose proof (rep_of B r (proj1 (KR r ER))) as RR. rewrite AA in RA. rewrite AR in RR. clear KA KR.
  destruct (Z.lt_ge_cases (le_val S) ell) as [Lt|Ge].
  2:{ rewrite (canonical_bytes_reject S HS Ge). cbn [bind]. assert (Q : (le_val S <? ell) = false) by (apply Z.ltb_ge; exact Ge). rewrite Q. reflexivity. }
  destruct (canonical_exists S HS Lt) as (s & Es & Ss & Vs). rewrite Es. cbn [bind].
  destruct (from_bytes_wide_ok h Hh) as (k & -> & Sk & Vk). cbn [bind].
  destruct (ed_scalar_mul_ok B L _ _ s (ed_generator_rep B L) Ss) as (P1 & -> & H1). cbn [bind].
  destruct (ed_double_ok B L _ _ H1) as (P2 & -> & H2). cbn [bind]. destruct (ed_double_ok B L _ _ H2) as (P3 & -> & H3). cbn [bind].
  destruct (ed_scalar_mul_ok B L _ _ k RA Sk) as (Q1 & -> & I1). cbn [bind]. destruct (ed_add_ok B L _ _ _ _ RR I1) as (Q2 & -> & I2). cbn [bind].
  destruct (ed_double_ok B L _ _ I2) as (Q3 & -> & I3). cbn [bind]. destruct (ed_double_ok B L _ _ I3) as (Q4 & -> & I4). cbn [bind].
  rewrite (ed_ct_eq_ok B L _ _ _ _ H3 I4). apply (f_equal (@Ok bool)). clear H1 H2 H3 I1 I2 I3 I4.
  assert (Q : (le_val S <? ell) = true) by (apply Z.ltb_lt; exact Lt). rewrite Q. cbn [andb].
  pose proof (scalar_range s Ss). pose proof (scalar_range k Sk). pose proof on_G.
  assert (Og : on_ed (sval s • G)) by (apply on_mul; assumption). assert (Ok' : on_ed (sval k • QA)) by (apply on_mul; assumption).
  assert (Or : on_ed (QR ⊕ sval k • QA)) by (apply on_add; assumption).
  rewrite <- !(pmul_4 _ _ _ ed_group) by assumption. rewrite (pmul_padd _ _ _ ed_group) by (assumption || lia).
  rewrite (four_mod QA (le_val h) OA) by (pose proof (array_range 8 114 h ltac:(lia) Hh); unfold le_val; lia). rewrite <- Vk, <- Vs. reflexivity.
Qed.
Lemma loose_reads : forall A R S h, bytes 57 A -> bytes 57 R -> bytes 57 S -> bytes 114 h -> sig_loose B A R S h = Ok true -> exists QA QR, reads A QA /\ reads R QR.
Proof.
  intros A R S h HA HR HS Hh. unfold sig_loose.
  assert (C : exists s, scalar_from_canonical_bytes S = Ok s).
  { destruct (Z.lt_ge_cases (le_val S) ell) as [Lt|Ge]; [destruct (canonical_exists S HS Lt) as (s & -> & _); eexists; reflexivity|rewrite (canonical_bytes_reject S HS Ge); eexists; reflexivity]. }
  destruct C as [s ->]. destruct (dec_case B Sh A HA) as [[EA _]|(a & ca & EA & _)]; destruct (dec_case B Sh R HR) as [[ER _]|(r & cr & ER & _)]; rewrite EA, ER; cbn [bind].
  1-3: intro E; apply ok_inj in E; discriminate E.
  intros _. exists (ed_affine B a), (ed_affine B r). split; eexists; split; try eassumption; reflexivity.
Qed.
Theorem loose_iff : forall A R S h, bytes 57 A -> bytes 57 R -> bytes 57 S -> bytes 114 h ->
  (sig_loose B A R S h = Ok true <-> exists QA QR, reads A QA /\ reads R QR /\ sig_verify B (rfc8032_encode QA) (rfc8032_encode QR) S h = Ok true).
Proof.
  intros A R S h HA HR HS Hh. split.
  - intro E. destruct (loose_reads A R S h HA HR HS Hh E) as (QA & QR & RA & RR). exists QA, QR. split; [exact RA|]. split; [exact RR|].
    rewrite (loose_ok A R S h QA QR HA HR HS Hh RA RR) in E. apply (api_verify B Sh _ _ S h (enc_bytes QA) (enc_bytes QR) HS Hh). apply ok_inj in E. exact E.
  - intros (QA & QR & RA & RR & V). rewrite (loose_ok A R S h QA QR HA HR HS Hh RA RR). apply (api_verify B Sh _ _ S h (enc_bytes QA) (enc_bytes QR) HS Hh) in V. rewrite V. reflexivity.
Qed.

Theorem raw_ok : forall A R S h, bytes 57 A -> bytes 57 R -> bytes 56 S -> bytes 114 h ->
  sig_raw B A R S h = Ok (rfc8032_verify A R (le_bytes 57 (le_val S mod ell)) h).
Proof.
  intros A R S h HA HR HS Hh. unfold sig_raw, rfc8032_verify. pose proof ell_pos as EP. pose proof (Z.mod_pos_bound (le_val S) ell EP) as MB.
  rewrite (le_val_bytes57 _ MB). assert (Q : (le_val S mod ell <? ell) = true) by (apply Z.ltb_lt; lia). rewrite Q. clear Q. cbn [andb].
  destruct (dec_case B Sh A HA) as [[EA DA]|(a & ca & EA & VA & CA & DA)]; rewrite EA; cbn [bind].
  { rewrite DA. destruct (dec_case B Sh R HR) as [[ER _]|(r & cr & ER & _)]; rewrite ER; reflexivity. }
  destruct (dec_case B Sh R HR) as [[ER DR]|(r & cr & ER & VR & CR & DR)]; rewrite ER; cbn [bind].
  { rewrite DR. destruct (rfc8032_decode A); reflexivity. }
  destruct (from_bytes_scalar S HS) as [Ss Vs]. set (s := scalar_from_bytes S) in *. clearbody s. rewrite CA, CR. cbn [bind].
  destruct (from_bytes_wide_ok h Hh) as (k & -> & Sk & Vk). cbn [bind].
  pose proof (rep_of B a VA) as RA. pose proof (rep_of B r VR) as RR. pose proof (valid_on B a VA) as OA. pose proof (valid_on B r VR) as OR.
  set (pa := ed_affine B a) in *. set (pr := ed_affine B r) in *. clearbody pa pr.
  destruct (ed_scalar_mul_ok B L _ _ s (ed_generator_rep B L) Ss) as (P1 & -> & H1). cbn [bind].
  destruct (ed_double_ok B L _ _ H1) as (P2 & -> & H2). cbn [bind]. destruct (ed_double_ok B L _ _ H2) as (P3 & -> & H3). cbn [bind].
  destruct (ed_scalar_mul_ok B L _ _ k RA Sk) as (Q1 & -> & I1). cbn [bind]. destruct (ed_add_ok B L _ _ _ _ RR I1) as (Q2 & -> & I2). cbn [bind].
  destruct (ed_double_ok B L _ _ I2) as (Q3 & -> & I3). cbn [bind]. destruct (ed_double_ok B L _ _ I3) as (Q4 & -> & I4). cbn [bind].
  rewrite (ed_ct_eq_ok B L _ _ _ _ H3 I4). cbn [bind]. apply (f_equal (@Ok bool)). clear H1 H2 H3 I1 I2 I3 I4.
  destruct DA as [[QA DA]|[QA DA]]; rewrite DA.
  2:{ rewrite QA. reflexivity. }
  destruct DR as [[QR DR]|[QR DR]]; rewrite DR.
  2:{ rewrite QR. rewrite andb_false_r. reflexivity. }
  rewrite (proj2 (list_eqb_eq ca A) QA), (proj2 (list_eqb_eq cr R) QR). cbn [andb].
  pose proof (scalar_range s Ss). pose proof (scalar_range k Sk). pose proof on_G.
  assert (Og : on_ed (sval s • G)) by (apply on_mul; assumption). assert (Ok' : on_ed (sval k • pa)) by (apply on_mul; assumption).
  assert (Or : on_ed (pr ⊕ sval k • pa)) by (apply on_add; assumption).
  rewrite <- !(pmul_4 _ _ _ ed_group) by assumption. rewrite (pmul_padd _ _ _ ed_group) by (assumption || lia).
  rewrite (four_mod pa (le_val h) OA) by (pose proof (array_range 8 114 h ltac:(lia) Hh); unfold le_val; lia). rewrite <- Vk, <- Vs.
  rewrite (pmul_mod _ _ _ ed_group ell (sval s) G) by first [assumption|exact ell_G|lia]. reflexivity.
Qed.
Theorem raw_count : forall A R h QA QR, bytes 57 A -> bytes 57 R -> bytes 114 h -> rfc8032_decode A = Some QA -> rfc8032_decode R = Some QR ->
  exists s, 0 <= s < ell /\ (forall S, bytes 57 S -> (sig_verify B A R S h = Ok true <-> le_val S = s)) /\
    exactly (if s <? 2 ^ 448 - 4 * ell then 5 else 4) (fun S => bytes 56 S /\ sig_raw B A R S h = Ok true).
Proof.
  intros A R h QA QR HA HR Hh EA ER. pose proof ell_pos as EP.
  destruct (log_exists QA (proj1 (proj1 (rfc_decode_iff A QA HA) EA))) as [a La]. destruct (log_exists QR (proj1 (proj1 (rfc_decode_iff R QR HR) ER))) as [r Lr].
  pose proof (Z.mod_pos_bound (r + le_val h * a) ell EP) as MB.
  pose proof (fun S HS => api_accepts B Sh A R S h QA QR a r HA HR HS Hh EA ER La Lr) as K. pose proof (fun S HS => rfc_accepts A R S h QA QR a r HS Hh EA ER La Lr) as K'.
  set (s := (r + le_val h * a) mod ell) in *. clearbody s. exists s. split; [exact MB|]. split; [exact K|].
  rewrite <- ell_five by exact MB.
  refine (exactly_ext _ _ _ _ (residues ell s EP MB _)); [|assert (ell < 2 ^ 448) by reflexivity; lia].
  intro S. split; intros [HS E]; (split; [exact HS|]).
  - rewrite (raw_ok A R S h HA HR HS Hh). apply (f_equal (@Ok bool)). apply (K' _ (le_bytes_bytes 57 _)). rewrite E. exact (le_val_bytes57 s MB).
  - rewrite (raw_ok A R S h HA HR HS Hh) in E. apply ok_inj in E. apply (K' _ (le_bytes_bytes 57 _)) in E. rewrite <- E. symmetry. apply le_val_bytes57. apply Z.mod_pos_bound. exact EP.
Qed.

(** ** Without the factor 4 *)
Lemma T_eq_iff : forall m n, 0 <= m -> 0 <= n -> (m • T4 = n • T4 <-> m mod 4 = n mod 4).
Proof.
  intros m n Hm Hn. pose proof ell_pos as EP. rewrite (pmul_mod _ _ _ ed_group 4 m T4), (pmul_mod _ _ _ ed_group 4 n T4) by first [lia|exact on_T4|exact T4_4].
  split; [|intros ->; reflexivity]. intro E. pose proof (Z.mod_pos_bound m 4 ltac:(lia)). pose proof (Z.mod_pos_bound n 4 ltac:(lia)).
  destruct (ed_unique 0 (m mod 4) 0 (n mod 4)) as [_ K]; try lia. rewrite E. reflexivity.
Qed.
Lemma parts_eq_iff : forall m i n j, 0 <= m -> 0 <= i -> 0 <= n -> 0 <= j -> (m • G ⊕ i • T4 = n • G ⊕ j • T4 <-> m mod ell = n mod ell /\ i mod 4 = j mod 4).
Proof.
  intros m i n j Hm Hi Hn Hj. pose proof ell_pos as EP.
  rewrite (pmul_mod _ _ _ ed_group 4 i T4), (pmul_mod _ _ _ ed_group 4 j T4) by first [lia|exact on_T4|exact T4_4].
  rewrite (pmul_mod _ _ _ ed_group ell m G), (pmul_mod _ _ _ ed_group ell n G) by first [assumption|exact on_G|exact ell_G].
  split; [|intros [-> ->]; reflexivity]. intro E. apply ed_unique in E; [exact E|apply Z.mod_pos_bound; lia..].
Qed.
Lemma direct_equation : forall s k a i r j, 0 <= s < ell -> 0 <= k -> 0 <= a -> 0 <= i -> 0 <= r -> 0 <= j ->
  (s • G = (r • G ⊕ j • T4) ⊕ k • (a • G ⊕ i • T4) <-> s = (r + k * a) mod ell /\ (j + k * i) mod 4 = 0).
Proof.
  intros s k a i r j Hs Hk Ha Hi Hr Hj. pose proof on_G as OG. pose proof on_T4 as OT. assert (0 <= k * a) by nia. assert (0 <= k * i) by nia.
  rewrite (pmul_padd _ _ _ ed_group) by first [exact Hk|apply on_mul; assumption]. rewrite <- (pmul_mul _ _ _ ed_group k a), <- (pmul_mul _ _ _ ed_group k i) by assumption.
  rewrite (g_swap _ _ _ ed_group) by (apply on_mul; assumption). rewrite <- (pmul_add _ _ _ ed_group r), <- (pmul_add _ _ _ ed_group j) by assumption.
  assert (E : s • G = s • G ⊕ 0 • T4) by (symmetry; apply padd_0_r). rewrite E, parts_eq_iff by lia. rewrite (Z.mod_small s ell) by lia. rewrite Z.mod_0_l by lia. intuition.
Qed.
Theorem direct_iff : forall A R S h a i r j, bytes 57 A -> bytes 57 R -> bytes 57 S -> bytes 114 h -> 0 <= a -> 0 <= i -> 0 <= r -> 0 <= j ->
  rfc8032_decode A = Some (a • G ⊕ i • T4) -> rfc8032_decode R = Some (r • G ⊕ j • T4) ->
  (sig_direct B A R S h = Ok true <-> le_val S = (r + le_val h * a) mod ell /\ (j + (le_val h mod ell) * i) mod 4 = 0).
Proof.
  intros A R S h a i r j HA HR HS Hh Ha Hi Hr Hj EA ER. pose proof ell_pos as EP. rewrite (direct_ok A R S h HA HR HS Hh). unfold direct_spec. rewrite EA, ER.
  assert (Ps : 0 <= le_val S) by (pose proof (array_range 8 57 S ltac:(lia) HS); unfold le_val; lia). pose proof (Z.mod_pos_bound (le_val h) ell EP) as MB.
  assert (E : (r + le_val h mod ell * a) mod ell = (r + le_val h * a) mod ell) by (rewrite <- Zplus_mod_idemp_r, Zmult_mod_idemp_l, Zplus_mod_idemp_r; reflexivity).
  split.
  - intro V. apply ok_inj in V. apply andb_true_iff in V. destruct V as [Lt V]. apply Z.ltb_lt in Lt. apply same_point_eq in V. apply direct_equation in V; [rewrite E in V; exact V|lia..].
  - intros [V1 V2]. apply (f_equal (@Ok bool)). apply andb_true_iff. assert (Lt : le_val S < ell) by (rewrite V1; apply Z.mod_pos_bound; exact EP). split; [apply Z.ltb_lt; exact Lt|].
    apply same_point_eq. apply direct_equation; first [lia|rewrite E; auto].
Qed.
Theorem direct_stricter : forall A R S h, bytes 57 A -> bytes 57 R -> bytes 57 S -> bytes 114 h -> sig_direct B A R S h = Ok true -> sig_verify B A R S h = Ok true.
Proof.
  intros A R S h HA HR HS Hh V. rewrite (direct_ok A R S h HA HR HS Hh) in V. apply ok_inj in V. rewrite (verify_ok B Sh A R S h HA HR HS Hh). apply (f_equal (@Ok bool)).
  unfold direct_spec in V. unfold rfc8032_verify. destruct (rfc8032_decode A) as [QA|] eqn:EA; [|discriminate V]. destruct (rfc8032_decode R) as [QR|] eqn:ER; [|discriminate V].
  apply andb_true_iff in V. destruct V as [Lt V]. rewrite Lt. cbn [andb]. apply same_point_eq in V. apply same_point_eq. rewrite V.
  pose proof (proj1 (proj1 (rfc_decode_iff A QA HA) EA)) as OA. pose proof (proj1 (proj1 (rfc_decode_iff R QR HR) ER)) as OR.
  rewrite (pmul_padd _ _ _ ed_group) by first [lia|exact OR|apply on_mul; exact OA]. rewrite (four_mod QA (le_val h) OA); [reflexivity|]. pose proof (array_range 8 114 h ltac:(lia) Hh); unfold le_val; lia.
Qed.
Theorem direct_one : forall A S h QA, bytes 57 A -> bytes 57 S -> bytes 114 h -> rfc8032_decode A = Some QA -> le_val S < ell ->
  exactly 1 (fun R => bytes 57 R /\ sig_direct B A R S h = Ok true).
Proof.
  intros A S h QA HA HS Hh EA Lt. pose proof (proj1 (proj1 (rfc_decode_iff A QA HA) EA)) as OA. pose proof ell_pos as EP.
  set (W := (le_val h mod ell) • QA). assert (OW : on_ed W) by (apply on_mul; exact OA). set (V := le_val S • G). assert (OV : on_ed V) by (apply on_mul; exact on_G).
  assert (ON : on_ed (pneg W)) by (apply (eg_neg _ _ _ ed_group); exact OW). assert (OX : on_ed (V ⊕ pneg W)) by (apply on_add; assumption).
  refine (exactly_ext _ _ _ _ (rfc_strings (V ⊕ pneg W) OX)). intro R. split; intros [HR E]; (split; [exact HR|]).
  - rewrite (direct_ok A R S h HA HR HS Hh). unfold direct_spec. rewrite EA, E. apply (f_equal (@Ok bool)). apply andb_true_iff. split; [apply Z.ltb_lt; exact Lt|]. apply same_point_eq. fold W V.
    rewrite (g_assoc _ _ _ ed_group) by assumption. rewrite (g_neg_l _ _ _ ed_group) by assumption. symmetry. apply padd_0_r.
  - rewrite (direct_ok A R S h HA HR HS Hh) in E. apply ok_inj in E. unfold direct_spec in E. rewrite EA in E. destruct (rfc8032_decode R) as [QR|] eqn:ER; [|discriminate E].
    apply andb_true_iff in E. destruct E as [_ E]. apply same_point_eq in E. fold W V in E. pose proof (proj1 (proj1 (rfc_decode_iff R QR HR) ER)) as OR. apply (f_equal (@Some point)). rewrite E.
    rewrite (g_assoc _ _ _ ed_group) by assumption. rewrite (g_neg_r _ _ _ ed_group) by assumption. symmetry. apply padd_0_r.
Qed.

(** ** Without encoding again *)
Lemma T4_one : 1 • T4 = T4. Proof. apply (pmul_1 ed_a ed_d). Qed.
Lemma add_turn : forall Q, Q ⊕ T4 = turn Q. Proof. intros [x y]. exact (pt_T4 x y). Qed.
Lemma on_turn : forall Q, on_ed Q -> on_ed (turn Q). Proof. intros Q O. rewrite <- add_turn. apply on_add; [exact O|exact on_T4]. Qed.
Lemma coset : forall Q W r, log_is Q r -> (log_is W r <-> In W [Q; turn Q; turn (turn Q); turn (turn (turn Q))]).
Proof.
  intros Q W r H. pose proof (log_on Q r H) as O. pose proof on_T4 as OT. pose proof (proj1 H) as Hr.
  assert (D : exists c, (c = 0 \/ c = 1 \/ c = 2 \/ c = 3) /\ Q = r • G ⊕ c • T4).
  { apply (four_points r Hr) in H. apply in_map_iff in H. destruct H as (c & E & I). exists c. split; [cbn [In] in I; intuition congruence|symmetry; exact E]. }
  destruct D as (c & Hc & EQ). assert (OB : on_ed (r • G)) by (apply on_mul; exact on_G).
  pose proof (four_points r Hr W) as FP. set (D := fun n => r • G ⊕ n • T4) in *.
  assert (TN : forall n, 0 <= n -> turn (D n) = D (n + 1)).
  { intros n Hn. unfold D. rewrite <- add_turn. rewrite (g_assoc _ _ _ ed_group) by first [assumption|apply on_mul; exact OT]. rewrite (pmul_add _ _ _ ed_group n 1) by first [lia|exact OT]. rewrite T4_one. reflexivity. }
  assert (TW : forall n, 0 <= n -> D (n + 4) = D n).
  { intros n Hn. unfold D. rewrite (pmul_add _ _ _ ed_group n 4) by first [lia|exact OT]. rewrite T4_4, padd_0_r. reflexivity. }
  assert (EQ' : Q = D c) by exact EQ. clearbody D. clear EQ H O OB Hr.
  pose proof (TW 0 ltac:(lia)) as W0. pose proof (TW 1 ltac:(lia)) as W1. pose proof (TW 2 ltac:(lia)) as W2. rewrite FP, EQ'. cbn [map]. clear FP EQ' TW.
  destruct Hc as [->|[->|[->| ->]]]; rewrite !TN by lia; cbn in *; rewrite ?W0, ?W1, ?W2; tauto.
Qed.
Lemma readings_ok : forall Q, on_ed Q -> exactly (readings Q) (fun b => bytes 57 b /\ reads b Q).
Proof. intros [x y] O. exact (edwards_strings B Sh x y O). Qed.
Lemma turns_nodup : forall Q r, log_is Q r -> NoDup [Q; turn Q; turn (turn Q); turn (turn (turn Q))].
Proof.
  intros Q r H. pose proof (four_distinct r (proj1 H)) as N. refine (NoDup_incl_NoDup N _ _); [cbn; lia|].
  intros W I. apply (four_points r (proj1 H)) in I. apply (coset Q W r H). exact I.
Qed.
Theorem loose_count : forall A S h QA Q, bytes 57 A -> bytes 57 S -> bytes 114 h -> reads A QA -> on_ed Q ->
  sig_verify B (rfc8032_encode QA) (rfc8032_encode Q) S h = Ok true ->
  exactly (coset_readings Q) (fun R => bytes 57 R /\ sig_loose B A R S h = Ok true).
Proof.
  intros A S h QA Q HA HS Hh RA OQ V. pose proof (reads_on A QA HA RA) as OA. destruct (log_exists QA OA) as [a La]. destruct (log_exists Q OQ) as [r Lr].
  pose proof (rfc_roundtrip QA OA) as DA. pose proof (proj1 (api_accepts B Sh _ _ S h QA Q a r (enc_bytes QA) (enc_bytes Q) HS Hh DA (rfc_roundtrip Q OQ) La Lr) V) as E.
  pose proof (turns_nodup Q r Lr) as N. pose proof (on_turn Q OQ) as O1. pose proof (on_turn _ O1) as O2. pose proof (on_turn _ O2) as O3.
  pose proof (fun W => coset Q W r Lr) as C. unfold coset_readings.
  set (Q1 := turn Q) in *. set (Q2 := turn Q1) in *. set (Q3 := turn Q2) in *. clearbody Q1 Q2 Q3.
  inversion N as [|? ? N0 N']; subst. inversion N' as [|? ? N1 N'']; subst. inversion N'' as [|? ? N2 _]; subst. cbn [In] in N0, N1, N2.
  assert (Df : forall b P P', reads b P -> reads b P' -> P <> P' -> False) by (intros b P P' H H' X; exact (X (reads_fun b P P' H H'))).
  refine (exactly_ext _ _ _ _ (exactly_union _ _ _ _ (exactly_union _ _ _ _ (exactly_union _ _ _ _ (readings_ok Q OQ) (readings_ok Q1 O1) _) (readings_ok Q2 O2) _) (readings_ok Q3 O3) _)).
  - intro R. split.
    + intro H. assert (K : bytes 57 R /\ exists W, reads R W /\ In W [Q; Q1; Q2; Q3]).
      { destruct H as [[[[HR H]|[HR H]]|[HR H]]|[HR H]]; (split; [exact HR|]); eexists; (split; [exact H|]); cbn [In]; tauto. }
      destruct K as (HR & W & RW & I). split; [exact HR|]. apply C in I. rewrite (loose_ok A R S h QA W HA HR HS Hh RA RW). apply (f_equal (@Ok bool)).
      apply (rfc_accepts _ _ S h QA W a r HS Hh DA (rfc_roundtrip W (log_on W r I)) La I). exact E.
    + intros [HR H]. apply (loose_iff A R S h HA HR HS Hh) in H. destruct H as (QA' & W & RA' & RW & V'). rewrite <- (reads_fun A QA QA' RA RA') in V'. pose proof (reads_on R W HR RW) as OW.
      destruct (log_exists W OW) as [r' Lr']. apply (api_accepts B Sh _ _ S h QA W a r' (enc_bytes QA) (enc_bytes W) HS Hh DA (rfc_roundtrip W OW) La Lr') in V'.
      assert (X : r' = r).
      { rewrite E in V'. pose proof (proj1 Lr). pose proof (proj1 Lr'). pose proof ell_pos. apply cong in V'. replace (r + le_val h * a - (r' + le_val h * a)) with (r - r') in V' by ring. apply cong in V'. rewrite !Z.mod_small in V' by lia. auto. }
      rewrite X in Lr'. apply C in Lr'. cbn [In] in Lr'. destruct Lr' as [X'|[X'|[X'|[X'|[]]]]]; subst W; tauto.
  - intros b [_ H] [_ H']. apply (Df b _ _ H H'). intros ->. tauto.
  - intros b [[_ H]|[_ H]] [_ H']; apply (Df b _ _ H H'); intros ->; tauto.
  - intros b [[[_ H]|[_ H]]|[_ H]] [_ H']; apply (Df b _ _ H H'); intros ->; tauto.
Qed.
End Variants.

(** The numbers. *)
Lemma fopp_val : forall x : F, x <> of_Z 0 -> fval (fopp x) = p - fval x.
Proof.
  intros x N. pose proof (fval_range x). assert (fval x <> 0%Z). { intro H0. apply N. apply F_eq. rewrite fval_of_Z, H0. reflexivity. }
  transitivity ((- fval x) mod p)%Z; [reflexivity|]. symmetry. apply (Z.mod_unique _ _ (-1)); lia.
Qed.
Lemma not_both_small : forall x : F, x <> of_Z 0 -> fval (fopp x) <= 2 ^ 224 -> fval x <= 2 ^ 224 -> False.
Proof. intros x N. rewrite (fopp_val x N). assert (2 ^ 224 + 2 ^ 224 < p) by reflexivity. lia. Qed.
Lemma four_of_x0 : forall y, on_ed (of_Z 0, y) -> 4 • (of_Z 0, y) = pzero.
Proof.
  intros y O. rewrite (pmul_4 _ _ _ ed_group) by exact O. assert (N : pneg (of_Z 0, y) = (of_Z 0, y)) by (unfold pneg; f_equal; apply fopp_0_iff; reflexivity).
  pose proof (g_neg_r _ _ _ ed_group _ O) as E. rewrite N in E. rewrite E. apply padd_0_r.
Qed.
Lemma four_of_y0 : forall x, on_ed (x, of_Z 0) -> 4 • (x, of_Z 0) = pzero.
Proof.
  intros x O. pose proof (on_turn _ O) as O'. assert (E : 4 • turn (x, of_Z 0) = pzero) by exact (four_of_x0 _ O'). rewrite <- (add_turn (x, of_Z 0)) in E.
  rewrite (pmul_padd _ _ _ ed_group), T4_4, padd_0_r in E by first [lia|exact O|exact on_T4]. exact E.
Qed.
Lemma coset_number : forall Q, on_ed Q -> (4 • Q = pzero -> coset_readings Q = 1280) /\
  (4 • Q <> pzero -> coset_readings Q = 512 \/ coset_readings Q = 640 \/ coset_readings Q = 768).
Proof.
  intros Q O. split; intro H.
  - destruct (four_torsion_ed Q O H) as [->|[->|[->| ->]]]; [| | |rewrite padd_comm, add_turn]; vm_compute; reflexivity.
  - destruct Q as [x y].
    assert (Nx : x <> of_Z 0). { intros ->. apply H. apply four_of_x0. exact O. }
    assert (Ny : y <> of_Z 0). { intros ->. apply H. apply four_of_y0. exact O. }
    unfold coset_readings, readings, turn. cbn [fst snd].
    assert (N1 : fopp x <> of_Z 0) by (intro E; apply Nx; apply (proj1 (fopp_0_iff _)); exact E).
    assert (N2 : fopp y <> of_Z 0) by (intro E; apply Ny; apply (proj1 (fopp_0_iff _)); exact E).
    assert (E2 : fopp (fopp x) = x) by ring.
    rewrite E2. assert (Fz : forall z : F, z <> of_Z 0 -> feqb z (of_Z 0) = false) by (intros z N; destruct (feqb z (of_Z 0)) eqn:E; [apply feqb_eq in E; contradiction|reflexivity]).
    rewrite !Fz by assumption. pose proof (not_both_small x Nx). pose proof (not_both_small y Ny).
    destruct (Z.leb_spec (fval x) (2 ^ 224)), (Z.leb_spec (fval y) (2 ^ 224)), (Z.leb_spec (fval (fopp x)) (2 ^ 224)), (Z.leb_spec (fval (fopp y)) (2 ^ 224)); try tauto; lia.
Qed.
Lemma loose_number : forall B, shipped B -> forall A S h QA Q, bytes 57 A -> bytes 57 S -> bytes 114 h -> reads B A QA -> on_ed Q ->
  sig_verify B (rfc8032_encode QA) (rfc8032_encode Q) S h = Ok true ->
  exists n, exactly n (fun R => bytes 57 R /\ sig_loose B A R S h = Ok true) /\ (4 • Q = pzero -> n = 1280) /\ (4 • Q <> pzero -> n = 512 \/ n = 640 \/ n = 768).
Proof.
  intros B Sh A S h QA Q HA HS Hh RA OQ V. exists (coset_readings Q). split; [exact (loose_count B Sh A S h QA Q HA HS Hh RA OQ V)|exact (coset_number Q OQ)].
Qed.

Lemma components : forall Q, on_ed Q -> exists a i, (0 <= a < ell /\ 0 <= i < 4 /\ Q = a • G ⊕ i • T4) /\
  forall a' i', 0 <= a' < ell -> 0 <= i' < 4 -> Q = a' • G ⊕ i' • T4 -> a' = a /\ i' = i.
Proof.
  intros Q O. destruct (ed_structure Q O) as (a & i & Ha & Hi & E). exists a, i. split; [auto|]. intros a' i' Ha' Hi' E'. rewrite E in E'. destruct (ed_unique a i a' i' Ha Hi Ha' Hi' E'). auto.
Qed.

(** Honest signatures pass. *)
Lemma part_G : forall n, n • G = n • G ⊕ 0 • T4. Proof. intro n. symmetry. apply padd_0_r. Qed.
Lemma direct_complete : forall B, shipped B -> forall s hr hk A R S, is_scalar s -> bytes 114 hr -> bytes 114 hk ->
  sig_public B s = Ok A -> sig_sign B s hr hk = Ok (R, S) -> sig_direct B A R S hk = Ok true.
Proof.
  intros B Sh s hr hk A R S Hs Hr Hk EA ES. rewrite (public_ok B Sh s Hs) in EA. apply ok_inj in EA. rewrite (sign_ok B Sh s hr hk Hs Hr Hk) in ES. apply ok_inj in ES.
  unfold rfc8032_public in EA. unfold rfc8032_sign in ES. pose proof (f_equal fst ES) as E1. pose proof (f_equal snd ES) as E2. cbn [fst snd] in E1, E2. clear ES.
  pose proof (scalar_range s Hs) as Rs. pose proof ell_pos as EP. pose proof (array_range 8 114 hr ltac:(lia) Hr) as Rr. pose proof (array_range 8 114 hk ltac:(lia) Hk) as Rk. fold (le_val hr) in Rr. fold (le_val hk) in Rk.
  assert (HA : bytes 57 A) by (rewrite <- EA; apply enc_bytes). assert (HR : bytes 57 R) by (rewrite <- E1; apply enc_bytes). assert (HS : bytes 57 S) by (rewrite <- E2; apply le_bytes_bytes).
  apply (direct_iff B Sh A R S hk (sval s) 0 (le_val hr) 0 HA HR HS Hk); try lia.
  - rewrite <- EA, <- part_G. apply rfc_roundtrip. apply on_mul. exact on_G.
  - rewrite <- E1, <- part_G. apply rfc_roundtrip. apply on_mul. exact on_G.
  - split; [|rewrite Z.mul_0_r; reflexivity]. rewrite <- E2. apply le_val_bytes57. apply Z.mod_pos_bound. exact EP.
Qed.

(** ** Witnesses and cases *)
Lemma pt_on : forall a i, on_ed (a • G ⊕ i • T4). Proof. intros. apply on_add; apply on_mul; [exact on_G|exact on_T4]. Qed.
Definition pt_enc (a i : Z) : list Z := rfc8032_encode (a • G ⊕ i • T4).
Lemma pt_dec : forall a i, rfc8032_decode (pt_enc a i) = Some (a • G ⊕ i • T4). Proof. intros. apply rfc_roundtrip. apply pt_on. Qed.
Lemma pt_bytes : forall a i, bytes 57 (pt_enc a i). Proof. intros. apply enc_bytes. Qed.
Lemma pt_log : forall a i, 0 <= a < ell -> 0 <= i < 4 -> log_is (a • G ⊕ i • T4) a.
Proof.
  intros a i Ha Hi. apply (four_points a Ha). apply (in_map (fun c => a • G ⊕ c • T4)). cbn [In]. lia.
Qed.
Lemma le_val_114 : forall v, 0 <= v < 2 ^ 912 -> le_val (le_bytes 114 v) = v.
Proof. intros v H. unfold le_val, le_bytes. rewrite eval_digits by lia. apply Z.mod_small. exact H. Qed.
Lemma ell_912 : ell + 1 < 2 ^ 912. Proof. reflexivity. Qed.
Lemma pt_direct : forall B, shipped B -> forall a i r j h, 0 <= a < ell -> 0 <= i < 4 -> 0 <= r < ell -> 0 <= j < 4 -> 0 <= h < 2 ^ 912 ->
  let S := le_bytes 57 ((r + h * a) mod ell) in
  sig_verify B (pt_enc a i) (pt_enc r j) S (le_bytes 114 h) = Ok true /\
  sig_direct B (pt_enc a i) (pt_enc r j) S (le_bytes 114 h) = Ok ((j + h mod ell * i) mod 4 =? 0).
Proof.
  intros B Sh a i r j h Ha Hi Hr Hj Hh S. pose proof ell_pos as EP. assert (HS : bytes 57 S) by apply le_bytes_bytes. assert (Hb : bytes 114 (le_bytes 114 h)) by apply le_bytes_bytes.
  assert (VS : le_val S = (r + h * a) mod ell) by (apply le_val_bytes57; apply Z.mod_pos_bound; exact EP). pose proof (le_val_114 h Hh) as Vh. split.
  - apply (api_accepts B Sh _ _ S _ _ _ a r (pt_bytes a i) (pt_bytes r j) HS Hb (pt_dec a i) (pt_dec r j) (pt_log a i Ha Hi) (pt_log r j Hr Hj)). rewrite Vh. exact VS.
  - pose proof (direct_iff B Sh _ _ S _ a i r j (pt_bytes a i) (pt_bytes r j) HS Hb ltac:(lia) ltac:(lia) ltac:(lia) ltac:(lia) (pt_dec a i) (pt_dec r j)) as K. rewrite Vh in K.
    pose proof (direct_ok B Sh _ _ S _ (pt_bytes a i) (pt_bytes r j) HS Hb) as D. rewrite D in *. apply (f_equal (@Ok bool)).
    destruct (direct_spec _ _ _ _); symmetry; [apply Z.eqb_eq; apply K; reflexivity|]. apply Z.eqb_neq. intro X. assert (Y : @Ok bool false = Ok true) by (apply K; auto). apply ok_inj in Y. discriminate Y.
Qed.
Lemma direct_differs : forall B, shipped B -> exists A R S h, bytes 57 A /\ bytes 57 R /\ bytes 57 S /\ bytes 114 h /\ sig_verify B A R S h = Ok true /\ sig_direct B A R S h = Ok false.
Proof.
  intros B Sh. pose proof ell_pos as EP. assert (E5 : 5 < ell) by reflexivity. assert (P9 : 5 < 2 ^ 912) by reflexivity.
  destruct (pt_direct B Sh 5 1 5 0 3) as [V D]; try lia. exists (pt_enc 5 1), (pt_enc 5 0), (le_bytes 57 ((5 + 3 * 5) mod ell)), (le_bytes 114 3).
  split; [apply pt_bytes|]. split; [apply pt_bytes|]. split; [apply le_bytes_bytes|]. split; [apply le_bytes_bytes|]. split; [exact V|]. rewrite D. rewrite (Z.mod_small 3 ell) by lia. reflexivity.
Qed.
(** The hash is reduced modulo l before it multiplies the key, so its residue modulo 4 is lost. *)
Lemma direct_reduces : forall B, shipped B -> exists A R S h QA QR, bytes 57 A /\ bytes 57 R /\ bytes 57 S /\ bytes 114 h /\ rfc8032_decode A = Some QA /\ rfc8032_decode R = Some QR /\
  le_val S < ell /\ le_val S • G = QR ⊕ le_val h • QA /\ sig_direct B A R S h = Ok false.
Proof.
  intros B Sh. pose proof ell_pos as EP. pose proof ell_912 as P9. pose proof on_T4 as OT.
  destruct (pt_direct B Sh 0 1 0 0 (ell + 1)) as [V D]; try lia. exists (pt_enc 0 1), (pt_enc 0 0), (le_bytes 57 ((0 + (ell + 1) * 0) mod ell)), (le_bytes 114 (ell + 1)), (0 • G ⊕ 1 • T4), (0 • G ⊕ 0 • T4).
  split; [apply pt_bytes|]. split; [apply pt_bytes|]. split; [apply le_bytes_bytes|]. split; [apply le_bytes_bytes|]. split; [apply pt_dec|]. split; [apply pt_dec|].
  assert (E0 : (0 + (ell + 1) * 0) mod ell = 0) by (rewrite Z.mul_0_r; reflexivity). rewrite E0 in *. rewrite (le_val_114 (ell + 1)) by lia. rewrite le_val_bytes57 by lia. split; [exact EP|]. split.
  - apply (direct_equation 0 (ell + 1) 0 1 0 0); try lia. split; [rewrite Z.mul_0_r; reflexivity|]. reflexivity.
  - rewrite D. assert (E1 : 1 < ell) by reflexivity. assert (M : (ell + 1) mod ell = 1) by (symmetry; apply (Z.mod_unique _ _ 1); lia). rewrite M. reflexivity.
Qed.
Lemma loose_zero : forall B, shipped B -> forall h, bytes 114 h ->
  exactly 1280 (fun R => bytes 57 R /\ sig_loose B (rfc8032_encode pzero) R (le_bytes 57 0) h = Ok true).
Proof.
  intros B Sh h Hh. destruct (loose_number B Sh (rfc8032_encode pzero) (le_bytes 57 0) h pzero pzero (enc_bytes pzero) zeros_bytes Hh (enc_reads B Sh pzero on_zero) on_zero (api_any_message B Sh h Hh)) as (n & E & K & _).
  rewrite (K (pmul_zero _ _ 4 ltac:(lia))) in E. exact E.
Qed.
