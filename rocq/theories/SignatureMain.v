(** Signatures over the crate's API and RFC 8032. *)
Require Import ZArith Znumtheory List Bool Lia.
From Verif Require Import Base BaseProofs SpecParams SpecField SpecCurve SpecEncoding SpecRfc8032 Primes FieldTheory FieldBackend Backends BackendLaws Wp
  ScalarModel ScalarProofs ScalarProofs2 ScalarMain EdwardsTheory CurveTheory AbGroup Order GroupOrder TwistedModel TwistedProofs ScalarMulModel EdwardsModel PointSpec EdSigns EdwardsProofs EdwardsRun
  EdwardsMain Signature Rfc8032Main.
Import ListNotations.
Open Scope Z_scope.
Open Scope res_scope.
Local Opaque fadd fsub fmul fopp fdiv finv fpow of_Z padd pmul G pzero ell rfc8032_decode rfc8032_encode.
Local Notation "n • P" := (pmul ed_a ed_d n P) (at level 40).
Local Notation "P ⊕ Q" := (padd ed_a ed_d P Q) (at level 50).

Lemma same_point_eq : forall P Q, same_point P Q = true <-> P = Q. Proof. exact peqb_eq. Qed.
Lemma ell_pos : 0 < ell. Proof. reflexivity. Qed.
Lemma canonical_exists : forall S, bytes 57 S -> le_val S < ell -> exists s, scalar_from_canonical_bytes S = Ok (Some s) /\ is_scalar s /\ sval s = le_val S.
Proof.
  intros S HS H. destruct (from_canonical_ok S HS) as [K _]. exact (K H).
Qed.

(** Four times a point only sees multiples modulo l. *)
Lemma four_ell : forall A, on_ed A -> ell • (4 • A) = pzero.
Proof.
  intros A O. pose proof ell_pos. destruct (ed_structure A O) as (b & c & Hb & Hc & ->). pose proof on_G. pose proof on_T4.
  assert (S1 : on_ed (b • G)) by (apply (pmul_S _ _ _ ed_group); assumption). assert (S2 : on_ed (c • T4)) by (apply (pmul_S _ _ _ ed_group); assumption).
  rewrite (pmul_padd _ _ _ ed_group) by (assumption || lia). rewrite <- (pmul_mul _ _ _ ed_group 4 c) by (assumption || lia). rewrite (Z.mul_comm 4 c).
  rewrite (pmul_mul _ _ _ ed_group c 4), T4_4, pmul_zero, padd_0_r by (assumption || lia).
  rewrite <- (pmul_mul _ _ _ ed_group 4 b), <- (pmul_mul _ _ _ ed_group ell) by (assumption || lia). rewrite Z.mul_comm.
  rewrite (pmul_mul _ _ _ ed_group (4 * b) ell), ell_G, pmul_zero by (assumption || lia). reflexivity.
Qed.
Lemma four_mod : forall A k, on_ed A -> 0 <= k -> 4 • (k • A) = 4 • ((k mod ell) • A).
Proof.
  intros A k O Hk. pose proof ell_pos. pose proof (Z.mod_pos_bound k ell ell_pos). rewrite <- !(pmul_mul _ _ _ ed_group 4) by (assumption || lia).
  rewrite (Z.mul_comm 4 k), (Z.mul_comm 4 (k mod ell)), !(pmul_mul _ _ _ ed_group _ 4) by (assumption || lia).
  apply (pmul_mod _ _ _ ed_group); [lia|lia|apply (pmul_S _ _ _ ed_group); exact O|exact (four_ell A O)].
Qed.

Section Sig.
Variable B : backend.
Hypothesis Sh : shipped B.
Let L := shipped_laws B Sh.

Lemma dec_case : forall b, bytes 57 b -> (ed_decompress B b = Ok None /\ rfc8032_decode b = None) \/
  exists P c, ed_decompress B b = Ok (Some P) /\ ed_valid B P /\ ed_compress B P = Ok c /\
    ((c = b /\ rfc8032_decode b = Some (ed_affine B P)) \/ (list_eqb c b = false /\ rfc8032_decode b = None)).
Proof.
  intros b Hb. destruct (ed_decompress_exact B Sh b Hb) as (K & _ & _).
  destruct (ed_decompress_ok B L b Hb) as [(P & x & E & HP & _)|[E _]].
  - right. destruct (K P E) as (V & _ & _). exists P, (ed_encode (ed_affine B P)). pose proof (ed_compress_ok B L _ _ (rep_of B P V)) as C.
    split; [exact E|]. split; [exact V|]. split; [exact C|]. destruct (list_eqb (ed_encode (ed_affine B P)) b) eqn:Q.
    + left. apply list_eqb_eq in Q. split; [exact Q|]. apply (crate_decode B Sh b _ Hb). exists P. rewrite Q in C. auto.
    + right. split; [reflexivity|]. destruct (rfc8032_decode b) as [W|] eqn:D; [|reflexivity]. exfalso. apply (crate_decode B Sh b W Hb) in D. destruct D as (P' & E' & _ & C').
      rewrite E in E'. apply ok_some_inj in E'. rewrite <- E', C in C'. apply ok_inj in C'. apply list_eqb_eq in C'. rewrite C' in Q. discriminate Q.
  - left. split; [exact E|]. destruct (rfc8032_decode b) as [W|] eqn:D; [|reflexivity]. exfalso. apply (crate_decode B Sh b W Hb) in D. destruct D as (P' & E' & _).
    rewrite E in E'. discriminate E'.
Qed.

Theorem verify_ok : forall A R S h, bytes 57 A -> bytes 57 R -> bytes 57 S -> bytes 114 h ->
  sig_verify B A R S h = Ok (rfc8032_verify A R S h).
Proof.
  intros A R S h HA HR HS Hh. unfold sig_verify, rfc8032_verify.
  destruct (dec_case A HA) as [[EA DA]|(a & ca & EA & VA & CA & DA)]; rewrite EA; cbn [bind].
  { rewrite DA. destruct (dec_case R HR) as [[ER _]|(r & cr & ER & _)]; rewrite ER; cbn [bind];
    (destruct (Z.lt_ge_cases (le_val S) ell) as [Lt|Ge];
     [destruct (canonical_exists S HS Lt) as (s & -> & _)|rewrite (canonical_bytes_reject S HS Ge)]); reflexivity. }
  destruct (dec_case R HR) as [[ER DR]|(r & cr & ER & VR & CR & DR)]; rewrite ER; cbn [bind].
  { rewrite DR. destruct (Z.lt_ge_cases (le_val S) ell) as [Lt|Ge];
     [destruct (canonical_exists S HS Lt) as (s & -> & _)|rewrite (canonical_bytes_reject S HS Ge)]; cbn [bind]; destruct (rfc8032_decode A); reflexivity. }
  destruct (Z.lt_ge_cases (le_val S) ell) as [Lt|Ge].
  2:{ rewrite (canonical_bytes_reject S HS Ge). cbn [bind]. assert (Q : (le_val S <? ell) = false) by (apply Z.ltb_ge; exact Ge). rewrite Q. cbn [andb].
      destruct (rfc8032_decode A), (rfc8032_decode R); reflexivity. }
  destruct (canonical_exists S HS Lt) as (s & Es & Ss & Vs). rewrite Es. cbn [bind]. rewrite CA, CR. cbn [bind].
  destruct (from_bytes_wide_ok h Hh) as (k & -> & Sk & Vk). cbn [bind].
  pose proof (rep_of B a VA) as RA. pose proof (rep_of B r VR) as RR. pose proof (valid_on B a VA) as OA. pose proof (valid_on B r VR) as OR.
  set (pa := ed_affine B a) in *. set (pr := ed_affine B r) in *. clearbody pa pr.
  destruct (ed_scalar_mul_ok B L _ _ s (ed_generator_rep B L) Ss) as (P1 & -> & H1). cbn [bind].
  destruct (ed_double_ok B L _ _ H1) as (P2 & -> & H2). cbn [bind]. destruct (ed_double_ok B L _ _ H2) as (P3 & -> & H3). cbn [bind].
  destruct (ed_scalar_mul_ok B L _ _ k RA Sk) as (Q1 & -> & I1). cbn [bind]. destruct (ed_add_ok B L _ _ _ _ RR I1) as (Q2 & -> & I2). cbn [bind].
  destruct (ed_double_ok B L _ _ I2) as (Q3 & -> & I3). cbn [bind]. destruct (ed_double_ok B L _ _ I3) as (Q4 & -> & I4). cbn [bind].
  rewrite (ed_ct_eq_ok B L _ _ _ _ H3 I4). cbn [bind]. apply (f_equal (@Ok bool)). clear H1 H2 H3 I1 I2 I3 I4.
  destruct DA as [[QA DA]|[QA DA]]; rewrite DA.
  2:{ rewrite QA. reflexivity. }
  destruct DR as [[QR DR]|[QR DR]]; rewrite DR.
  2:{ rewrite QR. rewrite andb_false_r. reflexivity. }
  rewrite (proj2 (list_eqb_eq ca A) QA), (proj2 (list_eqb_eq cr R) QR). cbn [andb]. assert (Q : (le_val S <? ell) = true) by (apply Z.ltb_lt; exact Lt). rewrite Q. cbn [andb].
  pose proof (scalar_range s Ss). pose proof (scalar_range k Sk). pose proof on_G.
  assert (Og : on_ed (sval s • G)) by (apply (pmul_S _ _ _ ed_group); assumption). assert (Ok' : on_ed (sval k • pa)) by (apply (pmul_S _ _ _ ed_group); assumption).
  assert (Or : on_ed (pr ⊕ sval k • pa)) by (apply (eg_add _ _ _ ed_group); assumption).
  rewrite <- !(pmul_4 _ _ _ ed_group) by assumption. rewrite (pmul_padd _ _ _ ed_group) by (assumption || lia).
  rewrite (four_mod pa (le_val h) OA) by (pose proof (array_range 8 114 h ltac:(lia) Hh); unfold le_val; lia). rewrite <- Vk, <- Vs. reflexivity.
Qed.

Theorem public_ok : forall s, is_scalar s -> sig_public B s = Ok (rfc8032_public (sval s)).
Proof.
  intros s Hs. unfold sig_public, rfc8032_public. destruct (ed_scalar_mul_ok B L _ _ s (ed_generator_rep B L) Hs) as (P & -> & H). cbn [bind].
  rewrite encode_same. exact (ed_compress_ok B L _ _ H).
Qed.
Theorem sign_ok : forall s hr hk, is_scalar s -> bytes 114 hr -> bytes 114 hk ->
  sig_sign B s hr hk = Ok (rfc8032_sign (sval s) (le_val hr) (le_val hk)).
Proof.
  intros s hr hk Hs Hr Hk. unfold sig_sign, rfc8032_sign. pose proof ell_pos as EP.
  destruct (from_bytes_wide_ok hr Hr) as (r & -> & Sr & Vr). cbn [bind]. destruct (from_bytes_wide_ok hk Hk) as (k & -> & Sk & Vk). cbn [bind].
  destruct (ed_scalar_mul_ok B L _ _ r (ed_generator_rep B L) Sr) as (P & -> & H). cbn [bind]. rewrite (ed_compress_ok B L _ _ H). cbn [bind].
  destruct (scalar_mul_ok k s Sk Hs) as (t & -> & St & Vt). cbn [bind].
  destruct (scalar_add_mod r t Sr St) as (u & -> & Su & Vu); [rewrite Vr; apply Z.mod_pos_bound; lia|rewrite Vt; apply Z.mod_pos_bound; lia|]. cbn [bind].
  rewrite (to_bytes_rfc_ok u Su), encode_same, Vu, Vt, Vr, Vk.
  rewrite (pmul_mod _ _ _ ed_group ell (le_val hr) G) by first [lia|exact on_G|exact ell_G|pose proof (array_range 8 114 hr ltac:(lia) Hr); unfold le_val; lia].
  assert (E : (le_val hr mod ell + (le_val hk mod ell * sval s) mod ell) mod ell = (le_val hr + le_val hk * sval s) mod ell).
  { rewrite Zmult_mod_idemp_l. rewrite <- Zplus_mod. reflexivity. }
  rewrite E. reflexivity.
Qed.
End Sig.

Lemma le_val_bytes57 : forall v, 0 <= v < ell -> le_val (le_bytes 57 v) = v.
Proof. intros v H. unfold le_val, le_bytes. rewrite eval_digits by lia. apply Z.mod_small. assert (ell < 2 ^ (8 * Z.of_nat 57)) by reflexivity. lia. Qed.

(** Signatures verify. *)
Theorem rfc_complete : forall s r h, 0 <= s -> 0 <= r -> bytes 114 h ->
  rfc8032_verify (rfc8032_public s) (fst (rfc8032_sign s r (le_val h))) (snd (rfc8032_sign s r (le_val h))) h = true.
Proof.
  intros s r h Hs Hr Hh. pose proof ell_pos as EP. pose proof on_G as OG. assert (Hk : 0 <= le_val h) by (pose proof (array_range 8 114 h ltac:(lia) Hh); unfold le_val; lia).
  assert (Os : on_ed (s • G)) by (apply (pmul_S _ _ _ ed_group); assumption). assert (Or : on_ed (r • G)) by (apply (pmul_S _ _ _ ed_group); assumption).
  unfold rfc8032_verify, rfc8032_public, rfc8032_sign. cbn [fst snd]. rewrite (rfc_roundtrip _ Os), (rfc_roundtrip _ Or). set (k := le_val h) in *. clearbody k.
  pose proof (Z.mod_pos_bound (r + k * s) ell EP) as M. rewrite le_val_bytes57 by exact M. apply andb_true_iff. split; [apply Z.ltb_lt; lia|]. apply same_point_eq.
  assert (0 <= k * s) by nia. rewrite <- (pmul_mod _ _ _ ed_group ell (r + k * s) G) by first [lia|exact OG|exact ell_G].
  rewrite (pmul_add _ _ _ ed_group) by (assumption || lia). rewrite (pmul_mul _ _ _ ed_group k s) by (assumption || lia).
  apply (pmul_padd _ _ _ ed_group); [lia|exact Or|apply (pmul_S _ _ _ ed_group); exact Os].
Qed.
Lemma rfc_reject : forall A R S h, ell <= le_val S -> rfc8032_verify A R S h = false.
Proof.
  intros A R S h H. unfold rfc8032_verify. destruct (rfc8032_decode A); [|reflexivity]. destruct (rfc8032_decode R); [|reflexivity].
  apply Z.ltb_ge in H. rewrite H. reflexivity.
Qed.
(** At most one S is accepted. *)
Theorem rfc_unique : forall A R S S' h, bytes 57 S -> bytes 57 S' -> rfc8032_verify A R S h = true -> rfc8032_verify A R S' h = true -> S = S'.
Proof.
  intros A R S S' h HS HS' E E'. unfold rfc8032_verify in E, E'. destruct (rfc8032_decode A) as [a|]; [|discriminate E]. destruct (rfc8032_decode R) as [r|]; [|discriminate E].
  apply andb_true_iff in E. destruct E as [Lt E]. apply andb_true_iff in E'. destruct E' as [Lt' E']. apply Z.ltb_lt in Lt. apply Z.ltb_lt in Lt'. apply same_point_eq in E. apply same_point_eq in E'.
  rewrite <- E' in E. clear E'. pose proof on_G as OG.
  assert (P1 : 0 <= le_val S) by (pose proof (array_range 8 57 S ltac:(lia) HS); unfold le_val; lia). assert (P2 : 0 <= le_val S') by (pose proof (array_range 8 57 S' ltac:(lia) HS'); unfold le_val; lia).
  assert (Q : le_val S = le_val S').
  { rewrite <- !(pmul_mul _ _ _ ed_group 4) in E by (assumption || lia). set (x := le_val S) in *. set (y := le_val S') in *. clearbody x y. clear HS HS'.
    assert (K : forall u v, 0 <= u <= v -> v < ell -> (4 * u) • G = (4 * v) • G -> u = v).
    { intros u v Huv Hv X. replace (4 * v) with (4 * u + 4 * (v - u)) in X by ring. rewrite (pmul_add _ _ _ ed_group) in X by (assumption || lia).
      assert (Z0 : (4 * (v - u)) • G = pzero).
      { apply (g_cancel_l _ _ _ ed_group ((4 * u) • G)); [apply (pmul_S _ _ _ ed_group); exact OG|apply (pmul_S _ _ _ ed_group); exact OG|exact (eg_0 _ _ _ ed_group)|].
        rewrite padd_0_r. symmetry. exact X. }
      apply G_order_iff in Z0; [|lia]. apply Gauss in Z0; [|apply rel_prime_sym, Zgcd_1_rel_prime; vm_compute; reflexivity]. destruct Z0 as [c Hc]. pose proof ell_pos. assert (c = 0) by nia. subst c. lia. }
    destruct (Z.le_gt_cases x y); [apply K; [lia|lia|exact E]|symmetry; apply K; [lia|lia|symmetry; exact E]]. }
  rewrite <- (bytes_le_bytes 57 S HS), <- (bytes_le_bytes 57 S' HS'), Q. reflexivity.
Qed.

Theorem api_complete : forall B, shipped B -> forall s hr hk A R S, is_scalar s -> bytes 114 hr -> bytes 114 hk ->
  sig_public B s = Ok A -> sig_sign B s hr hk = Ok (R, S) -> sig_verify B A R S hk = Ok true.
Proof.
  intros B Sh s hr hk A R S Hs Hr Hk EA E. rewrite (public_ok B Sh s Hs) in EA. apply ok_inj in EA. rewrite (sign_ok B Sh s hr hk Hs Hr Hk) in E. apply ok_inj in E.
  pose proof (scalar_range s Hs). assert (0 <= le_val hr) by (pose proof (array_range 8 114 hr ltac:(lia) Hr); unfold le_val; lia).
  pose proof (rfc_complete (sval s) (le_val hr) hk ltac:(lia) ltac:(lia) Hk) as C. rewrite E in C. cbn [fst snd] in C. rewrite EA in C.
  assert (HR : bytes 57 R). { apply (f_equal fst) in E. unfold rfc8032_sign in E. cbn [fst] in E. rewrite <- E, encode_same. exact (proj1 (encode_bytes _)). }
  assert (HS : bytes 57 S). { apply (f_equal snd) in E. unfold rfc8032_sign in E. cbn [snd] in E. rewrite <- E. apply le_bytes_bytes. }
  assert (HA : bytes 57 A). { rewrite <- EA. unfold rfc8032_public. rewrite encode_same. exact (proj1 (encode_bytes _)). }
  rewrite (verify_ok B Sh A R S hk HA HR HS Hk), C. reflexivity.
Qed.
Theorem api_unique : forall B, shipped B -> forall A R S S' h, bytes 57 A -> bytes 57 R -> bytes 57 S -> bytes 57 S' -> bytes 114 h ->
  sig_verify B A R S h = Ok true -> sig_verify B A R S' h = Ok true -> S = S'.
Proof.
  intros B Sh A R S S' h HA HR HS HS' Hh E E'. rewrite (verify_ok B Sh) in E, E' by assumption. apply ok_inj in E. apply ok_inj in E'. exact (rfc_unique A R S S' h HS HS' E E').
Qed.
