(** Which signatures are accepted, in terms of discrete logarithms. *)
Require Import ZArith Znumtheory List Bool Lia.
From Verif Require Import Base BaseProofs SpecParams SpecField SpecCurve SpecEncoding SpecRfc8032 SpecSignature Primes FieldTheory FieldBackend Backends BackendLaws Wp
  ScalarModel ScalarProofs ScalarProofs2 ScalarMain EdwardsTheory CurveTheory AbGroup Order GroupOrder TwistedModel TwistedProofs ScalarMulModel EdwardsModel PointSpec EdSigns EdwardsProofs EdwardsRun
  EdwardsMain Signature Rfc8032Main SignatureMain SignatureCases.
Import ListNotations.
Open Scope Z_scope.
Local Opaque fadd fsub fmul fopp fdiv finv fpow of_Z padd pmul G pzero ell rfc8032_decode rfc8032_encode.
Local Notation "n • P" := (pmul ed_a ed_d n P) (at level 40).
Local Notation "P ⊕ Q" := (padd ed_a ed_d P Q) (at level 50).

Lemma on_mul : forall n P, on_ed P -> on_ed (n • P). Proof. intros. apply (pmul_S _ _ _ ed_group). assumption. Qed.
Lemma on_add : forall P Q, on_ed P -> on_ed Q -> on_ed (P ⊕ Q). Proof. intros. apply (eg_add _ _ _ ed_group); assumption. Qed.
Lemma log_on : forall Q a, log_is Q a -> on_ed Q.
Proof. intros Q a (_ & T & OT & _ & ->). apply on_add; [apply on_mul; exact on_G|exact OT]. Qed.
Lemma log_four : forall Q a k, log_is Q a -> 0 <= k -> 4 • (k • Q) = (4 * (k * a)) • G.
Proof.
  intros Q a k (Ha & T & OT & T0 & ->) Hk. pose proof on_G as OG. pose proof (on_mul a G OG).
  rewrite <- (pmul_mul _ _ _ ed_group 4 k) by first [lia|apply on_add; assumption]. rewrite (Z.mul_comm 4 k).
  rewrite (pmul_padd _ _ _ ed_group) by (assumption || lia). rewrite (pmul_mul _ _ _ ed_group k 4 T), T0, pmul_zero, padd_0_r by (assumption || lia).
  rewrite <- (pmul_mul _ _ _ ed_group _ a) by (assumption || lia). f_equal. ring.
Qed.
Lemma log_four1 : forall Q a, log_is Q a -> 4 • Q = (4 * a) • G.
Proof.
  intros Q a H. pose proof (log_four Q a 1 H ltac:(lia)) as E. replace (4 * (1 * a)) with (4 * a) in E by ring. rewrite <- E.
  rewrite <- (pmul_mul _ _ _ ed_group 4 1) by first [lia|exact (log_on Q a H)]. reflexivity.
Qed.
Lemma G_eq_iff : forall m n, 0 <= m -> 0 <= n -> (m • G = n • G <-> m mod ell = n mod ell).
Proof.
  intros m n Hm Hn. pose proof ell_pos as EP. pose proof on_G as OG. rewrite (pmul_mod _ _ _ ed_group ell m G), (pmul_mod _ _ _ ed_group ell n G) by first [assumption|exact OG|exact ell_G].
  split; [|intros ->; reflexivity]. intro E. pose proof (Z.mod_pos_bound m ell EP). pose proof (Z.mod_pos_bound n ell EP).
  destruct (ed_unique (m mod ell) 0 (n mod ell) 0) as [K _]; try lia. rewrite E. reflexivity.
Qed.
Lemma gcd_4_ell : Z.gcd ell 4 = 1. Proof. vm_compute. reflexivity. Qed.
Lemma cong : forall m n, m mod ell = n mod ell <-> (ell | m - n).
Proof.
  intros m n. pose proof ell_pos as EP. split.
  - intro E. exists (m / ell - n / ell). pose proof (Z.div_mod m ell ltac:(lia)). pose proof (Z.div_mod n ell ltac:(lia)). lia.
  - intros [q E]. replace m with (n + q * ell) by lia. apply Z_mod_plus_full.
Qed.
Lemma four_cancel : forall m n, (4 * m) mod ell = (4 * n) mod ell <-> m mod ell = n mod ell.
Proof.
  intros m n. rewrite !cong. replace (4 * m - 4 * n) with (4 * (m - n)) by ring. split; intro E.
  - apply Z.gauss in E; [exact E|exact gcd_4_ell].
  - apply Z.divide_mul_r. exact E.
Qed.
Theorem log_exists : forall Q, on_ed Q -> exists a, log_is Q a.
Proof.
  intros Q O. destruct (ed_structure Q O) as (b & c & Hb & Hc & ->). exists b. split; [exact Hb|]. exists (c • T4). split; [apply on_mul; exact on_T4|]. split; [|reflexivity].
  rewrite <- (pmul_mul _ _ _ ed_group 4 c) by first [lia|exact on_T4]. rewrite (Z.mul_comm 4 c). rewrite (pmul_mul _ _ _ ed_group c 4), T4_4, pmul_zero by first [lia|exact on_T4]. reflexivity.
Qed.
Theorem log_unique : forall Q a b, log_is Q a -> log_is Q b -> a = b.
Proof.
  intros Q a b Ha Hb. pose proof (log_four1 Q a Ha) as E. rewrite (log_four1 Q b Hb) in E. destruct Ha as [Ha _], Hb as [Hb _].
  apply (proj1 (G_eq_iff (4 * b) (4 * a) ltac:(lia) ltac:(lia))) in E. apply (proj1 (four_cancel _ _)) in E. rewrite !Z.mod_small in E by lia. lia.
Qed.
(** Exactly those of order 1, 2 or 4 have logarithm 0. *)
Lemma log_zero : forall Q, on_ed Q -> (log_is Q 0 <-> 4 • Q = pzero).
Proof.
  intros Q O. pose proof ell_pos. split.
  - intro H'. rewrite (log_four1 Q 0 H'). reflexivity.
  - intro E. split; [lia|]. exists Q. split; [exact O|]. split; [exact E|]. symmetry. apply padd_0_l.
Qed.

Lemma rfc_accepts : forall A R S h QA QR a r, bytes 57 S -> bytes 114 h -> rfc8032_decode A = Some QA -> rfc8032_decode R = Some QR -> log_is QA a -> log_is QR r ->
  (rfc8032_verify A R S h = true <-> le_val S = (r + le_val h * a) mod ell).
Proof.
  intros A R S h QA QR a r HS Hh EA ER La Lr. unfold rfc8032_verify. rewrite EA, ER. pose proof ell_pos as EP. pose proof on_G as OG.
  assert (Ps : 0 <= le_val S) by (pose proof (array_range 8 57 S ltac:(lia) HS); unfold le_val; lia).
  assert (Ph : 0 <= le_val h) by (pose proof (array_range 8 114 h ltac:(lia) Hh); unfold le_val; lia).
  rewrite (log_four QA a (le_val h) La Ph), (log_four1 QR r Lr). rewrite <- (pmul_mul _ _ _ ed_group 4) by (assumption || lia).
  destruct La as [Ha _], Lr as [Hr _]. set (s := le_val S) in *. set (k := le_val h) in *. clearbody s k.
  assert (0 <= k * a) by nia. rewrite <- (pmul_add _ _ _ ed_group) by (assumption || lia). replace (4 * r + 4 * (k * a)) with (4 * (r + k * a)) by ring.
  rewrite andb_true_iff, same_point_eq, G_eq_iff, four_cancel by lia. rewrite Z.ltb_lt. split.
  - intros [L E]. rewrite Z.mod_small in E by lia. exact E.
  - intros ->. pose proof (Z.mod_pos_bound (r + k * a) ell EP). split; [lia|]. apply Z.mod_mod. lia.
Qed.
Lemma rfc_true_decodes : forall A R S h, bytes 57 A -> bytes 57 R -> rfc8032_verify A R S h = true -> exists QA QR a r, rfc8032_decode A = Some QA /\ rfc8032_decode R = Some QR /\ log_is QA a /\ log_is QR r.
Proof.
  intros A R S h HA HR E. unfold rfc8032_verify in E. destruct (rfc8032_decode A) as [QA|] eqn:EA; [|discriminate E]. destruct (rfc8032_decode R) as [QR|] eqn:ER; [|discriminate E]. clear E.
  pose proof (proj1 (rfc_decode_iff A QA HA) EA) as [OA _]. pose proof (proj1 (rfc_decode_iff R QR HR) ER) as [OR _].
  destruct (log_exists QA OA) as [a La]. destruct (log_exists QR OR) as [r Lr]. exists QA, QR, a, r. auto.
Qed.

(** Two accepted signatures with the same R determine the logarithm of A. *)
Lemma rfc_extract : forall A R S S' h h' QA, bytes 57 A -> bytes 57 R -> bytes 57 S -> bytes 57 S' -> bytes 114 h -> bytes 114 h' -> rfc8032_decode A = Some QA ->
  rfc8032_verify A R S h = true -> rfc8032_verify A R S' h' = true -> le_val h mod ell <> le_val h' mod ell ->
  forall a, log_is QA a <-> 0 <= a < ell /\ (a * (le_val h - le_val h')) mod ell = (le_val S - le_val S') mod ell.
Proof.
  intros A R S S' h h' QA HA HR HS HS' Hh Hh' EA V V' N. destruct (rfc_true_decodes A R S h HA HR V) as (QA' & QR & b & r & EA' & ER & Lb & Lr). rewrite EA in EA'. injection EA' as <-.
  apply (rfc_accepts A R S h QA QR b r HS Hh EA ER Lb Lr) in V. apply (rfc_accepts A R S' h' QA QR b r HS' Hh' EA ER Lb Lr) in V'.
  set (k := le_val h) in *. set (k' := le_val h') in *. set (s := le_val S) in *. set (s' := le_val S') in *. clearbody k k' s s'. pose proof ell_pos as EP.
  assert (E : (b * (k - k')) mod ell = (s - s') mod ell).
  { rewrite V, V'. rewrite <- Zminus_mod. f_equal. ring. }
  intro a. split.
  - intro La. rewrite (log_unique QA a b La Lb). split; [exact (proj1 Lb)|exact E].
  - intros [Ha E2]. rewrite <- E in E2. apply cong in E2. replace (a * (k - k') - b * (k - k')) with ((a - b) * (k - k')) in E2 by ring.
    apply (prime_mult _ prime_ell) in E2. destruct E2 as [D|D].
    + apply cong in D. destruct Lb as [Hb Lb]. rewrite !Z.mod_small in D by lia. subst a. split; [exact Hb|exact Lb].
    + exfalso. apply N. apply cong. exact D.
Qed.
(** An accepted signature fixes the hash, unless the key has order 1, 2 or 4. *)
Lemma rfc_bound : forall A R S h h' QA, bytes 57 A -> bytes 57 R -> bytes 57 S -> bytes 114 h -> bytes 114 h' -> rfc8032_decode A = Some QA ->
  rfc8032_verify A R S h = true -> (rfc8032_verify A R S h' = true <-> 4 • QA = pzero \/ le_val h mod ell = le_val h' mod ell).
Proof.
  intros A R S h h' QA HA HR HS Hh Hh' EA V. destruct (rfc_true_decodes A R S h HA HR V) as (QA' & QR & b & r & EA' & ER & Lb & Lr). rewrite EA in EA'. injection EA' as <-.
  apply (rfc_accepts A R S h QA QR b r HS Hh EA ER Lb Lr) in V. rewrite (rfc_accepts A R S h' QA QR b r HS Hh' EA ER Lb Lr). pose proof (log_on QA b Lb) as O.
  rewrite <- (log_zero QA O). rewrite V. pose proof ell_pos as EP. set (k := le_val h) in *. set (k' := le_val h') in *. clearbody k k'. rewrite cong.
  replace (r + k * b - (r + k' * b)) with (b * (k - k')) by ring. split.
  - intro D. apply (prime_mult _ prime_ell) in D. destruct D as [D|D].
    + left. assert (Z0 : b = 0); [|rewrite <- Z0 at 1; exact Lb]. destruct Lb as [Hb _]. destruct D as [q Hq]. assert (q = 0) by nia. lia.
    + right. apply cong. exact D.
  - intros [L0|E]; [rewrite (log_unique QA b 0 Lb L0); apply Z.divide_0_r|apply Z.divide_mul_r, cong; exact E].
Qed.
(** For any key, hash and canonical S exactly four R are accepted. *)
Lemma four_points : forall r, 0 <= r < ell -> forall Q, log_is Q r <-> In Q (map (fun c => r • G ⊕ c • T4) [0; 1; 2; 3]).
Proof.
  intros r Hr Q. split.
  - intro H. pose proof (log_on Q r H) as O. destruct (ed_structure Q O) as (b & c & Hb & Hc & E).
    assert (Lb : log_is Q b).
    { split; [exact Hb|]. exists (c • T4). split; [apply on_mul; exact on_T4|]. split; [|exact E].
      rewrite <- (pmul_mul _ _ _ ed_group 4 c) by first [lia|exact on_T4]. rewrite (Z.mul_comm 4 c). rewrite (pmul_mul _ _ _ ed_group c 4), T4_4, pmul_zero by first [lia|exact on_T4]. reflexivity. }
    rewrite (log_unique Q b r Lb H) in E. rewrite E. apply (in_map (fun c => r • G ⊕ c • T4)). assert (C : c = 0 \/ c = 1 \/ c = 2 \/ c = 3) by lia. cbn [In]. intuition congruence.
  - intro I. apply in_map_iff in I. destruct I as (c & <- & I). assert (Hc : 0 <= c < 4) by (cbn [In] in I; intuition lia).
    split; [exact Hr|]. exists (c • T4). split; [apply on_mul; exact on_T4|]. split; [|reflexivity].
    rewrite <- (pmul_mul _ _ _ ed_group 4 c) by first [lia|exact on_T4]. rewrite (Z.mul_comm 4 c). rewrite (pmul_mul _ _ _ ed_group c 4), T4_4, pmul_zero by first [lia|exact on_T4]. reflexivity.
Qed.
Lemma four_distinct : forall r, 0 <= r < ell -> NoDup (map (fun c => r • G ⊕ c • T4) [0; 1; 2; 3]).
Proof.
  intros r Hr. assert (K : forall c d, 0 <= c < 4 -> 0 <= d < 4 -> c <> d -> r • G ⊕ c • T4 <> r • G ⊕ d • T4).
  { intros c d Hc Hd N E. destruct (ed_unique r c r d Hr Hc Hr Hd E) as [_ F]. exact (N F). }
  cbn [map]. repeat constructor; cbn [In]; intro I; repeat (destruct I as [I|I]; [revert I; apply K; lia|]); exact I.
Qed.
Lemma rfc_simulate : forall A S h QA, bytes 57 A -> bytes 57 S -> bytes 114 h -> rfc8032_decode A = Some QA -> le_val S < ell ->
  exists l, length l = 4%nat /\ NoDup l /\ Forall (bytes 57) l /\ forall R, bytes 57 R -> (rfc8032_verify A R S h = true <-> In R l).
Proof.
  intros A S h QA HA HS Hh EA Ls. pose proof (proj1 (rfc_decode_iff A QA HA) EA) as [OA _]. destruct (log_exists QA OA) as [a La]. pose proof ell_pos as EP.
  assert (Ps : 0 <= le_val S) by (pose proof (array_range 8 57 S ltac:(lia) HS); unfold le_val; lia).
  set (r := (le_val S - le_val h * a) mod ell). assert (Hr : 0 <= r < ell) by (apply Z.mod_pos_bound; exact EP).
  pose proof (four_points r Hr) as FP. pose proof (four_distinct r Hr) as FD. set (pts := map (fun c => r • G ⊕ c • T4) [0; 1; 2; 3]) in *.
  assert (Len : length pts = 4%nat) by reflexivity. clearbody pts. exists (map rfc8032_encode pts).
  assert (On : forall Q, In Q pts -> on_ed Q) by (intros Q I; apply FP in I; exact (log_on Q r I)).
  split; [rewrite map_length; exact Len|]. split; [|split].
  - clear FP Len. induction pts as [|Q pts IH]; [constructor|]. inversion FD as [|? ? NI ND]; subst. cbn [map]. constructor.
    + intro I. apply in_map_iff in I. destruct I as (Q' & E & I). apply NI. assert (E2 : rfc8032_decode (rfc8032_encode Q') = rfc8032_decode (rfc8032_encode Q)) by (rewrite E; reflexivity).
      rewrite !rfc_roundtrip in E2 by (apply On; cbn [In]; auto). injection E2 as <-. exact I.
    + apply IH; [exact ND|]. intros Q' I. apply On. right. exact I.
  - apply Forall_forall. intros R I. apply in_map_iff in I. destruct I as (Q & <- & _). rewrite encode_same. exact (proj1 (encode_bytes _)).
  - intros R HR. split.
    + intro V. destruct (rfc_true_decodes A R S h HA HR V) as (QA' & QR & b & r' & EA' & ER & Lb & Lr). rewrite EA in EA'. injection EA' as <-.
      apply (rfc_accepts A R S h QA QR b r' HS Hh EA ER Lb Lr) in V. apply in_map_iff. exists QR. split; [rewrite encode_same; symmetry; exact (proj2 (proj1 (rfc_decode_iff R QR HR) ER))|].
      apply FP. assert (E : r' = r); [|rewrite <- E; exact Lr]. unfold r. rewrite (log_unique QA a b La Lb), V. rewrite Zminus_mod_idemp_l. replace (r' + le_val h * b - le_val h * b) with r' by ring.
      symmetry. apply Z.mod_small. exact (proj1 Lr).
    + intro I. apply in_map_iff in I. destruct I as (Q & <- & I). apply FP in I. apply (rfc_accepts A _ S h QA Q a r HS Hh EA (rfc_roundtrip Q (log_on Q r I)) La I).
      unfold r. rewrite Zplus_mod_idemp_l. replace (le_val S - le_val h * a + le_val h * a) with (le_val S) by ring. symmetry. apply Z.mod_small. lia.
Qed.

(** ** Over the API *)
Section Api.
Variable B : backend.
Hypothesis Sh : shipped B.
Lemma api_verify : forall A R S h, bytes 57 A -> bytes 57 R -> bytes 57 S -> bytes 114 h -> (sig_verify B A R S h = Ok true <-> rfc8032_verify A R S h = true).
Proof. intros A R S h HA HR HS Hh. rewrite (verify_ok B Sh A R S h HA HR HS Hh). split; [intro E; apply ok_inj in E; exact E|intros ->; reflexivity]. Qed.
Theorem api_accepts : forall A R S h QA QR a r, bytes 57 A -> bytes 57 R -> bytes 57 S -> bytes 114 h -> rfc8032_decode A = Some QA -> rfc8032_decode R = Some QR -> log_is QA a -> log_is QR r ->
  (sig_verify B A R S h = Ok true <-> le_val S = (r + le_val h * a) mod ell).
Proof. intros A R S h QA QR a r HA HR HS Hh EA ER La Lr. rewrite (api_verify A R S h HA HR HS Hh). exact (rfc_accepts A R S h QA QR a r HS Hh EA ER La Lr). Qed.
Theorem api_extract : forall A R S S' h h' QA, bytes 57 A -> bytes 57 R -> bytes 57 S -> bytes 57 S' -> bytes 114 h -> bytes 114 h' -> rfc8032_decode A = Some QA ->
  sig_verify B A R S h = Ok true -> sig_verify B A R S' h' = Ok true -> le_val h mod ell <> le_val h' mod ell ->
  forall a, log_is QA a <-> 0 <= a < ell /\ (a * (le_val h - le_val h')) mod ell = (le_val S - le_val S') mod ell.
Proof.
  intros A R S S' h h' QA HA HR HS HS' Hh Hh' EA V V'. apply (api_verify A R S h HA HR HS Hh) in V. apply (api_verify A R S' h' HA HR HS' Hh') in V'.
  exact (rfc_extract A R S S' h h' QA HA HR HS HS' Hh Hh' EA V V').
Qed.
Theorem api_bound : forall A R S h h' QA, bytes 57 A -> bytes 57 R -> bytes 57 S -> bytes 114 h -> bytes 114 h' -> rfc8032_decode A = Some QA ->
  sig_verify B A R S h = Ok true -> (sig_verify B A R S h' = Ok true <-> 4 • QA = pzero \/ le_val h mod ell = le_val h' mod ell).
Proof.
  intros A R S h h' QA HA HR HS Hh Hh' EA V. apply (api_verify A R S h HA HR HS Hh) in V. rewrite (api_verify A R S h' HA HR HS Hh'). exact (rfc_bound A R S h h' QA HA HR HS Hh Hh' EA V).
Qed.
Theorem api_simulate : forall A S h QA, bytes 57 A -> bytes 57 S -> bytes 114 h -> rfc8032_decode A = Some QA -> le_val S < ell ->
  exists l, length l = 4%nat /\ NoDup l /\ Forall (bytes 57) l /\ forall R, bytes 57 R -> (sig_verify B A R S h = Ok true <-> In R l).
Proof.
  intros A S h QA HA HS Hh EA Ls. destruct (rfc_simulate A S h QA HA HS Hh EA Ls) as (l & Len & ND & F & K). exists l. split; [exact Len|]. split; [exact ND|]. split; [exact F|].
  intros R HR. rewrite (api_verify A R S h HA HR HS Hh). exact (K R HR).
Qed.
(** The key and the signature that hold for every message. *)
Definition zero_key : list Z := rfc8032_encode pzero.
Lemma on_zero : on_ed pzero. Proof. exact (eg_0 _ _ _ ed_group). Qed.
Lemma zero_log : log_is pzero 0. Proof. apply log_zero; [exact on_zero|]. apply pmul_zero. lia. Qed.
Lemma zero_key_bytes : bytes 57 zero_key. Proof. unfold zero_key. rewrite encode_same. exact (proj1 (encode_bytes _)). Qed.
Lemma zeros_bytes : bytes 57 (le_bytes 57 0). Proof. apply le_bytes_bytes. Qed.
Theorem api_any_message : forall h, bytes 114 h -> sig_verify B zero_key zero_key (le_bytes 57 0) h = Ok true.
Proof.
  intros h Hh. pose proof (rfc_roundtrip pzero on_zero) as D.
  apply (api_accepts zero_key zero_key (le_bytes 57 0) h pzero pzero 0 0 zero_key_bytes zero_key_bytes zeros_bytes Hh D D zero_log zero_log).
  rewrite Z.mul_0_r. rewrite le_val_bytes57 by (pose proof ell_pos; lia). reflexivity.
Qed.
(** The logarithm of a public key. *)
Lemma public_log : forall n, 0 <= n -> log_is (n • G) (n mod ell).
Proof.
  intros n Hn. pose proof ell_pos as EP. split; [apply Z.mod_pos_bound; exact EP|]. exists pzero. split; [exact on_zero|]. split; [apply pmul_zero; lia|].
  rewrite padd_0_r. apply (pmul_mod _ _ _ ed_group); [lia|exact Hn|exact on_G|exact ell_G].
Qed.
Theorem api_reuse : forall s hr hk hk' R S R' S', is_scalar s -> bytes 114 hr -> bytes 114 hk -> bytes 114 hk' ->
  sig_sign B s hr hk = Ok (R, S) -> sig_sign B s hr hk' = Ok (R', S') -> le_val hk mod ell <> le_val hk' mod ell ->
  R = R' /\ forall a, a = sval s mod ell <-> 0 <= a < ell /\ (a * (le_val hk - le_val hk')) mod ell = (le_val S - le_val S') mod ell.
Proof.
  intros s hr hk hk' R S R' S' Hs Hr Hk Hk' E E' N. pose proof (public_ok B Sh s Hs) as EA.
  pose proof (api_complete B Sh s hr hk _ R S Hs Hr Hk EA E) as V. pose proof (api_complete B Sh s hr hk' _ R' S' Hs Hr Hk' EA E') as V'.
  rewrite (sign_ok B Sh s hr hk Hs Hr Hk) in E. apply ok_inj in E. rewrite (sign_ok B Sh s hr hk' Hs Hr Hk') in E'. apply ok_inj in E'.
  unfold rfc8032_sign in E, E'. pose proof (f_equal fst E) as E1. pose proof (f_equal snd E) as E2. pose proof (f_equal fst E') as E1'. pose proof (f_equal snd E') as E2'. cbn [fst snd] in E1, E2, E1', E2'. clear E E'.
  assert (ER : R = R') by (rewrite <- E1, <- E1'; reflexivity). split; [exact ER|]. rewrite <- ER in V'.
  assert (HR : bytes 57 R) by (rewrite <- E1, encode_same; exact (proj1 (encode_bytes _))).
  assert (HS : bytes 57 S) by (rewrite <- E2; apply le_bytes_bytes). assert (HS' : bytes 57 S') by (rewrite <- E2'; apply le_bytes_bytes).
  assert (HA : bytes 57 (rfc8032_public (sval s))) by (unfold rfc8032_public; rewrite encode_same; exact (proj1 (encode_bytes _))).
  pose proof (scalar_range s Hs) as Rs. pose proof (rfc_roundtrip (sval s • G) (on_mul _ _ on_G)) as D.
  intro a. rewrite <- (api_extract _ R S S' hk hk' (sval s • G) HA HR HS HS' Hk Hk' D V V' N a). pose proof (public_log (sval s) ltac:(lia)) as L. split.
  - intros ->. exact L.
  - intro L'. exact (log_unique _ _ _ L' L).
Qed.
End Api.

Lemma log_one : forall Q, on_curve ed_a ed_d Q -> exists a, log_is Q a /\ forall b, log_is Q b -> b = a.
Proof. intros Q O. destruct (log_exists Q O) as [a H]. exists a. split; [exact H|]. intros b Hb. exact (log_unique Q b a Hb H). Qed.

Lemma any_message : forall B, shipped B -> exists A R S, bytes 57 A /\ bytes 57 R /\ bytes 57 S /\ forall h, bytes 114 h -> sig_verify B A R S h = Ok true.
Proof.
  intros B Sh. exact (ex_intro _ zero_key (ex_intro _ zero_key (ex_intro _ _ (conj zero_key_bytes (conj zero_key_bytes (conj zeros_bytes (api_any_message B Sh))))))).
Qed.

(** ** Cases: signing twice with the same nonce. *)
Lemma reuse_gen : forall B, shipped B -> forall s hr hk hk', is_scalar s -> bytes 114 hr -> bytes 114 hk -> bytes 114 hk' ->
  le_val hk mod ell <> le_val hk' mod ell -> sval s mod ell <> 0 -> exists A R S S',
  sig_public B s = Ok A /\ sig_sign B s hr hk = Ok (R, S) /\ sig_sign B s hr hk' = Ok (R, S') /\
  sig_verify B A R S hk = Ok true /\ sig_verify B A R S' hk' = Ok true /\ sig_verify B A R S hk' = Ok false /\
  le_val hk mod ell <> le_val hk' mod ell /\ rfc8032_decode A = Some (sval s • G) /\ log_is (sval s • G) (sval s mod ell).
Proof.
  intros B Sh s hr hk hk' Hs Hr Hk H1 N NZ. pose proof (scalar_range s Hs) as Rs.
  pose proof (public_ok B Sh s Hs) as EA. pose proof (sign_ok B Sh s hr hk Hs Hr Hk) as E. pose proof (sign_ok B Sh s hr hk' Hs Hr H1) as E'.
  unfold rfc8032_public in EA. unfold rfc8032_sign in E, E'.
  assert (D : rfc8032_decode (rfc8032_encode (sval s • G)) = Some (sval s • G)) by exact (rfc_roundtrip (sval s • G) (on_mul _ _ on_G)).
  assert (HA : bytes 57 (rfc8032_encode (sval s • G))) by (rewrite encode_same; exact (proj1 (encode_bytes _))).
  assert (HR : bytes 57 (rfc8032_encode ((le_val hr) • G))) by (rewrite encode_same; exact (proj1 (encode_bytes _))).
  assert (L : log_is (sval s • G) (sval s mod ell)) by (apply public_log; lia).
  set (A := rfc8032_encode (sval s • G)) in *. set (R := rfc8032_encode ((le_val hr) • G)) in *. clearbody A R.
  match type of E with _ = Ok (_, ?x) => assert (HT : bytes 57 x) by apply le_bytes_bytes; set (T := x) in *; clearbody T end.
  match type of E' with _ = Ok (_, ?x) => set (T' := x) in *; clearbody T' end.
  exists A, R, T, T'.
  pose proof (api_complete B Sh s hr hk _ _ _ Hs Hr Hk EA E) as V. pose proof (api_complete B Sh s hr hk' _ _ _ Hs Hr H1 EA E') as V'.
  split; [exact EA|]. split; [exact E|]. split; [exact E'|]. split; [exact V|]. split; [exact V'|].
  split; [|split; [exact N|split; [exact D|exact L]]].
  destruct (rfc8032_verify A R T hk') eqn:F; [|rewrite (verify_ok B Sh A R T hk' HA HR HT H1), F; reflexivity]. exfalso.
  assert (F' : sig_verify B A R T hk' = Ok true) by (rewrite (verify_ok B Sh A R T hk' HA HR HT H1), F; reflexivity).
  apply (proj1 (api_bound B Sh A R T hk hk' _ HA HR HT Hk H1 D V)) in F'.
  destruct F' as [Z4|F']; [|exact (N F')]. apply (proj2 (log_zero _ (on_mul _ _ on_G))) in Z4. exact (NZ (log_unique _ _ _ L Z4)).
Qed.

Lemma reuse_case : forall B, shipped B -> exists A R S S',
  sig_public B vec_s = Ok A /\ sig_sign B vec_s vec_hr vec_hk = Ok (R, S) /\ sig_sign B vec_s vec_hr (le_bytes 114 1) = Ok (R, S') /\
  sig_verify B A R S vec_hk = Ok true /\ sig_verify B A R S' (le_bytes 114 1) = Ok true /\ sig_verify B A R S (le_bytes 114 1) = Ok false /\
  le_val vec_hk mod ell <> le_val (le_bytes 114 1) mod ell /\ rfc8032_decode A = Some (sval vec_s • G) /\ log_is (sval vec_s • G) (sval vec_s mod ell).
Proof.
  intros B Sh. refine (reuse_gen B Sh vec_s vec_hr vec_hk (le_bytes 114 1) _ _ _ _ _ _).
  - apply digits_array. lia.
  - apply (bytes_of 114).
  - apply (bytes_of 114).
  - apply (bytes_of 114).
  - vm_compute. discriminate.
  - vm_compute. discriminate.
Qed.
