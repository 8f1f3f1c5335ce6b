(** What a check of many signatures at once accepts. *)
Require Import ZArith Znumtheory List Bool Lia.
From Verif Require Import Base BaseProofs SpecParams SpecField SpecCurve SpecEncoding SpecRfc8032 SpecSignature SpecCount SpecBatch Primes FieldTheory FieldBackend Backends BackendLaws Wp
  ScalarModel ScalarProofs ScalarProofs2 ScalarMain EdwardsTheory CurveTheory AbGroup Order GroupOrder TwistedModel TwistedProofs ScalarMulModel EdwardsModel PointSpec EdSigns EdwardsProofs EdwardsRun
  EdwardsMain Signature SignatureBatch Rfc8032Main SignatureMain SignatureCases SignatureLog.
Import ListNotations.
Open Scope Z_scope.
Open Scope res_scope.
Local Opaque fadd fsub fmul fopp fdiv finv fpow of_Z padd pmul G pzero ell rfc8032_decode rfc8032_encode.
Local Notation "n • P" := (pmul ed_a ed_d n P) (at level 40).
Local Notation "P ⊕ Q" := (padd ed_a ed_d P Q) (at level 50).

(** ** Logarithms add up *)
Lemma log_add : forall P Q a b, log_is P a -> log_is Q b -> log_is (P ⊕ Q) ((a + b) mod ell).
Proof.
  intros P Q a b (Ha & T & OT & T0 & ->) (Hb & U & OU & U0 & ->). pose proof ell_pos as EP. pose proof on_G as OG. split; [apply Z.mod_pos_bound; exact EP|].
  exists (T ⊕ U). split; [apply on_add; assumption|]. split; [rewrite (pmul_padd _ _ _ ed_group), T0, U0 by (assumption || lia); apply padd_0_r|].
  rewrite (g_swap _ _ _ ed_group) by first [assumption|apply on_mul; exact OG]. rewrite <- (pmul_add _ _ _ ed_group) by (assumption || lia).
  rewrite (pmul_mod _ _ _ ed_group ell (a + b) G) by first [lia|exact OG|exact ell_G]. reflexivity.
Qed.
Lemma log_mul : forall P a k, log_is P a -> 0 <= k -> log_is (k • P) ((k * a) mod ell).
Proof.
  intros P a k (Ha & T & OT & T0 & ->) Hk. pose proof ell_pos as EP. pose proof on_G as OG. assert (0 <= k * a) by nia. split; [apply Z.mod_pos_bound; exact EP|].
  exists (k • T). split; [apply on_mul; exact OT|]. split.
  - rewrite <- (pmul_mul _ _ _ ed_group 4 k), Z.mul_comm, (pmul_mul _ _ _ ed_group k 4), T0 by (assumption || lia). apply pmul_zero. exact Hk.
  - rewrite (pmul_padd _ _ _ ed_group) by first [assumption|apply on_mul; exact OG]. rewrite <- (pmul_mul _ _ _ ed_group k a) by (assumption || lia).
    rewrite (pmul_mod _ _ _ ed_group ell (k * a) G) by first [lia|exact OG|exact ell_G]. reflexivity.
Qed.
Lemma four_log : forall t Q b, 0 <= t < ell -> log_is Q b -> (4 • (t • G) = 4 • Q <-> t = b).
Proof.
  intros t Q b Ht Lb. pose proof (proj1 Lb) as Hb. pose proof on_G as OG. rewrite (log_four1 Q b Lb), <- (pmul_mul _ _ _ ed_group 4 t) by (assumption || lia).
  rewrite G_eq_iff, four_cancel, !Z.mod_small by lia. reflexivity.
Qed.

Lemma mod_form : forall x, exists q, x mod ell = x + ell * q.
Proof. intro x. exists (- (x / ell)). rewrite Z.mod_eq by (pose proof ell_pos; lia). ring. Qed.
Definition good_item (x : scalar * signed) : Prop := is_scalar (fst x) /\ signed_ok (snd x).

Section Batch.
Variable B : backend.
Hypothesis Sh : shipped B.
Let L := shipped_laws B Sh.

Lemma misses_unique : forall x d d', misses_by x d -> misses_by x d' -> d = d'.
Proof.
  intros [[[A R] S] h] d d' (QA & QR & a & r & EA & ER & La & Lr & _ & ->) (QA' & QR' & a' & r' & EA' & ER' & La' & Lr' & _ & ->).
  rewrite EA in EA'. injection EA' as <-. rewrite ER in ER'. injection ER' as <-. rewrite (log_unique _ _ _ La La'), (log_unique _ _ _ Lr Lr'). reflexivity.
Qed.
Lemma verify_misses : forall A R S h, signed_ok (A, R, S, h) -> (sig_verify B A R S h = Ok true <-> misses_by (A, R, S, h) 0).
Proof.
  intros A R S h (HA & HR & HS & Hh). pose proof ell_pos as EP.
  assert (Ps : 0 <= le_val S) by (pose proof (array_range 8 57 S ltac:(lia) HS); unfold le_val; lia). split.
  - intro V. pose proof (proj1 (api_verify B Sh A R S h HA HR HS Hh) V) as V'. destruct (rfc_true_decodes A R S h HA HR V') as (QA & QR & a & r & EA & ER & La & Lr).
    apply (api_accepts B Sh A R S h QA QR a r HA HR HS Hh EA ER La Lr) in V. exists QA, QR, a, r. split; [exact EA|]. split; [exact ER|]. split; [exact La|]. split; [exact Lr|].
    pose proof (Z.mod_pos_bound (r + le_val h * a) ell EP) as MB. split; [lia|]. rewrite V. replace ((r + le_val h * a) mod ell - r - le_val h * a) with ((r + le_val h * a) mod ell - (r + le_val h * a)) by ring.
    rewrite Zminus_mod_idemp_l, Z.sub_diag. reflexivity.
  - intros (QA & QR & a & r & EA & ER & La & Lr & Lt & E). apply (api_accepts B Sh A R S h QA QR a r HA HR HS Hh EA ER La Lr).
    rewrite <- (Z.mod_small (le_val S) ell) by lia. apply cong. replace (le_val S - (r + le_val h * a)) with (le_val S - r - le_val h * a) by ring. apply Z.mod_divide; [lia|]. symmetry. exact E.
Qed.

(** One item, and the rest. *)
Lemma sums_ok : forall l, Forall good_item l ->
  (batch_sums B l = Ok None /\ ~ exists ds, Forall2 misses_by (map snd l) ds) \/
  (exists t Q q b ds, batch_sums B l = Ok (Some (t, Q)) /\ Forall2 misses_by (map snd l) ds /\ is_scalar t /\ sval t < ell /\ ed_rep B Q q /\ log_is q b /\
     (sval t - b) mod ell = weighted (combine (map fst l) ds) mod ell).
Proof.
  pose proof ell_pos as EP. induction l as [|[z [[[A R] S] h]] l IH]; intro F.
  - right. exists scalar_zero, (ed_identity B), pzero, 0, []. split; [reflexivity|]. split; [constructor|]. split; [apply (digits_array 32 14 0); lia|]. split; [exact EP|].
    split; [exact (ed_identity_rep B L)|]. split; [exact zero_log|reflexivity].
  - inversion F as [|? ? Hg F']; subst. destruct Hg as [Hz Hx]. cbn [fst snd] in Hz, Hx. destruct Hx as (HA & HR & HS & Hh). specialize (IH F'). cbn [map snd fst batch_sums].
    assert (Bad : forall P : Prop, (forall d, misses_by (A, R, S, h) d -> P) -> (exists ds, Forall2 misses_by ((A, R, S, h) :: map snd l) ds) -> P).
    { intros P K (ds & D). inversion D; subst. eapply K. eassumption. }
    destruct (dec_case B Sh A HA) as [[EA DA]|(a & ca & EA & VA & CA & DA)]; rewrite EA; cbn [bind].
    { left. split; [|refine (Bad False _); intros d (QA & QR & a & r & E & _); rewrite DA in E; discriminate E].
      destruct (dec_case B Sh R HR) as [[ER _]|(r & cr & ER & _)]; rewrite ER; cbn [bind];
      (destruct (Z.lt_ge_cases (le_val S) ell) as [Lt|Ge];
       [destruct (canonical_exists S HS Lt) as (s & -> & _)|rewrite (canonical_bytes_reject S HS Ge)]); reflexivity. }
    destruct (dec_case B Sh R HR) as [[ER DR]|(r & cr & ER & VR & CR & DR)]; rewrite ER; cbn [bind].
    { left. split; [|refine (Bad False _); intros d (QA & QR & a' & r & _ & E & _); rewrite DR in E; discriminate E].
      destruct (Z.lt_ge_cases (le_val S) ell) as [Lt|Ge];
       [destruct (canonical_exists S HS Lt) as (s & -> & _)|rewrite (canonical_bytes_reject S HS Ge)]; reflexivity. }
    destruct (Z.lt_ge_cases (le_val S) ell) as [Lt|Ge].
    2:{ left. rewrite (canonical_bytes_reject S HS Ge). split; [reflexivity|]. refine (Bad False _). intros d (QA & QR & a' & r' & _ & _ & _ & _ & E & _). lia. }
    destruct (canonical_exists S HS Lt) as (s & Es & Ss & Vs). rewrite Es. cbn [bind]. rewrite CA, CR. cbn [bind].
    destruct (from_bytes_wide_ok h Hh) as (k & -> & Sk & Vk). cbn [bind].
    destruct IH as [[E N]|(t & Q & q & b & ds & E & D & St & Ht & HQ & Lb & Sum)]; rewrite E; cbn [bind].
    { left. split; [reflexivity|]. intros (ds & D). inversion D; subst. apply N. eexists. eassumption. }
    pose proof (rep_of B a VA) as RA. pose proof (rep_of B r VR) as RR. pose proof (valid_on B a VA) as OA. pose proof (valid_on B r VR) as OR.
    set (pa := ed_affine B a) in *. set (pr := ed_affine B r) in *. clearbody pa pr.
    pose proof (scalar_range s Ss) as Rs. pose proof (scalar_range k Sk) as Rk. pose proof (scalar_range z Hz) as Rz. pose proof (scalar_range t St) as Rt.
    destruct (scalar_mul_ok z s Hz Ss) as (zs & -> & Szs & Vzs). cbn [bind].
    destruct (scalar_add_mod t zs St Szs Ht) as (t' & -> & St' & Vt'); [rewrite Vzs; apply Z.mod_pos_bound; exact EP|]. cbn [bind].
    destruct (ed_scalar_mul_ok B L _ _ k RA Sk) as (Q1 & -> & I1). cbn [bind]. destruct (ed_add_ok B L _ _ _ _ RR I1) as (Q2 & -> & I2). cbn [bind].
    destruct (ed_scalar_mul_ok B L _ _ z I2 Hz) as (Q3 & -> & I3). cbn [bind]. destruct (ed_add_ok B L _ _ _ _ HQ I3) as (Q4 & -> & I4). cbn [bind].
    destruct DA as [[QA DA]|[QA DA]].
    2:{ left. rewrite QA. split; [reflexivity|]. refine (Bad False _). intros d (QA' & QR' & a' & r' & X & _). rewrite DA in X. discriminate X. }
    destruct DR as [[QR DR]|[QR DR]].
    2:{ left. rewrite QR, andb_false_r. split; [reflexivity|]. refine (Bad False _). intros d (QA' & QR' & a' & r' & _ & X & _). rewrite DR in X. discriminate X. }
    right. rewrite (proj2 (list_eqb_eq ca A) QA), (proj2 (list_eqb_eq cr R) QR). cbn [andb].
    destruct (log_exists pa OA) as [la La]. destruct (log_exists pr OR) as [lr Lr].
    pose proof (log_mul pa la (sval k) La ltac:(lia)) as L1. pose proof (log_add _ _ _ _ Lr L1) as L2. pose proof (log_mul _ _ (sval z) L2 ltac:(lia)) as L3. pose proof (log_add _ _ _ _ Lb L3) as L4.
    exists t', Q4, (q ⊕ sval z • (pr ⊕ sval k • pa)). eexists. exists (((le_val S - lr - le_val h * la) mod ell) :: ds). split; [reflexivity|]. split.
    { constructor; [|exact D]. exists pa, pr, la, lr. auto 10. }
    split; [exact St'|]. split; [rewrite Vt'; apply Z.mod_pos_bound; exact EP|]. split; [exact I4|]. split; [exact L4|].
    cbn [combine weighted]. rewrite Vt', Vzs, Vk, Vs. clear - Sum EP.
    set (u := sval z) in *. set (v := le_val S) in *. set (m := le_val h) in *. set (w := weighted _) in *. clearbody u v m w. set (x := sval t) in *. clearbody x.
    apply cong in Sum. destruct Sum as [j0 Sum]. apply cong.
    destruct (mod_form (u * v)) as [q1 ->]. destruct (mod_form (x + (u * v + ell * q1))) as [q2 ->].
    destruct (mod_form m) as [q3 ->]. destruct (mod_form ((m + ell * q3) * la)) as [q4 ->]. destruct (mod_form (lr + ((m + ell * q3) * la + ell * q4))) as [q5 ->].
    destruct (mod_form (u * (lr + ((m + ell * q3) * la + ell * q4) + ell * q5))) as [q6 ->]. destruct (mod_form (b + (u * (lr + ((m + ell * q3) * la + ell * q4) + ell * q5) + ell * q6))) as [q7 ->].
    destruct (mod_form (v - lr - m * la)) as [q8 ->]. assert (X : x = b + w + j0 * ell) by lia. rewrite X. exists (j0 + q1 + q2 - u * q3 * la - u * q4 - u * q5 - q6 - q7 - u * q8). ring.
Qed.

Lemma Forall2_unique : forall xs ds ds', Forall2 misses_by xs ds -> Forall2 misses_by xs ds' -> ds = ds'.
Proof.
  induction xs as [|x xs IH]; intros ds ds' H H'; inversion H; inversion H'; subst; [reflexivity|]. f_equal; [eapply misses_unique; eassumption|apply IH; assumption].
Qed.
Theorem batch_value : forall l, Forall good_item l -> exists b, sig_batch B l = Ok b /\
  (b = true <-> exists ds, Forall2 misses_by (map snd l) ds /\ weighted (combine (map fst l) ds) mod ell = 0).
Proof.
  intros l F. pose proof ell_pos as EP. unfold sig_batch. destruct (sums_ok l F) as [[E N]|(t & Q & q & b & ds & E & D & St & Ht & HQ & Lb & Sum)]; rewrite E; cbn [bind].
  - exists false. split; [reflexivity|]. split; [discriminate|]. intros (ds & D & _). exfalso. apply N. exists ds. exact D.
  - pose proof (scalar_range t St) as Rt. pose proof on_G as OG.
    destruct (ed_scalar_mul_ok B L _ _ t (ed_generator_rep B L) St) as (P1 & -> & H1). cbn [bind].
    destruct (ed_double_ok B L _ _ H1) as (P2 & -> & H2). cbn [bind]. destruct (ed_double_ok B L _ _ H2) as (P3 & -> & H3). cbn [bind].
    destruct (ed_double_ok B L _ _ HQ) as (Q3 & -> & I3). cbn [bind]. destruct (ed_double_ok B L _ _ I3) as (Q4 & -> & I4). cbn [bind].
    rewrite (ed_ct_eq_ok B L _ _ _ _ H3 I4). eexists. split; [reflexivity|]. rewrite peqb_eq.
    rewrite <- !(pmul_4 _ _ _ ed_group) by first [exact (log_on q b Lb)|apply on_mul; exact OG]. rewrite (four_log (sval t) q b ltac:(lia) Lb). pose proof (proj1 Lb) as Hb. split.
    + intros X. exists ds. split; [exact D|]. rewrite <- Sum, X, Z.sub_diag. reflexivity.
    + intros (ds' & D' & X). rewrite <- (Forall2_unique _ _ _ D D'), <- Sum in X. rewrite <- (Z.mod_0_l ell) in X by lia. apply cong in X. rewrite Z.sub_0_r in X. apply cong in X. rewrite !Z.mod_small in X by lia. exact X.
Qed.
Theorem batch_iff : forall l, Forall good_item l ->
  (sig_batch B l = Ok true <-> exists ds, Forall2 misses_by (map snd l) ds /\ weighted (combine (map fst l) ds) mod ell = 0).
Proof.
  intros l F. destruct (batch_value l F) as (b & E & K). rewrite <- K, E. split; [intro X; apply ok_inj in X; exact X|intros ->; reflexivity].
Qed.
Lemma weighted_zeros : forall (l : list (scalar * signed)), weighted (combine (map fst l) (map (fun _ => 0) l)) = 0.
Proof. induction l as [|x l IH]; [reflexivity|]. cbn [map combine weighted]. rewrite IH. ring. Qed.
Theorem batch_valid : forall l, Forall good_item l -> Forall (fun x => let '(A, R, S0, h) := snd x in sig_verify B A R S0 h = Ok true) l -> sig_batch B l = Ok true.
Proof.
  intros l F V. apply (batch_iff l F). exists (map (fun _ => 0) l). split; [|rewrite weighted_zeros; reflexivity].
  induction l as [|[z [[[A R] S] h]] l IH]; [constructor|]. inversion F as [|? ? G1 F']; subst. inversion V as [|? ? V1 V']; subst. cbn [map]. constructor; [|apply IH; assumption].
  apply verify_misses; [exact (proj2 G1)|exact V1].
Qed.
Lemma all_miss : forall l : list (scalar * signed), Forall (fun y => exists d, misses_by (snd y) d) l -> exists ds, Forall2 misses_by (map snd l) ds.
Proof.
  induction l as [|x l IH]; intro F; [exists []; constructor|]. inversion F as [|? ? [d Hd] F']; subst. destruct (IH F') as [ds D]. exists (d :: ds). cbn [map]. constructor; assumption.
Qed.
Lemma weighted_app : forall zs zs' ds ds', length zs = length ds -> weighted (combine (zs ++ zs') (ds ++ ds')) = weighted (combine zs ds) + weighted (combine zs' ds').
Proof.
  induction zs as [|z zs IH]; intros zs' [|d ds] ds' H; try discriminate H; [reflexivity|]. cbn [app combine weighted]. rewrite IH by (injection H as H; exact H). ring.
Qed.
Lemma two_length : forall xs ds, Forall2 misses_by xs ds -> length xs = length ds.
Proof. intros xs ds H. induction H; cbn [length]; congruence. Qed.
Lemma solve_mod : forall d c, 0 < d < ell -> exists z0, 0 <= z0 < ell /\ forall z, (c + z * d) mod ell = 0 <-> z mod ell = z0.
Proof.
  intros d c Hd. pose proof ell_pos as EP. assert (RP : rel_prime d ell) by (apply rel_prime_sym, (prime_rel_prime ell prime_ell); intro X; apply Z.divide_pos_le in X; lia).
  destruct (rel_prime_bezout _ _ RP) as [u v Huv]. exists ((- c * u) mod ell). split; [apply Z.mod_pos_bound; exact EP|]. intro z. rewrite cong. split.
  - intro E. apply Z.mod_divide in E; [|lia]. destruct E as [j Hj]. exists (j * u + z * v). replace (z - - c * u) with (u * (c + z * d) + z * (1 - u * d)) by ring. rewrite Hj. replace (1 - u * d) with (v * ell) by lia. ring.
  - intros [j Hj]. apply Z.mod_divide; [lia|]. exists (j * d + c * v). replace z with (j * ell - c * u) by lia. replace c with (c * (u * d + v * ell)) at 1 by (rewrite Huv; ring). ring.
Qed.
Theorem batch_one : forall l1 l2 x d, Forall good_item (l1 ++ l2) -> signed_ok x -> Forall (fun y => exists d, misses_by (snd y) d) (l1 ++ l2) -> misses_by x d -> d <> 0 ->
  exists z0, 0 <= z0 < ell /\ forall z, is_scalar z -> (sig_batch B (l1 ++ (z, x) :: l2) = Ok true <-> sval z mod ell = z0).
Proof.
  intros l1 l2 x d F Hx FD Hd N. pose proof ell_pos as EP. apply Forall_app in F. destruct F as [F1 F2]. apply Forall_app in FD. destruct FD as [D1 D2].
  destruct (all_miss l1 D1) as [ds1 M1]. destruct (all_miss l2 D2) as [ds2 M2].
  assert (Rd : 0 < d < ell). { destruct x as [[[A R] S] h]. destruct Hd as (QA & QR & a & r & _ & _ & _ & _ & _ & ->). pose proof (Z.mod_pos_bound (le_val S - r - le_val h * a) ell EP). lia. }
  assert (M : forall z, Forall2 misses_by (map snd (l1 ++ (z, x) :: l2)) (ds1 ++ d :: ds2)) by (intro z; rewrite map_app; apply Forall2_app; [exact M1|cbn [map snd]; constructor; assumption]).
  destruct (solve_mod d (weighted (combine (map fst l1) ds1) + weighted (combine (map fst l2) ds2)) Rd) as (z0 & Hz0 & K). exists z0. split; [exact Hz0|]. intros z Hz. rewrite <- K.
  assert (G' : Forall good_item (l1 ++ (z, x) :: l2)) by (apply Forall_app; split; [exact F1|constructor; [split; [exact Hz|exact Hx]|exact F2]]).
  assert (W : weighted (combine (map fst (l1 ++ (z, x) :: l2)) (ds1 ++ d :: ds2)) = weighted (combine (map fst l1) ds1) + weighted (combine (map fst l2) ds2) + sval z * d).
  { rewrite map_app, weighted_app by (rewrite map_length, <- (map_length snd l1); exact (two_length _ _ M1)). cbn [map fst combine weighted]. ring. }
  rewrite (batch_iff _ G'), <- W. split.
  - intros (ds & D & E). rewrite (Forall2_unique _ _ _ (M z) D). exact E.
  - intro E. exists (ds1 ++ d :: ds2). split; [exact (M z)|exact E].
Qed.
Theorem batch_string : forall l1 l2 x d, Forall good_item (l1 ++ l2) -> signed_ok x -> Forall (fun y => exists d, misses_by (snd y) d) (l1 ++ l2) -> misses_by x d -> d <> 0 ->
  exactly 1 (fun b => bytes 57 b /\ exists z, scalar_from_canonical_bytes b = Ok (Some z) /\ sig_batch B (l1 ++ (z, x) :: l2) = Ok true).
Proof.
  intros l1 l2 x d F Hx FD Hd N. destruct (batch_one l1 l2 x d F Hx FD Hd N) as (z0 & R0 & K). exists [le_bytes 57 z0].
  split; [constructor; [intros []|constructor]|]. split; [reflexivity|]. intro b. split.
  - intros [<-|[]]. split; [apply le_bytes_bytes|]. destruct (canonical_exists (le_bytes 57 z0) (le_bytes_bytes _ _)) as (z & E & Sz & V); rewrite le_val_bytes57 in * by exact R0; [lia|].
    exists z. split; [exact E|]. apply K; [exact Sz|]. rewrite V. apply Z.mod_small. exact R0.
  - intros (Hb & z & E & A). left. destruct (Z.lt_ge_cases (le_val b) ell) as [Lt|Ge]; [|rewrite (canonical_bytes_reject b Hb Ge) in E; discriminate E].
    destruct (canonical_exists b Hb Lt) as (z' & E' & Sz & V). rewrite E' in E. apply ok_inj in E. injection E as ->. apply (K z Sz) in A. rewrite V in A.
    rewrite Z.mod_small in A by (rewrite <- V; pose proof (scalar_range z Sz); lia). rewrite <- A. exact (bytes_le_bytes 57 b Hb).
Qed.
End Batch.

(** Two wrong signatures that make up for each other, with both scalars one. *)
Definition off_by (d : Z) : signed := (zero_key, zero_key, le_bytes 57 d, le_bytes 114 0).
Lemma off_ok : forall d, signed_ok (off_by d). Proof. intro d. exact (conj zero_key_bytes (conj zero_key_bytes (conj (le_bytes_bytes _ _) (le_bytes_bytes _ _)))). Qed.
Lemma off_misses : forall d, 0 <= d < ell -> misses_by (off_by d) d.
Proof.
  intros d Hd. pose proof (rfc_roundtrip pzero on_zero) as D. exists pzero, pzero, 0, 0. split; [exact D|]. split; [exact D|]. split; [exact zero_log|]. split; [exact zero_log|].
  rewrite le_val_bytes57 by exact Hd. split; [lia|]. rewrite Z.mul_0_r, !Z.sub_0_r. symmetry. apply Z.mod_small. exact Hd.
Qed.
Lemma one_scalar : is_scalar scalar_one /\ sval scalar_one = 1. Proof. split; [apply (digits_array 32 14 1); lia|reflexivity]. Qed.
Lemma batch_cancels : forall B, shipped B -> exists A R S h A' R' S' h', let x := (A, R, S, h) in let y := (A', R', S', h') in signed_ok x /\ signed_ok y /\
  sig_verify B A R S h = Ok false /\ sig_verify B A' R' S' h' = Ok false /\ sig_batch B [(scalar_one, x); (scalar_one, y)] = Ok true.
Proof.
  intros B Sh. pose proof ell_pos as EP. assert (E1 : 1 < ell) by reflexivity. destruct one_scalar as [S1 V1].
  assert (Rej : forall d, 0 < d < ell -> sig_verify B zero_key zero_key (le_bytes 57 d) (le_bytes 114 0) = Ok false).
  { intros d Hd. pose proof (off_ok d) as (HA & HR & HS & Hh). pose proof (verify_ok B Sh _ _ _ _ HA HR HS Hh) as E. destruct (rfc8032_verify _ _ _ _); [|exact E].
    apply (verify_misses B Sh) in E; [|exact (off_ok d)]. pose proof (misses_unique _ _ _ E (off_misses d ltac:(lia))). lia. }
  exists zero_key, zero_key, (le_bytes 57 1), (le_bytes 114 0), zero_key, zero_key, (le_bytes 57 (ell - 1)), (le_bytes 114 0). cbv zeta.
  split; [exact (off_ok 1)|]. split; [exact (off_ok (ell - 1))|]. split; [apply Rej; lia|]. split; [apply Rej; lia|].
  apply (batch_iff B Sh).
  - constructor; [split; [exact S1|exact (off_ok 1)]|]. constructor; [split; [exact S1|exact (off_ok (ell - 1))]|constructor].
  - exists [1; ell - 1]. split; [constructor; [exact (off_misses 1 ltac:(lia))|constructor; [exact (off_misses (ell - 1) ltac:(lia))|constructor]]|].
    cbn [map fst combine weighted]. rewrite V1. replace (1 * 1 + (1 * (ell - 1) + 0)) with ell by ring. apply Z.mod_same. lia.
Qed.

Lemma batch_pair : forall B, shipped B -> forall z1 z2 d1 d2, is_scalar z1 -> is_scalar z2 -> 0 <= d1 < ell -> 0 <= d2 < ell ->
  sig_batch B [(z1, off_by d1); (z2, off_by d2)] = Ok ((sval z1 * d1 + sval z2 * d2) mod ell =? 0).
Proof.
  intros B Sh z1 z2 d1 d2 S1 S2 H1 H2. assert (F : Forall good_item [(z1, off_by d1); (z2, off_by d2)]) by (constructor; [split; [exact S1|exact (off_ok d1)]|constructor; [split; [exact S2|exact (off_ok d2)]|constructor]]).
  assert (D : Forall2 misses_by [off_by d1; off_by d2] [d1; d2]) by (constructor; [exact (off_misses d1 H1)|constructor; [exact (off_misses d2 H2)|constructor]]).
  assert (W : weighted (combine [z1; z2] [d1; d2]) = sval z1 * d1 + sval z2 * d2) by (cbn [combine weighted]; ring). rewrite <- W.
  destruct (batch_value B Sh _ F) as (b & -> & K). apply f_equal. cbn [map fst snd] in K. apply eq_true_iff_eq. rewrite K, Z.eqb_eq. split.
  - intros (ds & D' & E). rewrite (Forall2_unique _ _ _ D D'). exact E.
  - intro E. exists [d1; d2]. split; [exact D|exact E].
Qed.
