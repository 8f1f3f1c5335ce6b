(** Decaf programs compute modulo l. *)
Require Import ZArith Znumtheory List Bool Lia.
From Verif Require Import Base BaseProofs SpecParams SpecField SpecCurve SpecEncoding SpecDecaf FieldTheory FieldBackend Backends BackendLaws
  ScalarModel ScalarProofs ScalarMain EdwardsTheory CurveTheory TwistedModel DecafModel PointSpec TwistedProofs ScalarMulProofs EdwardsProofs EdwardsExpr EdwardsRun GroupOrder TwistedMain EdwardsMain MontgomeryMain DecafTheory DecafGroup DecafProofs DecafRun DecafMain
  ApiExpr SpecApi ApiRun ApiMeaning SpecExponent.
Import ListNotations.
Open Scope Z_scope.
Local Opaque fadd fsub fmul fopp fdiv finv fpow of_Z padd pmul pzero fsqrt G D ell even_tw tw_affine decaf_encode decaf_decode digits.
Local Notation "P ⊕ Q" := (padd tw_a tw_d P Q) (at level 50, left associativity).
Local Notation "n • P" := (pmul tw_a tw_d n P) (at level 40).

Lemma evD : forall n, even_tw (n • D). Proof. intro n. apply even_pmul. exact even_D. Qed.
Lemma mod_bounds : forall n, 0 <= n mod ell < ell. Proof. intro n. apply Z.mod_pos_bound. exact ell_pos'. Qed.
Lemma string_bytes : forall n, bytes 56 (string_of n). Proof. intro n. apply decaf_encode_bytes. Qed.
Theorem string_inj : forall m n, string_of m = string_of n <-> m mod ell = n mod ell.
Proof.
  intros m n. unfold string_of. split; [|intros ->; reflexivity]. intro E. apply encode_class in E; try apply evD.
  exact (class_D_inj _ _ (mod_bounds m) (mod_bounds n) E).
Qed.
Theorem string_all : forall b, bytes 56 b -> (decaf_ok b <-> exists n, 0 <= n < ell /\ b = string_of n).
Proof.
  intros b Hb. split.
  - intro OK. destruct (accept u32_backend shipped_u32 b Hb OK) as (P & Q & _ & HQ & _ & EQ). pose proof (tw_rep_even _ _ _ HQ) as EvQ.
    destruct (class_gen Q EvQ) as (k & Hk & C). exists k. split; [exact Hk|]. unfold string_of. rewrite Z.mod_small by exact Hk.
    rewrite <- EQ. apply encode_class; [exact EvQ|apply evD|exact C].
  - intros (n & _ & ->). apply encode_ok. apply evD.
Qed.
Theorem string_zero : string_of 0 = repeat 0 56.
Proof. unfold string_of. rewrite Z.mod_0_l by (pose proof ell_pos'; lia). rewrite pmul_0. exact encode_zero. Qed.

Lemma calls_ok : forall e, scalars_ok e -> api_ok (calls e).
Proof. induction e; cbn [scalars_ok calls api_ok]; try tauto. intros _. apply string_bytes. Qed.
Lemma neg_D : forall a, 0 <= a < ell -> pneg (a • D) = (ell - a) • D.
Proof.
  intros a Ha. symmetry. apply (g_neg_unique _ _ _ tw_group); try apply evD. rewrite <- (pmul_add _ _ _ tw_group) by (lia || exact even_D).
  replace (a + (ell - a)) with ell by lia. exact ell_D.
Qed.
Lemma to_mod : forall n m, 0 <= n -> n mod ell = m mod ell -> same_class (n • D) ((m mod ell) • D).
Proof. intros n m Hn E. rewrite <- E. apply class_mod; [exact Hn|exact even_D]. Qed.
Lemma modeq : forall x y k, x = y + k * ell -> x mod ell = y mod ell.
Proof. intros x y k ->. apply Z.mod_add. pose proof ell_pos'. lia. Qed.
Lemma mod_k : forall a, exists k, a mod ell = a + k * ell.
Proof. intro a. exists (- (a / ell)). pose proof (Z.div_mod a ell ltac:(pose proof ell_pos'; lia)). lia. Qed.
Lemma invariant : forall e, scalars_ok e -> exists P, meaning (calls e) = Some P /\ even_tw P /\ same_class P ((exponent e mod ell) • D).
Proof.
  assert (Tr : forall P Q n, even_tw P -> even_tw Q -> same_class P Q -> same_class Q (n • D) -> same_class P (n • D)).
  { intros P Q n HP HQ. exact (class_trans P Q _ HP HQ (evD n)). }
  induction e as [| |n|x IHx y IHy|x IHx y IHy|x IHx|x IHx s]; cbn [scalars_ok calls meaning exponent]; intro H.
  - exists D. split; [reflexivity|]. split; [exact even_D|]. rewrite Z.mod_small by (pose proof ell_big'; lia). rewrite pmul_1. apply class_refl.
  - exists pzero. split; [reflexivity|]. split; [exact even_zero|]. rewrite Z.mod_0_l by (pose proof ell_pos'; lia). rewrite pmul_0. apply class_refl.
  - pose proof (string_bytes n) as Hb. assert (OK : decaf_ok (string_of n)) by (apply encode_ok; apply evD).
    pose proof (proj1 (ok_decode _) OK) as E. set (P := decaf_point (of_Z (le_val (string_of n)))) in *.
    assert (EvP : even_tw P). { apply (ob_even (ADcDecompress (string_of n)) Hb). rewrite (api_means TDc (ADcDecompress (string_of n)) Hb). exact E. }
    exists P. split; [exact E|]. split; [exact EvP|].
    destruct (accept u32_backend shipped_u32 _ Hb OK) as (P' & Q & _ & HQ & C & EQ). pose proof (tw_rep_even _ _ _ HQ) as EvQ.
    apply (Tr P Q); [exact EvP|exact EvQ|apply class_sym; assumption|]. apply encode_class; [exact EvQ|apply evD|exact EQ].
  - destruct H as [Hx Hy]. destruct (IHx Hx) as (P & EP & VP & CP). destruct (IHy Hy) as (Q & EQ & VQ & CQ). rewrite EP, EQ. cbn [ob].
    eexists. split; [reflexivity|]. split; [apply even_padd; assumption|].
    apply (Tr _ ((exponent x mod ell) • D ⊕ (exponent y mod ell) • D)); [apply even_padd; assumption|apply even_padd; apply evD|apply class_add; try assumption; apply evD|].
    pose proof (mod_bounds (exponent x)). pose proof (mod_bounds (exponent y)). rewrite <- (pmul_add _ _ _ tw_group) by (lia || exact even_D).
    apply to_mod; [lia|]. symmetry. apply Zplus_mod.
  - destruct H as [Hx Hy]. destruct (IHx Hx) as (P & EP & VP & CP). destruct (IHy Hy) as (Q & EQ & VQ & CQ). rewrite EP, EQ. cbn [ob].
    eexists. split; [reflexivity|]. split; [apply even_padd; [|apply even_neg]; assumption|].
    pose proof (mod_bounds (exponent x)). pose proof (mod_bounds (exponent y)) as By.
    apply (Tr _ ((exponent x mod ell) • D ⊕ pneg ((exponent y mod ell) • D))).
    + apply even_padd; [|apply even_neg]; assumption.
    + apply even_padd; [|apply even_neg]; apply evD.
    + exact (class_add _ _ _ _ VP (evD _) (even_neg _ VQ) (even_neg _ (evD _)) CP (class_neg _ _ VQ (evD _) CQ)).
    + rewrite (neg_D _ By). rewrite <- (pmul_add _ _ _ tw_group) by (lia || exact even_D). apply to_mod; [lia|].
      destruct (mod_k (exponent x)) as (j & ->). destruct (mod_k (exponent y)) as (k & ->). apply (modeq _ _ (j - k + 1)). ring.
  - destruct (IHx H) as (P & EP & VP & CP). rewrite EP. cbn [ob]. eexists. split; [reflexivity|]. split; [apply even_neg; assumption|].
    pose proof (mod_bounds (exponent x)) as Bx.
    apply (Tr _ (pneg ((exponent x mod ell) • D))); [apply even_neg; assumption|apply even_neg; apply evD|apply class_neg; [assumption|apply evD|exact CP]|].
    rewrite (neg_D _ Bx). apply to_mod; [lia|]. destruct (mod_k (exponent x)) as (j & ->). apply (modeq _ _ (1 - j)). ring.
  - destruct H as [Hx Hs]. destruct (IHx Hx) as (P & EP & VP & CP). rewrite EP. cbn [ob]. eexists. split; [reflexivity|]. split; [apply even_pmul; assumption|].
    pose proof (mod_bounds (exponent x)) as Bx. pose proof (scalar_range s Hs) as Rs. change (value s) with (sval s). change (eval 32 s) with (sval s).
    apply (Tr _ (sval s • ((exponent x mod ell) • D))); [apply even_pmul; assumption|apply even_pmul; apply evD|apply class_mul; [lia|assumption|apply evD|exact CP]|].
    rewrite <- (pmul_mul _ _ _ tw_group) by (lia || exact even_D). apply to_mod; [nia|].
    destruct (mod_k (exponent x)) as (j & ->). apply (modeq _ _ (j * sval s)). ring.
Qed.

Section Run.
Variable B : backend.
Hypothesis S : shipped B.
Theorem encoded : forall e, scalars_ok e -> api_run B (ADcCompress (calls e)) = Ok (Some (string_of (exponent e))).
Proof.
  intros e H. refine (eq_trans (data_meaning B S _ (ADcCompress (calls e)) (calls_ok e H)) _). destruct (invariant e H) as (P & E & V & C). cbn [meaning]. rewrite E. cbn [ob].
  apply (f_equal (fun x => Ok (Some x))). apply encode_class; [exact V|apply evD|exact C].
Qed.
Theorem compared : forall e f, scalars_ok e -> scalars_ok f ->
  api_run B (ADcEq (calls e) (calls f)) = Ok (Some (exponent e mod ell =? exponent f mod ell)).
Proof.
  intros e f He Hf. refine (eq_trans (data_meaning B S _ (ADcEq (calls e) (calls f)) (conj (calls_ok e He) (calls_ok f Hf))) _).
  destruct (invariant e He) as (P & E & V & C). destruct (invariant f Hf) as (Q & E' & V' & C'). cbn [meaning]. rewrite E, E'. cbn [ob].
  apply (f_equal (fun x => Ok (Some x))). rewrite <- (class_ceqb P Q V V'). apply bool_iff. rewrite (ceqb_class P Q V V'), Z.eqb_eq. split.
  - intro X. apply (class_D_inj _ _ (mod_bounds _) (mod_bounds _)).
    apply (class_trans _ P); [apply evD|exact V|apply evD|apply class_sym; [exact V|apply evD|exact C]|]. exact (class_trans _ Q _ V V' (evD _) X C').
  - intro X. rewrite X in C. apply (class_trans _ ((exponent f mod ell) • D)); [exact V|apply evD|exact V'|exact C|apply class_sym; [exact V'|apply evD|exact C']].
Qed.

Theorem public_string : forall a, is_scalar a -> api_run B (public_key a) = Ok (Some (string_of (sval a))).
Proof. intros a Ha. refine (eq_trans (encoded (ETimes EBase a) (conj I Ha)) _). cbn [exponent]. change (eval 32 a) with (sval a). rewrite Z.mul_1_l. reflexivity. Qed.
Theorem shared_string : forall n a, is_scalar a -> api_run B (shared_secret (string_of n) a) = Ok (Some (string_of (n * sval a))).
Proof. intros n a Ha. exact (encoded (ETimes (EReceived n) a) (conj I Ha)). Qed.
Theorem shared_rejected : forall b a, bytes 56 b -> is_scalar a -> ~ decaf_ok b -> api_run B (shared_secret b a) = Ok None.
Proof.
  intros b a Hb Ha N. refine (eq_trans (data_meaning B S _ (shared_secret b a) (conj Hb Ha)) _). unfold shared_secret. cbn [meaning]. rewrite (proj2 (ok_decode b) N). reflexivity.
Qed.
Theorem exchanged : forall a b, is_scalar a -> is_scalar b -> api_run B (exchange a b) = Ok (Some (string_of (sval a * sval b))).
Proof.
  intros a b Ha Hb. unfold exchange. cbn [api_run]. refine (eq_trans (f_equal (fun x => obind x (fun v => api_run B (shared_secret v a))) (public_string b Hb)) _).
  cbn [obind bind]. rewrite Z.mul_comm. exact (shared_string (sval b) a Ha).
Qed.
Theorem exchange_agrees : forall a b, is_scalar a -> is_scalar b -> api_run B (exchange a b) = api_run B (exchange b a).
Proof. intros a b Ha Hb. rewrite !exchanged by assumption. rewrite Z.mul_comm. reflexivity. Qed.
Theorem exchange_zero : forall a b, is_scalar a -> is_scalar b ->
  (api_run B (exchange a b) = Ok (Some (repeat 0 56)) <-> sval a mod ell = 0 \/ sval b mod ell = 0).
Proof.
  intros a b Ha Hb. rewrite exchanged by assumption. rewrite <- string_zero.
  assert (E : Ok (Some (string_of (sval a * sval b))) = Ok (Some (string_of 0)) <-> string_of (sval a * sval b) = string_of 0).
  { split; [|intros ->; reflexivity]. intro E. apply ok_inj in E. exact (f_equal (fun o => match o with Some x => x | None => [] end) E). }
  pose proof ell_pos' as EP. rewrite E, string_inj, Z.mod_0_l by lia. split.
  - intro M. apply Z.mod_divide in M; [|lia]. destruct (prime_mult ell Primes.prime_ell _ _ M) as [X|X]; [left|right]; apply Z.mod_divide; (lia || exact X).
  - intros [M|M]; rewrite Z.mul_mod by lia; rewrite M; rewrite ?Z.mul_0_l, ?Z.mul_0_r; apply Z.mod_0_l; lia.
Qed.

Theorem check_exact : forall a r c s, is_scalar c -> is_scalar s ->
  api_run B (check (string_of a) (string_of r) c s) = Ok (Some (sval s mod ell =? (r + a * sval c) mod ell)).
Proof.
  intros a r c s Hc Hs. refine (eq_trans (compared (ETimes EBase s) (EAdd (EReceived r) (ETimes (EReceived a) c)) (conj I Hs) (conj I (conj I Hc))) _).
  cbn [exponent]. change (eval 32 s) with (sval s). change (eval 32 c) with (sval c). rewrite Z.mul_1_l. reflexivity.
Qed.
Theorem respond_value : forall r c a, canonical r -> is_scalar c -> is_scalar a ->
  exists s, api_run B (respond r c a) = Ok (Some s) /\ canonical s /\ sval s = (sval r + sval c * sval a) mod ell.
Proof.
  intros r c a [Hr Lr] Hc Ha. destruct (scalar_mul_ok c a Hc Ha) as (x & Ex & Hx & Vx). pose proof (mod_bounds (sval c * sval a)) as Bx.
  pose proof (scalar_range r Hr) as Rr. destruct (scalar_add_ok r x Hr Hx) as (s & Es & Hs & Vs); [rewrite Vx; pose proof ell_big'; lia|].
  exists s. unfold respond. cbn [api_run]. rewrite Ex. cbn [obind osome bind]. rewrite Es. split; [reflexivity|].
  rewrite Vx in Vs. assert (V : sval s = (sval r + sval c * sval a) mod ell).
  { rewrite Vs. rewrite <- Zplus_mod_idemp_r. clear Vs Vx. revert Bx. generalize ((sval c * sval a) mod ell). intros m Bx. destruct (Z.ltb_spec (sval r + m) ell) as [X|X].
    - symmetry. apply Z.mod_small. lia.
    - symmetry. rewrite <- (Z.mod_small (sval r + m - ell) ell) by lia. apply (modeq _ _ 1). ring. }
  split; [|exact V]. split; [exact Hs|]. rewrite V. apply mod_bounds.
Qed.
Theorem schnorr_complete : forall r c a, canonical r -> is_scalar c -> is_scalar a ->
  exists s, api_run B (respond r c a) = Ok (Some s) /\ api_run B (check (string_of (sval a)) (string_of (sval r)) c s) = Ok (Some true).
Proof.
  intros r c a Hr Hc Ha. destruct (respond_value r c a Hr Hc Ha) as (s & E & [Hs _] & V). exists s. split; [exact E|]. rewrite check_exact by assumption.
  rewrite V, Z.mod_mod by (pose proof ell_pos'; lia). rewrite (Z.mul_comm (sval c)). rewrite Z.eqb_refl. reflexivity.
Qed.
Theorem schnorr_extract : forall a r c s c' s', is_scalar c -> is_scalar s -> is_scalar c' -> is_scalar s' ->
  api_run B (check (string_of a) (string_of r) c s) = Ok (Some true) -> api_run B (check (string_of a) (string_of r) c' s') = Ok (Some true) ->
  (a * (sval c - sval c')) mod ell = (sval s - sval s') mod ell.
Proof.
  intros a r c s c' s' Hc Hs Hc' Hs' E E'. rewrite check_exact in E, E' by assumption.
  assert (X : forall b, Ok (Some b) = Ok (Some true) -> b = true) by (intros [] Q; [reflexivity|discriminate Q]).
  apply X, Z.eqb_eq in E. apply X, Z.eqb_eq in E'. symmetry. rewrite Zminus_mod, E, E', <- Zminus_mod. apply (f_equal (fun z => z mod ell)). ring.
Qed.
End Run.
Theorem two_scalars : canonical (digits 32 14 5) /\ canonical (digits 32 14 (ell - 1)) /\ sval (digits 32 14 5) mod ell <> 0.
Proof.
  pose proof ell_big' as L. destruct (small_scalar 5 ltac:(lia)) as [C V]. destruct (small_scalar (ell - 1) ltac:(lia)) as [C' _].
  split; [exact C|]. split; [exact C'|]. rewrite V, Z.mod_small by lia. discriminate.
Qed.
