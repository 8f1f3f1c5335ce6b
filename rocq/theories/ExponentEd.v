(** Edwards programs compute modulo 4 l. *)
Require Import ZArith Znumtheory List Bool Lia.
From Verif Require Import Base BaseProofs SpecParams SpecField SpecCurve SpecEncoding SpecCount SpecRfc8032 SpecDecaf SpecExponent SpecApi FieldTheory CurveTheory EdwardsTheory
  EdwardsProofs EdwardsRun EdwardsMain AbGroup Order GroupOrder FieldBackend Backends ScalarModel ScalarProofs ScalarMain PointSpec Rfc8032Main ApiExpr ApiRun ApiMeaning ExponentMain CountStrings FibreGroup MapTheory MapMain
  TwistedProofs DecafMain ProtocolMain SpecExponentEd.
Import ListNotations.
Open Scope Z_scope.
Local Opaque padd pmul SpecCurve.G pzero ell zmul ed_decode ed_encode T4 digits fadd fsub fmul fopp fdiv finv fpow of_Z fsqrt.
Local Notation "P ⊕ Q" := (padd ed_a ed_d P Q) (at level 50, left associativity).
Local Notation "n ∘ P" := (zmul ed_a ed_d n P) (at level 40).

Lemma fl_pos : 0 < 4 * ell. Proof. exact four_ell_pos. Qed.
Lemma multiple_z : forall n, multiple n = n ∘ g_full.
Proof. intro n. pose proof fl_pos. pose proof (Z.mod_pos_bound n (4 * ell) fl_pos). unfold multiple. change curve_gen with g_full. rewrite <- zmul_nonneg by lia. apply full_inj. apply Z.mod_mod. lia. Qed.
Lemma string_ed_z : forall n, string_ed n = ed_string n. Proof. intro n. unfold string_ed. rewrite multiple_z. reflexivity. Qed.
Lemma multiple_inj : forall m n, multiple m = multiple n <-> m mod (4 * ell) = n mod (4 * ell).
Proof. intros m n. rewrite !multiple_z. apply full_inj. Qed.
Lemma multiple_on : forall n, on_ed (multiple n). Proof. intro n. rewrite multiple_z. apply on_mult. Qed.
Theorem string_ed_inj : forall m n, string_ed m = string_ed n <-> m mod (4 * ell) = n mod (4 * ell).
Proof. intros m n. rewrite !string_ed_z. apply ed_string_inj. Qed.
Theorem string_ed_bytes : forall n, bytes 57 (string_ed n). Proof. intro n. exact (proj1 (encode_bytes (multiple n))). Qed.
Theorem string_ed_received : forall n, bytes 57 (string_ed n) /\ ed_decode (string_ed n) = Some (multiple n).
Proof. intro n. split; [apply string_ed_bytes|]. exact (decode_encode _ (multiple_on n)). Qed.
Lemma decoded_on : forall b P, ed_decode b = Some P -> on_ed P.
Proof. intros b [x y] E. apply ed_decode_some in E. exact (proj1 E). Qed.
Lemma base_multiple : SpecCurve.G = (ell + 1) ∘ g_full.
Proof.
  pose proof ell_pos' as EP. rewrite full_mult. replace ((ell + 1) mod ell) with 1; [replace ((ell + 1) mod 4) with 0|].
  - rewrite pmul_1, pmul_0, (a_0_r _ _ _ _ _ _ ed_ab). reflexivity.
  - reflexivity.
  - reflexivity.
Qed.
Lemma two_multiple : order_two = (2 * ell) ∘ g_full.
Proof.
  rewrite full_mult. replace ((2 * ell) mod ell) with 0 by reflexivity. replace ((2 * ell) mod 4) with 2 by reflexivity. rewrite pmul_0, (ag_0 _ _ _ _ _ _ ed_ab). rewrite T4_2. reflexivity.
Qed.
Lemma ed_calls_ok : forall e, ed_inputs_ok e -> api_ok (ed_calls e).
Proof. induction e; cbn [ed_inputs_ok ed_calls api_ok]; tauto. Qed.
Lemma ed_invariant : forall e, ed_inputs_ok e -> meaning (ed_calls e) = Some (ed_exponent e ∘ g_full).
Proof.
  pose proof on_full as OF. pose proof on_mult as OM. induction e as [| |b n|x IHx y IHy|x IHx y IHy|x IHx|x IHx|x IHx|x IHx s|x IHx s|x IHx|x IHx|x IHx y IHy c]; cbn [ed_inputs_ok ed_calls meaning ed_exponent]; intro H.
  - rewrite <- base_multiple. reflexivity.
  - rewrite zmul_nonneg, pmul_0 by lia. reflexivity.
  - rewrite <- multiple_z. exact (proj2 H).
  - rewrite (IHx (proj1 H)), (IHy (proj2 H)). cbn [ob]. f_equal. symmetry. apply (ag_mul_add _ _ _ _ _ _ ed_ab). exact OF.
  - rewrite (IHx (proj1 H)), (IHy (proj2 H)). cbn [ob]. f_equal. unfold Z.sub. rewrite (ag_mul_add _ _ _ _ _ _ ed_ab), (a_mul_opp _ _ _ _ _ _ ed_ab) by exact OF. reflexivity.
  - rewrite (IHx H). cbn [ob]. f_equal. symmetry. apply (a_mul_opp _ _ _ _ _ _ ed_ab). exact OF.
  - rewrite (IHx H). cbn [ob]. f_equal. replace (2 * ed_exponent x) with (ed_exponent x + ed_exponent x) by ring. symmetry. apply (ag_mul_add _ _ _ _ _ _ ed_ab). exact OF.
  - rewrite (IHx H). cbn [ob]. f_equal. rewrite two_multiple. symmetry. apply (ag_mul_add _ _ _ _ _ _ ed_ab). exact OF.
  - rewrite (IHx (proj1 H)). cbn [ob]. f_equal. pose proof (scalar_range s (proj2 H)) as R. unfold value. change (eval 32 s) with (sval s) in *. rewrite <- zmul_nonneg by lia. rewrite (Z.mul_comm _ (sval s)), (a_mul_mul _ _ _ _ _ _ ed_ab) by exact OF. reflexivity.
  - rewrite (IHx (proj1 H)). cbn [ob]. f_equal. unfold value. pose proof (Z.mod_pos_bound (eval 32 s) 4 ltac:(lia)) as R. rewrite <- zmul_nonneg by lia. rewrite (Z.mul_comm _ (eval 32 s mod 4)), (a_mul_mul _ _ _ _ _ _ ed_ab) by exact OF. reflexivity.
  - rewrite (IHx H). cbn [ob]. f_equal. refine (eq_trans (phihat_phi _ (OM _)) _). rewrite <- zmul_nonneg by lia. symmetry. apply (a_mul_mul _ _ _ _ _ _ ed_ab). exact OF.
  - rewrite (IHx H). reflexivity.
  - rewrite (IHx (proj1 H)), (IHy (proj2 H)). cbn [ob]. destruct c; reflexivity.
Qed.
Lemma modm_iff : forall N m n, 0 < N -> (m mod N = n mod N <-> (N | m - n)).
Proof.
  intros N m n HN. split; intro E.
  - apply Z.mod_divide; [lia|]. rewrite Zminus_mod, E, Z.sub_diag. apply Z.mod_0_l. lia.
  - destruct E as [k E]. replace m with (n + k * N) by lia. apply Z.mod_add. lia.
Qed.
Lemma zero_multiple : forall m, m ∘ g_full = pzero <-> (4 * ell | m).
Proof.
  intro m. replace pzero with (0 ∘ g_full) by (rewrite zmul_nonneg, pmul_0 by lia; reflexivity). rewrite full_inj, modm_iff, Z.sub_0_r by exact fl_pos. tauto.
Qed.
Lemma quarter : forall m, (4 * ell | ell * m) <-> (4 | m).
Proof. intro m. pose proof ell_pos'. split; intros [k E]; exists k; nia. Qed.
Lemma lth : forall m, (4 * ell | 4 * m) <-> (ell | m).
Proof. intro m. split; intros [k E]; exists k; lia. Qed.
Local Open Scope F_scope.
Lemma axis_multiple : forall m x y, (m ∘ g_full)%Z = (x, y) -> (x * y = 0 <-> (ell | m)%Z).
Proof.
  intros m x y E. pose proof (on_mult m) as O. rewrite E in O. rewrite (axes x y O), <- E. rewrite <- lth. rewrite <- zero_multiple, (a_mul_mul _ _ _ _ _ _ ed_ab) by exact on_full.
  assert (T : forall j, (4 ∘ (j ∘ T4))%Z = pzero). { intro j. rewrite <- (a_mul_mul _ _ _ _ _ _ ed_ab), Z.mul_comm, (a_mul_mul _ _ _ _ _ _ ed_ab), z_T4_4 by exact on_T4. apply (a_mul_z _ _ _ _ _ _ ed_ab). }
  assert (T0 : (0, 1) = (0 ∘ T4)%Z) by (rewrite zmul_nonneg, pmul_0 by lia; reflexivity). assert (T1 : (1, 0) = (1 ∘ T4)%Z) by (rewrite zmul_nonneg, pmul_1 by lia; reflexivity).
  assert (T2 : (0, - (1)) = (2 ∘ T4)%Z) by (rewrite zmul_nonneg by lia; symmetry; exact T4_2). assert (T3 : (- (1), 0) = (3 ∘ T4)%Z) by (rewrite zmul_nonneg by lia; symmetry; exact T4_3).
  split.
  - intros [K|[K|[K|[K|[]]]]]; rewrite <- K; [rewrite T0|rewrite T2|rewrite T1|rewrite T3]; apply T.
  - intro K. rewrite <- (a_mul_mul _ _ _ _ _ _ ed_ab) in K by exact on_full. apply zero_multiple, lth in K. rewrite full_mult. replace (m mod ell)%Z with 0%Z by (symmetry; apply Z.mod_divide; [pose proof ell_pos'; lia|exact K]).
    rewrite pmul_0, (ag_0 _ _ _ _ _ _ ed_ab). pose proof (Z.mod_pos_bound m 4 ltac:(lia)) as R. rewrite <- zmul_nonneg by lia. rewrite T0, T1, T2, T3. generalize dependent (m mod 4)%Z. intros j R.
    assert (J : (j = 0 \/ j = 1 \/ j = 2 \/ j = 3)%Z) by lia. destruct J as [->|[->|[->| ->]]]; [left|right; right; left|right; left|right; right; right; left]; reflexivity.
Qed.
Lemma signs_multiple : forall m n x y x' y', (m ∘ g_full)%Z = (x, y) -> (n ∘ g_full)%Z = (x', y') ->
  (x * x = x' * x' /\ y * y = y' * y' <-> (2 * ell | m - n)%Z \/ (2 * ell | m + n)%Z).
Proof.
  intros m n x y x' y' E E'. pose proof fl_pos as FP. pose proof on_full as OF.
  assert (A1 : (x, y) = (x', y') <-> (4 * ell | m - n)%Z) by (rewrite <- E, <- E', full_inj; apply modm_iff; exact FP).
  assert (A2 : (x, y) = (- x', y') <-> (4 * ell | m + n)%Z).
  { change (- x', y') with (pneg (x', y')). rewrite <- E, <- E', <- (a_mul_opp _ _ _ _ _ _ ed_ab), full_inj, modm_iff by (exact FP || exact OF). replace (m - - n)%Z with (m + n)%Z by ring. tauto. }
  assert (N2 : forall a b, (a, b) ⊕ order_two = (- a, - b)) by (intros; apply pt_N_neg).
  assert (A3 : (x, y) = (- x', - y') <-> (4 * ell | m - n - 2 * ell)%Z).
  { rewrite <- N2, <- E, <- E', two_multiple, <- (ag_mul_add _ _ _ _ _ _ ed_ab), full_inj, modm_iff by (exact FP || exact OF). replace (m - (n + 2 * ell))%Z with (m - n - 2 * ell)%Z by ring. tauto. }
  assert (A4 : (x, y) = (x', - y') <-> (4 * ell | m + n - 2 * ell)%Z).
  { replace (x', - y') with (pneg (x', y') ⊕ order_two) by (unfold pneg; cbn [fst snd]; rewrite N2; f_equal; ring). rewrite <- E, <- E', two_multiple, <- (a_mul_opp _ _ _ _ _ _ ed_ab), <- (ag_mul_add _ _ _ _ _ _ ed_ab), full_inj, modm_iff by (exact FP || exact OF).
    replace (m - (- n + 2 * ell))%Z with (m + n - 2 * ell)%Z by ring. tauto. }
  assert (D : forall k, (2 * ell | k)%Z <-> (4 * ell | k)%Z \/ (4 * ell | k - 2 * ell)%Z).
  { intro k. split.
    - intros [q Hq]. destruct (Z.Even_or_Odd q) as [[r Hr]|[r Hr]]; [left|right]; exists r; rewrite Hq, Hr; ring.
    - intros [[q Hq]|[q Hq]]; [exists (2 * q)%Z|exists (2 * q + 1)%Z]; lia. }
  rewrite !D, <- A1, <- A2, <- A3, <- A4. split.
  - intros [X Y]. destruct (fsq_eq _ _ X) as [-> | ->], (fsq_eq _ _ Y) as [-> | ->]; auto.
  - intros [[K|K]|[K|K]]; apply pair_equal_spec in K; destruct K as [-> ->]; split; ring.
Qed.
Local Close Scope F_scope.

Section RunEd.
Variable B : backend.
Hypothesis Sh : shipped B.
Notation run e := (api_run B e).
Theorem encoded_ed : forall e, ed_inputs_ok e -> run (AEdCompress (ed_calls e)) = Ok (Some (string_ed (ed_exponent e))).
Proof.
  intros e H. refine (eq_trans (data_meaning B Sh _ (AEdCompress (ed_calls e)) (ed_calls_ok e H)) _). cbn [meaning]. rewrite (ed_invariant e H). cbn [ob]. rewrite string_ed_z. reflexivity.
Qed.
Theorem compared_ed : forall e f, ed_inputs_ok e -> ed_inputs_ok f -> run (AEdEq (ed_calls e) (ed_calls f)) = Ok (Some (ed_exponent e mod (4 * ell) =? ed_exponent f mod (4 * ell))).
Proof.
  intros e f He Hf. refine (eq_trans (data_meaning B Sh _ (AEdEq (ed_calls e) (ed_calls f)) (conj (ed_calls_ok e He) (ed_calls_ok f Hf))) _). cbn [meaning]. rewrite (ed_invariant e He), (ed_invariant f Hf). cbn [ob].
  apply (f_equal (fun x => Ok (Some x))). rewrite peq_peqb. apply Bool.eq_iff_eq_true. rewrite peqb_eq, Z.eqb_eq. apply full_inj.
Qed.
Theorem torsion_ed : forall e, ed_inputs_ok e -> run (AEdTorsionFree (ed_calls e)) = Ok (Some (ed_exponent e mod 4 =? 0)).
Proof.
  intros e H. refine (eq_trans (data_meaning B Sh _ (AEdTorsionFree (ed_calls e)) (ed_calls_ok e H)) _). cbn [meaning]. rewrite (ed_invariant e H). cbn [ob]. apply (f_equal (fun x => Ok (Some x))). rewrite peq_peqb.
  apply Bool.eq_iff_eq_true. rewrite peqb_eq, Z.eqb_eq. rewrite <- zmul_nonneg by (pose proof ell_pos'; lia). rewrite <- (a_mul_mul _ _ _ _ _ _ ed_ab), zero_multiple, quarter by exact on_full. symmetry. apply Z.mod_divide. lia.
Qed.
Theorem montgomery_ed : forall e f, ed_inputs_ok e -> ed_inputs_ok f -> let m := ed_exponent e in let n := ed_exponent f in
  (run (AEdToMontgomery (ed_calls e)) = run (AEdToMontgomery (ed_calls f)) <-> m mod (2 * ell) = n mod (2 * ell) \/ m mod (2 * ell) = (- n) mod (2 * ell) \/ (m mod ell = 0 /\ n mod ell = 0)).
Proof.
  intros e f He Hf m n. pose proof ell_pos' as EP. rewrite (data_meaning B Sh _ (AEdToMontgomery (ed_calls e)) (ed_calls_ok e He)), (data_meaning B Sh _ (AEdToMontgomery (ed_calls f)) (ed_calls_ok f Hf)).
  cbn [meaning]. rewrite (ed_invariant e He), (ed_invariant f Hf). cbn [ob]. fold m n. pose proof (on_mult m) as Om. pose proof (on_mult n) as On.
  destruct (m ∘ g_full) as [x y] eqn:Em. destruct (n ∘ g_full) as [x' y'] eqn:En. transitivity (uc (x, y) = uc (x', y')).
  { rewrite <- uc_bytes. split; intro K; [|exact (f_equal (fun v => Ok (Some v)) K)]. apply (proj1 (some_inj _ _ _)) in K. exact K. }
  rewrite (uc_fibre x y x' y' Om On), (signs_multiple m n x y x' y' Em En), (axis_multiple m x y Em), (axis_multiple n x' y' En). rewrite !modm_iff by lia. replace (m - - n) with (m + n) by ring. rewrite <- !Z.mod_divide by lia. tauto.
Qed.
End RunEd.

Section Keys.
Variable B : backend.
Hypothesis Sh : shipped B.
Notation run e := (api_run B e).
Theorem received_all : forall b, bytes 57 b -> (run (AIsSome TEd (AEdDecompress b)) = Ok (Some true) <-> exists n, 0 <= n < 4 * ell /\ ed_decode b = Some (multiple n)).
Proof.
  intros b Hb. rewrite (data_meaning B Sh _ (AIsSome TEd (AEdDecompress b)) Hb). cbn [meaning]. split.
  - destruct (ed_decode b) as [P|] eqn:E; [|discriminate]. intros _. destruct (full_all P (decoded_on b P E)) as (n & Hn & ->). exists n. split; [exact Hn|]. rewrite multiple_z. reflexivity.
  - intros (n & _ & ->). reflexivity.
Qed.
Lemma mul_run : forall b n s, bytes 57 b -> ed_decode b = Some (multiple n) -> is_scalar s -> run (ed_shared b s) = Ok (Some (string_ed (n * sval s))).
Proof. intros b n s Hb E Hs. exact (encoded_ed B Sh (GTimes (GReceived b n) s) (conj (conj Hb E) Hs)). Qed.
Theorem public_ed : forall s, is_scalar s -> run (ed_public s) = Ok (Some (string_ed ((ell + 1) * sval s))).
Proof. intros s Hs. exact (encoded_ed B Sh (GTimes GBase s) (conj I Hs)). Qed.
Theorem clear_run : forall b n s, bytes 57 b -> ed_decode b = Some (multiple n) -> is_scalar s -> run (ed_shared_clear b s) = Ok (Some (string_ed (4 * n * sval s))).
Proof.
  intros b n s Hb E Hs. refine (eq_trans (encoded_ed B Sh (GTimes (GDouble (GDouble (GReceived b n))) s) (conj (conj Hb E) Hs)) _). cbn [ed_exponent]. change (eval 32 s) with (sval s). do 3 f_equal. ring.
Qed.
Theorem agree_ed : forall a b pa pb, is_scalar a -> is_scalar b -> run (ed_public a) = Ok (Some pa) -> run (ed_public b) = Ok (Some pb) ->
  run (ed_shared pb a) = run (ed_shared pa b) /\ run (ed_shared_clear pb a) = run (ed_shared_clear pa b).
Proof.
  intros a b pa pb Ha Hb Ea Eb. rewrite (public_ed a Ha) in Ea. rewrite (public_ed b Hb) in Eb. apply (proj1 (some_inj _ _ _)) in Ea, Eb. subst.
  split; [rewrite !(mul_run _ _ _ (proj1 (string_ed_received _)) (proj2 (string_ed_received _))) by assumption|rewrite !(clear_run _ _ _ (proj1 (string_ed_received _)) (proj2 (string_ed_received _))) by assumption]; do 3 f_equal; ring.
Qed.
Theorem shared_same : forall b n s t, bytes 57 b -> ed_decode b = Some (multiple n) -> is_scalar s -> is_scalar t -> (run (ed_shared b s) = run (ed_shared b t) <-> (n * (sval s - sval t)) mod (4 * ell) = 0).
Proof.
  intros b n s t Hb E Hs Ht. pose proof fl_pos. rewrite !(mul_run b n) by assumption. rewrite some_inj, string_ed_inj, modm_iff by lia. rewrite Z.mod_divide by lia. replace (n * sval s - n * sval t) with (n * (sval s - sval t)) by ring. tauto.
Qed.
Theorem clear_same : forall b n s t, bytes 57 b -> ed_decode b = Some (multiple n) -> is_scalar s -> is_scalar t -> (run (ed_shared_clear b s) = run (ed_shared_clear b t) <-> (n * (sval s - sval t)) mod ell = 0).
Proof.
  intros b n s t Hb E Hs Ht. pose proof fl_pos. rewrite !(clear_run b n) by assumption. rewrite some_inj, string_ed_inj, modm_iff by lia. rewrite Z.mod_divide by lia. replace (4 * n * sval s - 4 * n * sval t) with (4 * (n * (sval s - sval t))) by ring. apply lth.
Qed.
Theorem leak_ed : exists b, bytes 57 b /\ run (AIsSome TEd (AEdDecompress b)) = Ok (Some true) /\
  (forall s t, is_scalar s -> is_scalar t -> (run (ed_shared b s) = run (ed_shared b t) <-> sval s mod 4 = sval t mod 4)) /\
  (forall s, is_scalar s -> run (ed_shared_clear b s) = run (AEdCompress AEdIdentity)).
Proof.
  pose proof ell_pos' as EP. destruct (string_ed_received (3 * ell)) as [Hb E]. exists (string_ed (3 * ell)). split; [exact Hb|]. split; [|split].
  - apply (received_all _ Hb). exists (3 * ell). split; [lia|exact E].
  - intros s t Hs Ht. rewrite (shared_same _ _ s t Hb E Hs Ht), modm_iff by lia. rewrite Z.mod_divide by lia. replace (3 * ell * (sval s - sval t)) with (ell * (3 * (sval s - sval t))) by ring. rewrite quarter. split.
    + intro K. apply Z.gauss with 3; [exact K|reflexivity].
    + intros [k ->]. exists (3 * k). ring.
  - intros s Hs. rewrite (clear_run _ _ s Hb E Hs). refine (eq_sym (eq_trans (encoded_ed B Sh GZero I) _)). apply (proj2 (some_inj _ _ _)), string_ed_inj. cbn [ed_exponent]. apply modm_iff; [lia|]. exists (- (3 * sval s)). ring.
Qed.
Theorem clear_public : forall s t, is_scalar s -> is_scalar t -> run (ed_public s) = run (ed_public t) ->
  forall b, bytes 57 b -> run (AIsSome TEd (AEdDecompress b)) = Ok (Some true) -> run (ed_shared_clear b s) = run (ed_shared_clear b t).
Proof.
  intros s t Hs Ht E b Hb A. pose proof ell_pos' as EP. pose proof fl_pos. apply (received_all b Hb) in A. destruct A as (n & _ & Eb). apply (clear_same b n s t Hb Eb Hs Ht). rewrite !public_ed, some_inj, string_ed_inj, modm_iff in E by (assumption || lia).
  apply Z.mod_divide; [lia|]. apply Z.divide_mul_r. destruct E as [k K]. exists (4 * k - (sval s - sval t)). lia.
Qed.
Theorem public_refuted : exists s t b, is_scalar s /\ is_scalar t /\ run (ed_public s) = run (ed_public t) /\ bytes 57 b /\ run (AIsSome TEd (AEdDecompress b)) = Ok (Some true) /\ run (ed_shared b s) <> run (ed_shared b t).
Proof.
  destruct leak_ed as (b & Hb & A & K & _). assert (L : ell < 2 ^ 447) by reflexivity. pose proof ell_pos' as EP. pose proof fl_pos.
  destruct (digits_scalar 0 ltac:(lia)) as [H0 V0]. destruct (digits_scalar ell ltac:(lia)) as [Hl Vl]. exists (digits 32 14 0), (digits 32 14 ell), b. split; [exact H0|]. split; [exact Hl|]. split; [|split; [exact Hb|split; [exact A|]]].
  - rewrite !public_ed by assumption. apply (proj2 (some_inj _ _ _)), string_ed_inj. rewrite V0, Vl. apply modm_iff; [lia|]. assert (Q : (4 | ell + 1)) by (exists ((ell + 1) / 4); reflexivity). destruct Q as [q ->]. exists (- q). ring.
  - intro E. apply (K _ _ H0 Hl) in E. rewrite V0, Vl in E. assert (M : ell mod 4 = 3) by reflexivity. rewrite M, Z.mod_0_l in E by lia. lia.
Qed.
End Keys.

Lemma ed_cases : forall B, shipped B ->
  (let e := GSub (GTorque (GTimes GBase (num 3))) (GRound (GReceived (string_ed 5) 5)) in ed_inputs_ok e /\ ed_exponent e = 5 * ell - 17 /\
     api_run B (AEdCompress (ed_calls e)) = Ok (Some (string_ed (ell - 17))) /\ api_run B (AEdTorsionFree (ed_calls e)) = Ok (Some false)) /\
  (string_ed (ell - 17) <> string_ed (5 * ell - 16)) /\
  (is_scalar (num 1) /\ is_scalar (num 2) /\ is_scalar (num 5) /\ sval (num 1) mod 4 = sval (num 5) mod 4 /\ sval (num 1) mod 4 <> sval (num 2) mod 4).
Proof.
  intros B Sh. assert (L : 100 < ell) by (exact (eq_refl Lt)). destruct (num_ok 3 ltac:(lia)) as (_ & H3 & V3 & _). destruct (num_ok 1 ltac:(lia)) as (_ & H1 & V1 & _). destruct (num_ok 2 ltac:(lia)) as (_ & H2 & V2 & _). destruct (num_ok 5 ltac:(lia)) as (_ & H5 & V5 & _).
  split; [|split].
  - intro e. assert (He : ed_inputs_ok e) by exact (conj (conj I H3) (string_ed_received 5)). assert (X : ed_exponent e = 5 * ell - 17) by (unfold e; cbn [ed_exponent]; change (eval 32 (num 3)) with (sval (num 3)); rewrite V3; ring).
    split; [exact He|]. split; [exact X|]. split.
    + rewrite (encoded_ed B Sh e He), X. apply (proj2 (some_inj _ _ _)), string_ed_inj. apply modm_iff; [lia|]. exists 1. ring.
    + rewrite (torsion_ed B Sh e He), X. reflexivity.
  - intro E. apply string_ed_inj in E. apply modm_iff in E; [|lia]. destruct E as [k E]. assert (k = -1) by nia. lia.
  - rewrite V1, V2, V5. split; [exact H1|]. split; [exact H2|]. split; [exact H5|]. split; [reflexivity|]. intro E. apply (f_equal (Z.eqb 1)) in E. discriminate E.
Qed.
