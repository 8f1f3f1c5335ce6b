(** Programs over the API are programs over integers. *)
Require Import ZArith Znumtheory List Bool Lia.
From Verif Require Import Base BaseProofs SpecParams SpecField SpecCurve SpecEncoding SpecCount SpecRfc8032 SpecDecaf SpecExponent SpecApi FieldTheory CurveTheory EdwardsTheory PhiHat
  EdwardsProofs EdwardsRun EdwardsMain AbGroup Order GroupOrder Primes FieldBackend Backends ScalarModel ScalarProofs ScalarMain PointSpec TwistedProofs TwistedMain DecafTheory DecafGroup DecafProofs DecafRun DecafMain DocsMain ApiExpr ApiRun ApiMeaning ExponentMain
  FibreGroup MapTheory MapMain ProtocolMain SpecExponentEd ExponentEd SpecGeneric.
Import ListNotations.
Open Scope Z_scope.
Local Opaque padd pmul SpecCurve.G D pzero ell zmul ed_decode ed_encode T4 digits fadd fsub fmul fopp fdiv finv fpow of_Z fsqrt search decaf_encode decaf_decode even_tw string_of string_ed
  words_of sum_scalars diff_scalars inverse_scalar half_scalar encode_u ladder_u u_of twist untwist.
Local Notation "P ⊕ Q" := (padd tw_a tw_d P Q) (at level 50, left associativity).
Local Notation "n ∘ P" := (zmul tw_a tw_d n P) (at level 40).
Local Notation zed := (zmul ed_a ed_d).

(** ** The twisted curve *)
Lemma g_sig : {g : point | g = D ⊕ order_two}. Proof. exists (D ⊕ order_two). reflexivity. Qed.
Definition g_tw : point := proj1_sig g_sig.
Lemma g_tw_eq : g_tw = D ⊕ order_two. Proof. exact (proj2_sig g_sig). Qed.
Local Opaque g_tw.
Lemma even_two : even_tw order_two. Proof. exact even_N. Qed.
Lemma even_gt : even_tw g_tw. Proof. rewrite g_tw_eq. apply even_padd; [exact even_D|exact even_two]. Qed.
Lemma even_mult : forall k, even_tw (k ∘ g_tw). Proof. intro k. apply (ag_mul_S _ _ _ _ _ _ tw_ab). exact even_gt. Qed.
Lemma two_two : 2 ∘ order_two = pzero. Proof. rewrite zmul_nonneg by lia. rewrite pmul_2. exact NN. Qed.
Lemma two_nz' : order_two <> pzero.
Proof. intro E. pose proof (not_dbl_N pzero even_zero) as K. apply K. rewrite padd_0_l. symmetry. exact E. Qed.
Lemma ell_zD : ell ∘ D = pzero. Proof. rewrite zmul_nonneg by (pose proof ell_pos'; lia). exact ell_D. Qed.
Lemma tw_split : forall k, k ∘ g_tw = k ∘ D ⊕ k ∘ order_two.
Proof. intro k. rewrite g_tw_eq. apply (a_mul_padd _ _ _ _ _ _ tw_ab); [exact even_D|exact even_two]. Qed.
Lemma tw_zero : forall k, k ∘ g_tw = pzero <-> (2 * ell | k).
Proof.
  intro k. pose proof ell_pos' as EP. assert (OD : ell mod 2 = 1) by reflexivity.
  assert (KD : (ell | k) -> k ∘ D = pzero). { intros [q ->]. rewrite Z.mul_comm. apply (a_period _ _ _ _ _ _ tw_ab); [exact even_D|exact ell_zD]. }
  assert (KT : (2 | k) -> k ∘ order_two = pzero). { intros [q ->]. rewrite Z.mul_comm. apply (a_period _ _ _ _ _ _ tw_ab); [exact even_two|exact two_two]. }
  split.
  - intro E. assert (E2 : (2 * k) ∘ g_tw = pzero) by (rewrite Z.mul_comm; rewrite Z.mul_comm, (a_mul_mul _ _ _ _ _ _ tw_ab), E by exact even_gt; apply (a_mul_z _ _ _ _ _ _ tw_ab)).
    assert (L : (ell | k)).
    { rewrite tw_split in E2. assert (X : (2 * k) ∘ order_two = pzero) by (apply (a_period _ _ _ _ _ _ tw_ab); [exact even_two|exact two_two]). rewrite X, (a_0_r _ _ _ _ _ _ tw_ab) in E2.
      pose proof (a_prime_order _ _ _ _ _ _ tw_ab ell _ D prime_ell even_D D_neq_0 ell_zD E2) as Dv. apply prime_mult in Dv; [|exact prime_ell]. destruct Dv as [Dv|Dv]; [|exact Dv]. pose proof ell_big'. apply Z.divide_pos_le in Dv; lia. }
    rewrite tw_split, (KD L), (ag_0 _ _ _ _ _ _ tw_ab) in E. assert (T : (2 | k)).
    { apply (a_prime_order _ _ _ _ _ _ tw_ab 2 k order_two prime_2 even_two two_nz' two_two E). }
    destruct L as [q ->]. assert (Q : (2 | q)) by (apply Z.gauss with ell; [rewrite Z.mul_comm; exact T|reflexivity]). destruct Q as [r ->]. exists r. ring.
  - intros [q ->]. rewrite tw_split, KD, KT, (ag_0 _ _ _ _ _ _ tw_ab); [reflexivity|exists (q * ell); ring|exists (q * 2); ring].
Qed.
Lemma tw_inj : forall m n, m ∘ g_tw = n ∘ g_tw <-> (2 * ell | m - n).
Proof.
  intros m n. rewrite <- tw_zero. unfold Z.sub. rewrite (ag_mul_add _ _ _ _ _ _ tw_ab), (a_mul_opp _ _ _ _ _ _ tw_ab) by exact even_gt. split.
  - intros ->. apply (ag_inv _ _ _ _ _ _ tw_ab). apply even_mult.
  - intro E. apply (a_sub_eq _ _ _ _ _ _ tw_ab); [apply even_mult|apply even_mult|exact E].
Qed.
Lemma D_tw : forall k, k ∘ D = (k * (ell + 1)) ∘ g_tw.
Proof.
  intro k. refine (eq_trans _ (eq_sym (tw_split _))). assert (E1 : (k * (ell + 1)) ∘ D = k ∘ D).
  { replace (k * (ell + 1)) with (ell * k + k) by ring. rewrite (ag_mul_add _ _ _ _ _ _ tw_ab), (a_period _ _ _ _ _ _ tw_ab) by (exact even_D || exact ell_zD). apply (ag_0 _ _ _ _ _ _ tw_ab). }
  assert (Q : (2 | ell + 1)) by (exists ((ell + 1) / 2); reflexivity). destruct Q as [q Q]. assert (E2 : (k * (ell + 1)) ∘ order_two = pzero).
  { rewrite Q. replace (k * (q * 2)) with (2 * (k * q)) by ring. apply (a_period _ _ _ _ _ _ tw_ab); [exact even_two|exact two_two]. }
  rewrite E1, E2, (a_0_r _ _ _ _ _ _ tw_ab). reflexivity.
Qed.
Lemma two_tw : order_two = ell ∘ g_tw.
Proof.
  rewrite tw_split, ell_zD, (ag_0 _ _ _ _ _ _ tw_ab). assert (Q : (2 | ell - 1)) by (exists ((ell - 1) / 2); reflexivity). destruct Q as [q Q]. replace ell with (2 * q + 1) by lia.
  rewrite (ag_mul_add _ _ _ _ _ _ tw_ab), (a_period _ _ _ _ _ _ tw_ab), (ag_0 _ _ _ _ _ _ tw_ab), (ag_mul_1 _ _ _ _ _ _ tw_ab) by (exact even_two || exact two_two). reflexivity.
Qed.
Lemma class_tw : forall m n, same_class (m ∘ g_tw) (n ∘ g_tw) <-> (ell | m - n).
Proof.
  intros m n. unfold same_class. change (padd tw_a tw_d (n ∘ g_tw) (0%F, (- (1))%F)) with (n ∘ g_tw ⊕ order_two). rewrite two_tw, <- (ag_mul_add _ _ _ _ _ _ tw_ab), !tw_inj by exact even_gt. split.
  - intros [[q Hq]|[q Hq]]; [exists (2 * q)|exists (2 * q + 1)]; lia.
  - intros [q Hq]. destruct (Z.Even_or_Odd q) as [[r ->]|[r ->]]; [left|right]; exists r; lia.
Qed.
Lemma tw_all : forall P, even_tw P -> exists k, P = k ∘ g_tw.
Proof.
  intros P H. destruct (class_gen P H) as (k & Hk & [E|E]); rewrite <- zmul_nonneg in E by lia; rewrite D_tw in E; [eexists; exact E|].
  change (padd tw_a tw_d ((k * (ell + 1)) ∘ g_tw) (0%F, (- (1))%F)) with ((k * (ell + 1)) ∘ g_tw ⊕ order_two) in E. rewrite two_tw, <- (ag_mul_add _ _ _ _ _ _ tw_ab) in E by exact even_gt. eexists. exact E.
Qed.
Lemma pneg_0 : pneg pzero = pzero. Proof. symmetry. apply (a_neg_unique _ _ _ _ _ _ tw_ab); [exact even_zero|exact even_zero|apply padd_0_l]. Qed.
Lemma z_phi : forall k P, on_ed P -> phi (zed k P) = k ∘ phi P.
Proof.
  intros k P H. destruct (Z.le_gt_cases 0 k).
  - rewrite !zmul_nonneg by lia. apply phi_mul; [lia|exact H].
  - replace k with (- - k) by ring. rewrite (a_mul_opp _ _ _ _ _ _ ed_ab) by exact H. rewrite (a_mul_opp _ _ _ _ _ _ tw_ab) by (apply phi_even; exact H). rewrite phi_neg. f_equal. rewrite !zmul_nonneg by lia. apply phi_mul; [lia|exact H].
Qed.
Lemma twist_mult : forall k, phi (zed k g_full) = (k * (ell + 1)) ∘ g_tw.
Proof. intro k. rewrite z_phi by exact on_full. unfold g_full. rewrite phi_add by (exact on_G || exact on_T4). rewrite phi_G, phi_T4, (a_0_r _ _ _ _ _ _ tw_ab). apply D_tw. Qed.
Lemma phihat_neg' : forall P, even_tw P -> phihat (pneg P) = pneg (phihat P).
Proof.
  intros P H. apply (a_neg_unique _ _ _ _ _ _ ed_ab); [apply phihat_on; exact H|apply phihat_on; apply even_neg; exact H|]. rewrite <- phihat_add by (exact H || apply even_neg; exact H).
  rewrite (ag_inv _ _ _ _ _ _ tw_ab) by exact H. exact phihat_zero.
Qed.
Lemma z_phihat : forall k P, even_tw P -> phihat (k ∘ P) = zed k (phihat P).
Proof.
  intros k P H. destruct (Z.le_gt_cases 0 k).
  - rewrite !zmul_nonneg by lia. apply phihat_mul; [lia|exact H].
  - replace k with (- - k) by ring. rewrite (a_mul_opp _ _ _ _ _ _ tw_ab) by exact H. rewrite (a_mul_opp _ _ _ _ _ _ ed_ab) by (apply phihat_on; exact H). rewrite phihat_neg' by (apply (ag_mul_S _ _ _ _ _ _ tw_ab); exact H). f_equal.
    rewrite !zmul_nonneg by lia. apply phihat_mul; [lia|exact H].
Qed.
Lemma untwist_mult : forall k, phihat (k ∘ g_tw) = zed (4 * k) g_full.
Proof.
  intro k. rewrite z_phihat by exact even_gt. assert (E : phihat g_tw = zed 4 g_full).
  { rewrite g_tw_eq, phihat_add by (exact even_D || exact even_two). change (phihat order_two) with (phihat (0%F, (- (1))%F)). rewrite phihat_N, (a_0_r _ _ _ _ _ _ ed_ab). rewrite <- phi_G, phihat_phi by exact on_G.
    rewrite <- zmul_nonneg by lia. rewrite base_multiple, <- (a_mul_mul _ _ _ _ _ _ ed_ab) by exact on_full. apply full_inj. replace (4 * (ell + 1)) with (4 + 1 * (4 * ell)) by ring. apply Z.mod_add. pose proof fl_pos. lia. }
  rewrite E, <- (a_mul_mul _ _ _ _ _ _ ed_ab) by exact on_full. f_equal. ring.
Qed.

(** ** Searching *)
Local Transparent search.
Lemma search_some : forall N f n, search N f = Some n -> 0 <= n < N /\ f n = true.
Proof.
  intros N f n E. unfold search in E. apply find_some in E. destruct E as [I E]. split; [|exact E]. apply in_map_iff in I. destruct I as (i & <- & I). apply in_seq in I. lia.
Qed.
Lemma search_none : forall N f n, search N f = None -> 0 <= n < N -> f n = false.
Proof.
  intros N f n E H. unfold search in E. apply (find_none _ _ E). apply in_map_iff. exists (Z.to_nat n). split; [apply Z2Nat.id; lia|]. apply in_seq. lia.
Qed.
Local Opaque search.

(** ** The relation *)
Definition ed_rel (P : point) (k : Z) : Prop := P = zed k g_full.
Definition tw_rel (P : point) (k : Z) : Prop := P = k ∘ g_tw.
Definition dc_rel (P : point) (k : Z) : Prop := exists j, P = j ∘ g_tw /\ (ell | j - k).
Definition irep (s : sort) : aval s -> ival s -> Prop :=
  match s return aval s -> ival s -> Prop with
  | TData d => fun a b => a = b
  | TEd | TEdAffine => ed_rel
  | TEdList => Forall2 ed_rel
  | TTw | TXt | TPn => tw_rel
  | TPm => fun a b => a = b
  | TDc | TRs => dc_rel
  end.
Definition orep {A C} (R : A -> C -> Prop) (x : option A) (y : option C) : Prop :=
  match x, y with Some a, Some c => R a c | None, None => True | _, _ => False end.
Lemma ob_rel : forall A C A' C' (R : A -> C -> Prop) (T : A' -> C' -> Prop) x y f g, orep R x y -> (forall a c, R a c -> orep T (f a) (g c)) -> orep T (ob x f) (ob y g).
Proof. intros A C A' C' R T [a|] [c|] f g H K; cbn [orep ob] in *; [exact (K a c H)|contradiction|contradiction|exact I]. Qed.

Lemma ed_rel_add : forall P Q m n, ed_rel P m -> ed_rel Q n -> ed_rel (padd ed_a ed_d P Q) (m + n).
Proof. unfold ed_rel. intros P Q m n -> ->. symmetry. apply (ag_mul_add _ _ _ _ _ _ ed_ab). exact on_full. Qed.
Lemma ed_rel_neg : forall P m, ed_rel P m -> ed_rel (pneg P) (- m).
Proof. unfold ed_rel. intros P m ->. symmetry. apply (a_mul_opp _ _ _ _ _ _ ed_ab). exact on_full. Qed.
Lemma ed_rel_mul : forall P m v, 0 <= v -> ed_rel P m -> ed_rel (pmul ed_a ed_d v P) (m * v).
Proof. unfold ed_rel. intros P m v Hv ->. rewrite <- zmul_nonneg by exact Hv. rewrite <- (a_mul_mul _ _ _ _ _ _ ed_ab) by exact on_full. f_equal. ring. Qed.
Lemma ed_rel_zero : ed_rel pzero 0. Proof. unfold ed_rel. symmetry. apply (ag_mul_0 _ _ _ _ _ _ ed_ab). Qed.
Lemma tw_rel_add : forall P Q m n, tw_rel P m -> tw_rel Q n -> tw_rel (P ⊕ Q) (m + n).
Proof. unfold tw_rel. intros P Q m n -> ->. symmetry. apply (ag_mul_add _ _ _ _ _ _ tw_ab). exact even_gt. Qed.
Lemma tw_rel_neg : forall P m, tw_rel P m -> tw_rel (pneg P) (- m).
Proof. unfold tw_rel. intros P m ->. symmetry. apply (a_mul_opp _ _ _ _ _ _ tw_ab). exact even_gt. Qed.
Lemma tw_rel_zero : tw_rel pzero 0. Proof. unfold tw_rel. symmetry. apply (ag_mul_0 _ _ _ _ _ _ tw_ab). Qed.
Lemma dc_rel_add : forall P Q m n, dc_rel P m -> dc_rel Q n -> dc_rel (P ⊕ Q) (m + n).
Proof.
  intros P Q m n (j & EP & Dj) (k & EQ & Dk). exists (j + k). split; [exact (tw_rel_add _ _ _ _ EP EQ)|]. replace (j + k - (m + n)) with ((j - m) + (k - n)) by ring. apply Z.divide_add_r; assumption.
Qed.
Lemma dc_rel_neg : forall P m, dc_rel P m -> dc_rel (pneg P) (- m).
Proof. intros P m (j & EP & Dj). exists (- j). split; [exact (tw_rel_neg _ _ EP)|]. replace (- j - - m) with (- (j - m)) by ring. apply Z.divide_opp_r. exact Dj. Qed.
Lemma dc_rel_mul : forall P m v, 0 <= v -> dc_rel P m -> dc_rel (pmul tw_a tw_d v P) (m * v).
Proof.
  intros P m v Hv (j & -> & Dj). exists (v * j). split.
  - rewrite <- zmul_nonneg by exact Hv. rewrite <- (a_mul_mul _ _ _ _ _ _ tw_ab) by exact even_gt. reflexivity.
  - replace (v * j - m * v) with (v * (j - m)) by ring. apply Z.divide_mul_r. exact Dj.
Qed.
Lemma dc_rel_zero : dc_rel pzero 0. Proof. exists 0. split; [exact tw_rel_zero|]. exists 0. reflexivity. Qed.
Lemma dc_rel_D : forall k, dc_rel (k ∘ D) k. Proof. intro k. exists (k * (ell + 1)). split; [apply D_tw|]. exists k. ring. Qed.
Lemma D_one : D = 1 ∘ D. Proof. symmetry. apply (ag_mul_1 _ _ _ _ _ _ tw_ab). Qed.
Lemma dc_even : forall P m, dc_rel P m -> even_tw P. Proof. intros P m (j & -> & _). apply even_mult. Qed.
Lemma dc_class : forall P Q m n, dc_rel P m -> dc_rel Q n -> (same_class P Q <-> (ell | m - n)).
Proof.
  intros P Q m n (j & -> & [a Ha]) (k & -> & [b Hb]). rewrite class_tw. split; intros [q Hq]; [exists (q - a + b)|exists (q + a - b)]; lia.
Qed.
Lemma dc_of_class : forall P Q n, even_tw P -> same_class P Q -> dc_rel Q n -> dc_rel P n.
Proof.
  intros P Q n HP C (k & -> & [b Hb]). destruct (tw_all P HP) as (j & ->). exists j. split; [reflexivity|]. apply class_tw in C. destruct C as [q Hq]. exists (q + b). lia.
Qed.
Lemma dc_string : forall n, dc_rel (pmul tw_a tw_d (n mod ell) D) n.
Proof.
  intro n. rewrite <- zmul_nonneg by (apply Z.mod_pos_bound; exact ell_pos'). destruct (dc_rel_D (n mod ell)) as (j & E & [a Ha]). exists j. split; [exact E|].
  exists (a - n / ell). pose proof (Z.div_mod n ell ltac:(pose proof ell_pos'; lia)). nia.
Qed.
Local Transparent string_of string_ed.
Lemma dc_encode : forall P n, dc_rel P n -> decaf_encode P = string_of n.
Proof.
  intros P n H. unfold string_of. apply encode_class; [exact (dc_even _ _ H)|exact (dc_even _ _ (dc_string n))|]. apply (dc_class _ _ _ _ H (dc_string n)). rewrite Z.sub_diag. apply Z.divide_0_r.
Qed.
Lemma ed_encode_rel : forall P n, ed_rel P n -> ed_encode P = string_ed n.
Proof. intros P n ->. unfold string_ed. rewrite multiple_z. reflexivity. Qed.
Local Opaque string_of string_ed.
Lemma eqb_of : forall (b : bool) N m n, 0 < N -> (b = true <-> (N | m - n)) -> b = (m mod N =? n mod N).
Proof. intros b N m n HN H. apply bool_iff. rewrite H, Z.eqb_eq, (modm_iff N m n HN). reflexivity. Qed.
Lemma ed_rel_eq : forall P Q m n, ed_rel P m -> ed_rel Q n -> peq P Q = (m mod (4 * ell) =? n mod (4 * ell)).
Proof. unfold ed_rel. intros P Q m n -> ->. apply bool_iff. rewrite peq_peqb, peqb_eq, Z.eqb_eq. apply full_inj. Qed.
Lemma tw_rel_eq : forall P Q m n, tw_rel P m -> tw_rel Q n -> peq P Q = (m mod (2 * ell) =? n mod (2 * ell)).
Proof. unfold tw_rel. intros P Q m n -> ->. apply eqb_of; [pose proof ell_pos'; lia|]. rewrite peq_peqb, peqb_eq. apply tw_inj. Qed.
Lemma dc_rel_eq : forall P Q m n, dc_rel P m -> dc_rel Q n -> class_eq P Q = (m mod ell =? n mod ell).
Proof.
  intros P Q m n HP HQ. apply eqb_of; [exact ell_pos'|]. rewrite <- (class_ceqb P Q (dc_even _ _ HP) (dc_even _ _ HQ)). rewrite (ceqb_class P Q (dc_even _ _ HP) (dc_even _ _ HQ)). exact (dc_class _ _ _ _ HP HQ).
Qed.
Lemma log_ed_ok : forall b, orep ed_rel (ed_decode b) (log_ed b).
Proof.
  intro b. unfold log_ed. destruct (ed_decode b) as [P|] eqn:E.
  - destruct (search _ _) as [n|] eqn:Es; cbn [orep].
    + apply search_some in Es. destruct Es as [_ Es]. rewrite peq_peqb, peqb_eq, multiple_z in Es. exact Es.
    + destruct (full_all P (decoded_on b P E)) as (n & Hn & En). pose proof (search_none _ _ n Es Hn) as K. cbv beta in K. rewrite peq_peqb in K. assert (T : peqb P (multiple n) = true) by (apply peqb_eq; rewrite multiple_z; exact En). rewrite T in K. discriminate K.
  - destruct (search _ _) as [n|] eqn:Es; cbn [orep]; [|exact I]. apply search_some in Es. destruct Es as [_ Es]. discriminate Es.
Qed.
Lemma log_dc_ok : forall b, bytes 56 b -> orep dc_rel (decaf_decode b) (log_dc b).
Proof.
  intros b Hb. unfold log_dc. destruct (search _ _) as [n|] eqn:Es.
  - apply search_some in Es. destruct Es as [_ Es]. destruct (list_eq_dec Z.eq_dec (string_of n) b) as [Eb|]; [|discriminate Es]. destruct (invariant (EReceived n) I) as (P & E & V & C).
    cbn [calls meaning exponent] in E, C. rewrite Eb in E. rewrite E. cbn [orep]. exact (dc_of_class _ _ _ V C (dc_string n)).
  - destruct (decaf_decode b) as [P|] eqn:E; cbn [orep]; [|exact I]. destruct (proj1 (string_all b Hb)) as (n & Hn & En).
    + destruct (ok_dec b) as [OK|NO]; [exact OK|]. rewrite (proj2 (ok_decode b) NO) in E. discriminate E.
    + pose proof (search_none _ _ n Es Hn) as K. cbv beta in K. destruct (list_eq_dec Z.eq_dec (string_of n) b) as [_|N]; [discriminate K|]. apply N. symmetry. exact En.
Qed.
Lemma sum_rel : forall ps ms, Forall2 ed_rel ps ms -> forall P m, ed_rel P m -> ed_rel (fold_left (padd ed_a ed_d) ps P) (fold_left Z.add ms m).
Proof. induction 1 as [|Q n ps ms HQ _ IH]; intros P m HP; cbn [fold_left]; [exact HP|]. apply IH. apply ed_rel_add; assumption. Qed.
Lemma ed_rel_sub : forall P Q m n, ed_rel P m -> ed_rel Q n -> ed_rel (padd ed_a ed_d P (pneg Q)) (m - n).
Proof. intros P Q m n HP HQ. exact (ed_rel_add _ _ _ _ HP (ed_rel_neg _ _ HQ)). Qed.
Lemma tw_rel_sub : forall P Q m n, tw_rel P m -> tw_rel Q n -> tw_rel (P ⊕ (pneg Q)) (m - n).
Proof. intros P Q m n HP HQ. exact (tw_rel_add _ _ _ _ HP (tw_rel_neg _ _ HQ)). Qed.
Lemma dc_rel_sub : forall P Q m n, dc_rel P m -> dc_rel Q n -> dc_rel (P ⊕ (pneg Q)) (m - n).
Proof. intros P Q m n HP HQ. exact (dc_rel_add _ _ _ _ HP (dc_rel_neg _ _ HQ)). Qed.
Lemma ed_rel_dbl : forall P m, ed_rel P m -> ed_rel (padd ed_a ed_d P P) (2 * m).
Proof. intros P m HP. replace (2 * m) with (m + m) by ring. exact (ed_rel_add _ _ _ _ HP HP). Qed.
Lemma tw_rel_dbl : forall P m, tw_rel P m -> tw_rel (P ⊕ P) (2 * m).
Proof. intros P m HP. replace (2 * m) with (m + m) by ring. exact (tw_rel_add _ _ _ _ HP HP). Qed.
Lemma tfree_rel : forall P m, ed_rel P m -> peq (pmul ed_a ed_d ell P) pzero = (m mod 4 =? 0).
Proof.
  intros P m HP. pose proof ell_pos' as EP. pose proof (ed_rel_mul P m ell ltac:(lia) HP) as H. unfold ed_rel in H. rewrite H. apply bool_iff. rewrite peq_peqb, peqb_eq, zero_multiple, (Z.mul_comm m ell), quarter, Z.eqb_eq.
  rewrite (Z.mod_divide m 4) by lia. reflexivity.
Qed.
Lemma twist_rel : forall P m, ed_rel P m -> tw_rel (twist P) (m * (ell + 1)).
Proof. intros P m ->. exact (twist_mult m). Qed.
Lemma untwist_rel : forall P m, tw_rel P m -> ed_rel (untwist P) (4 * m).
Proof. intros P m ->. exact (untwist_mult m). Qed.
Lemma mont_rel : forall P m, ed_rel P m -> encode_u (u_of P) = encode_u (u_of (multiple m)).
Proof. intros P m ->. rewrite multiple_z. reflexivity. Qed.
Lemma value_pos : forall s, is_scalar s -> 0 <= value s.
Proof. intros s H. change (value s) with (sval s). pose proof (scalar_range s H). lia. Qed.
Lemma value_mod : forall s, 0 <= value s mod 4. Proof. intro s. apply Z.mod_pos_bound. lia. Qed.
Local Opaque value.

Ltac g1 IHe Hok P m HP := cbn [meaning integers api_ok]; intro Hok; eapply ob_rel; [apply IHe; first [exact Hok|exact (proj1 Hok)]|]; intros P m HP; cbn [orep irep] in HP |- *.
Ltac g2 IHx IHy Hok P m HP Q n HQ := cbn [meaning integers api_ok]; intro Hok; eapply ob_rel; [apply IHx; exact (proj1 Hok)|]; intros P m HP; eapply ob_rel; [apply IHy; exact (proj2 Hok)|]; intros Q n HQ; cbn [orep irep] in HP, HQ |- *.

Theorem integers_ok : forall s (e : api s), api_ok e -> orep (irep s) (meaning e) (integers e).
Proof.
  induction e.
  - intros _. cbn [meaning integers orep irep]. reflexivity.
  - (* bind *) intros [Ox Ok_]. cbn [meaning integers]. pose proof (IHe Ox) as R. destruct (meaning e) as [a|] eqn:E, (integers e) as [c|]; cbn [orep irep ob] in R |- *; try contradiction; [|exact I].
    subst c. apply H. apply Ok_. apply (proj2 (api_data u32_backend shipped_u32 _ _ Ox) a). rewrite (api_means _ _ Ox). exact E.
  - intro Ox. cbn [meaning integers orep irep]. pose proof (IHe Ox) as R. destruct (meaning e), (integers e); cbn [orep] in R; try contradiction; reflexivity.
  - intros _. cbn [meaning integers orep irep]. reflexivity.
  - intros _. cbn [meaning integers orep irep]. reflexivity.
  - intros _. cbn [meaning integers orep irep]. reflexivity.
  - intros _. cbn [meaning integers orep irep]. reflexivity.
  - intros _. cbn [meaning integers orep irep]. reflexivity.
  - intros _. cbn [meaning integers]. destruct (le_val b <? ell); cbn [orep irep]; [reflexivity|exact I].
  - intros _. cbn [meaning integers orep irep]. reflexivity.
  - intros _. exact ed_rel_zero.
  - intros _. exact base_multiple.
  - intros _. exact (log_ed_ok b).
  - g2 IHe1 IHe2 Hok P m HP Q n HQ. exact (ed_rel_add _ _ _ _ HP HQ).
  - g2 IHe1 IHe2 Hok P m HP Q n HQ. exact (ed_rel_sub _ _ _ _ HP HQ).
  - g1 IHe Hok P m HP. exact (ed_rel_neg _ _ HP).
  - g1 IHe Hok P m HP. exact (ed_rel_dbl _ _ HP).
  - g1 IHe Hok P m HP. exact (ed_rel_add _ _ _ _ HP two_multiple).
  - g1 IHe Hok P m HP. exact (ed_rel_mul _ _ _ (value_pos _ (proj2 Hok)) HP).
  - g1 IHe Hok P m HP. exact (ed_rel_mul _ _ _ (value_mod _) HP).
  - g2 IHe1 IHe2 Hok P m HP Q n HQ. destruct c; assumption.
  - intros _. exact (Forall2_nil _).
  - g2 IHe1 IHe2 Hok P m HP Q n HQ. exact (Forall2_cons _ _ HP HQ).
  - g1 IHe Hok P m HP. exact (sum_rel _ _ HP _ _ ed_rel_zero).
  - g1 IHe Hok P m HP. exact (untwist_rel _ _ HP).
  - g1 IHe Hok P m HP. exact HP.
  - intros _. exact ed_rel_zero.
  - g1 IHe Hok P m HP. exact HP.
  - g1 IHe Hok P m HP. exact (ed_encode_rel _ _ HP).
  - g2 IHe1 IHe2 Hok P m HP Q n HQ. exact (ed_rel_eq _ _ _ _ HP HQ).
  - g1 IHe Hok P m HP. exact (tfree_rel _ _ HP).
  - g1 IHe Hok P m HP. exact (mont_rel _ _ HP).
  - intros _. exact tw_rel_zero.
  - intros _. cbn [meaning integers orep irep]. unfold tw_rel. transitivity (1 ∘ D); [exact D_one|]. rewrite (D_tw 1). f_equal.
  - g1 IHe Hok P m HP. exact (twist_rel _ _ HP).
  - g1 IHe Hok P m HP. exact (tw_rel_neg _ _ HP).
  - g1 IHe Hok P m HP. exact (tw_rel_add _ _ _ _ HP two_tw).
  - g2 IHe1 IHe2 Hok P m HP Q n HQ. destruct c; assumption.
  - g1 IHe Hok P m HP. exact HP.
  - g1 IHe Hok P m HP. exact HP.
  - g2 IHe1 IHe2 Hok P m HP Q n HQ. exact (tw_rel_eq _ _ _ _ HP HQ).
  - intros _. exact tw_rel_zero.
  - g1 IHe Hok P m HP. exact HP.
  - g1 IHe Hok P m HP. exact (tw_rel_dbl _ _ HP).
  - g2 IHe1 IHe2 Hok P m HP Q n HQ. exact (tw_rel_add _ _ _ _ HP HQ).
  - g2 IHe1 IHe2 Hok P m HP Q n HQ. exact (tw_rel_add _ _ _ _ HP HQ).
  - g2 IHe1 IHe2 Hok P m HP Q n HQ. exact (tw_rel_sub _ _ _ _ HP HQ).
  - g2 IHe1 IHe2 Hok P m HP Q n HQ. exact (tw_rel_add _ _ _ _ HP HQ).
  - g2 IHe1 IHe2 Hok P m HP Q n HQ. exact (tw_rel_eq _ _ _ _ HP HQ).
  - intros _. exact tw_rel_zero.
  - g1 IHe Hok P m HP. exact HP.
  - g2 IHe1 IHe2 Hok P m HP Q n HQ. destruct c; assumption.
  - g1 IHe Hok P m HP. destruct c; [exact (tw_rel_neg _ _ HP)|exact HP].
  - g2 IHe1 IHe2 Hok P m HP Q n HQ. exact (tw_rel_eq _ _ _ _ HP HQ).
  - intros _. cbn [meaning integers orep irep]. reflexivity.
  - intros _. cbn [meaning integers orep irep]. reflexivity.
  - intros _. cbn [meaning integers orep irep]. reflexivity.
  - g2 IHe1 IHe2 Hok P m HP Q n HQ. rewrite HP, HQ. reflexivity.
  - g1 IHe Hok P m HP. rewrite HP. reflexivity.
  - intros _. exact dc_rel_zero.
  - intros _. cbn [meaning integers orep irep]. rewrite D_one. apply dc_rel_D.
  - intro Ob. exact (log_dc_ok b Ob).
  - g2 IHe1 IHe2 Hok P m HP Q n HQ. exact (dc_rel_add _ _ _ _ HP HQ).
  - g2 IHe1 IHe2 Hok P m HP Q n HQ. exact (dc_rel_sub _ _ _ _ HP HQ).
  - g1 IHe Hok P m HP. exact (dc_rel_neg _ _ HP).
  - g1 IHe Hok P m HP. exact (dc_rel_mul _ _ _ (value_pos _ (proj2 Hok)) HP).
  - g1 IHe Hok P m HP. exact (dc_encode _ _ HP).
  - g2 IHe1 IHe2 Hok P m HP Q n HQ. exact (dc_rel_eq _ _ _ _ HP HQ).
  - intros _. exact dc_rel_zero.
  - g2 IHe1 IHe2 Hok P m HP Q n HQ. exact (dc_rel_eq _ _ _ _ HP HQ).
Qed.

Theorem program_run : forall B, shipped B -> forall d (e : api (TData d)), api_ok e -> api_run B e = Ok (integers e).
Proof.
  intros B S d e H. rewrite (data_meaning B S d e H). f_equal. pose proof (integers_ok _ e H) as R. destruct (meaning e) as [a|], (integers e) as [c|]; cbn [orep irep] in R; try contradiction; [f_equal; exact R|reflexivity].
Qed.

(** ** Programs that return points *)
Lemma tw_multiple_z : forall n, tw_multiple n = n ∘ g_tw.
Proof.
  intro n. assert (HN : 0 < 2 * ell) by (pose proof ell_pos'; lia). unfold tw_multiple. rewrite <- g_tw_eq, <- zmul_nonneg by (apply Z.mod_pos_bound; exact HN). apply tw_inj.
  apply (modm_iff _ _ _ HN). apply Z.mod_mod. lia.
Qed.
Theorem tw_multiple_inj : forall m n, tw_multiple m = tw_multiple n <-> m mod (2 * ell) = n mod (2 * ell).
Proof. intros m n. rewrite !tw_multiple_z, tw_inj. symmetry. apply modm_iff. pose proof ell_pos'. lia. Qed.
Theorem tw_multiple_all : forall P, even_tw P <-> exists n, P = tw_multiple n.
Proof.
  intro P. split.
  - intro H. destruct (tw_all P H) as (k & E). exists k. rewrite tw_multiple_z. exact E.
  - intros (n & ->). rewrite tw_multiple_z. apply even_mult.
Qed.
Theorem point_run_ed : forall B, shipped B -> forall e : api TEd, api_ok e ->
  match integers e with Some n => exists P, api_run B e = Ok (Some P) /\ ed_valid B P /\ ed_affine B P = multiple n | None => api_run B e = Ok None end.
Proof.
  intros B S e H. destruct (value_meaning B S _ e H) as (o & E & R). pose proof (integers_ok _ e H) as K. destruct (meaning e) as [a|], (integers e) as [c|], o as [P|]; cbn [orep irep returns stands_for] in K, R; try contradiction.
  - exists P. split; [exact E|]. rewrite multiple_z. destruct R as [V <-]. split; [exact V|exact K].
  - exact E.
Qed.
Theorem point_run_tw : forall B, shipped B -> forall e : api TTw, api_ok e ->
  match integers e with Some n => exists P, api_run B e = Ok (Some P) /\ tw_valid B P /\ tw_affine B P = tw_multiple n | None => api_run B e = Ok None end.
Proof.
  intros B S e H. destruct (value_meaning B S _ e H) as (o & E & R). pose proof (integers_ok _ e H) as K. destruct (meaning e) as [a|], (integers e) as [c|], o as [P|]; cbn [orep irep returns stands_for] in K, R; try contradiction.
  - exists P. split; [exact E|]. rewrite tw_multiple_z. destruct R as [V <-]. split; [exact V|exact K].
  - exact E.
Qed.
Theorem point_run_dc : forall B, shipped B -> forall e : api TDc, api_ok e ->
  match integers e with Some n => exists P, api_run B e = Ok (Some P) /\ tw_valid B P /\ decaf_encode (tw_affine B P) = string_of n | None => api_run B e = Ok None end.
Proof.
  intros B S e H. destruct (value_meaning B S _ e H) as (o & E & R). pose proof (integers_ok _ e H) as K. destruct (meaning e) as [a|], (integers e) as [c|], o as [P|]; cbn [orep irep returns stands_for] in K, R; try contradiction.
  - exists P. split; [exact E|]. destruct R as [V C]. split; [exact V|]. rewrite <- (dc_encode _ _ K). apply encode_class; [exact (tw_valid_even B P V)|exact (dc_even _ _ K)|exact C].
  - exact E.
Qed.
Theorem log_ed_iff : forall b n, log_ed b = Some n <-> 0 <= n < 4 * ell /\ ed_decode b = Some (multiple n).
Proof.
  intros b n. pose proof (log_ed_ok b) as K. split.
  - intro E. rewrite E in K. split; [exact (proj1 (search_some _ _ _ E))|]. destruct (ed_decode b) as [P|]; cbn [orep] in K; [|contradiction]. rewrite multiple_z. unfold ed_rel in K. rewrite K. reflexivity.
  - intros [Hn E]. rewrite E in K. destruct (log_ed b) as [m|] eqn:L; cbn [orep] in K; [|contradiction]. pose proof (proj1 (search_some _ _ _ L)) as Hm. unfold ed_rel in K. rewrite multiple_z in K. apply full_inj in K.
    rewrite !Z.mod_small in K by assumption. rewrite K. reflexivity.
Qed.
Theorem log_dc_iff : forall b n, log_dc b = Some n <-> 0 <= n < ell /\ b = string_of n.
Proof.
  intros b n. split.
  - intro E. apply search_some in E. destruct E as [Hn E]. split; [exact Hn|]. destruct (list_eq_dec Z.eq_dec (string_of n) b) as [X|]; [symmetry; exact X|discriminate E].
  - intros [Hn E]. destruct (log_dc b) as [m|] eqn:L.
    + apply search_some in L. destruct L as [Hm L]. destruct (list_eq_dec Z.eq_dec (string_of m) b) as [X|]; [|discriminate L]. rewrite E in X. apply string_inj in X. rewrite !Z.mod_small in X by assumption. rewrite X. reflexivity.
    + pose proof (search_none _ _ n L Hn) as K. cbv beta in K. destruct (list_eq_dec Z.eq_dec (string_of n) b) as [_|N]; [discriminate K|]. exfalso. apply N. symmetry. exact E.
Qed.

(** ** Cases *)
Lemma log_string : forall n, log_dc (string_of n) = Some (n mod ell).
Proof. intro n. apply log_dc_iff. split; [apply Z.mod_pos_bound; exact ell_pos'|]. apply string_inj. symmetry. apply Z.mod_mod. pose proof ell_pos'. lia. Qed.
Lemma branching_ok : api_ok branching.
Proof. cbn [branching api_ok]. split; [repeat split|]. intros c _. destruct c; cbn [api_ok]; repeat split. Qed.
Lemma branching_integers : integers branching = Some true.
Proof.
  pose proof ell_pos' as EP. unfold branching. cbn [integers ob]. replace (2 * (ell + 1)) with (ell + 1 + (ell + 1)) by ring. rewrite Z.eqb_refl. cbn [integers ob]. apply f_equal. apply Z.eqb_eq. apply modm_iff; [lia|].
  exists (3 * (ell + 1)). ring.
Qed.
Lemma received_ok : forall n, api_ok (branching_received (string_of n)).
Proof.
  intro n. pose proof (string_bytes n) as Hb. unfold branching_received. cbn [api_ok]. split; [split; [exact Hb|exact I]|]. intros c _. destruct c; cbn [api_ok]; [split; [exact Hb|split; exact I]|exact Hb].
Qed.
Lemma received_integers : forall n, integers (branching_received (string_of n)) = Some (string_of (if n mod ell =? 1 then 3 else - n)).
Proof.
  intro n. pose proof ell_pos' as EP. assert (L : 100 < ell) by (exact (eq_refl Lt)). unfold branching_received. cbn [integers]. rewrite log_string. cbn [ob]. rewrite Z.mod_mod, (Z.mod_small 1 ell) by lia.
  destruct (n mod ell =? 1) eqn:E; cbn [integers]; rewrite log_string; cbn [ob]; apply f_equal.
  - apply Z.eqb_eq in E. rewrite E. reflexivity.
  - apply string_inj. destruct (mod_k n) as (j & ->). apply (modeq _ _ (- j)). ring.
Qed.
Theorem generic_cases : forall B, shipped B -> (api_ok branching /\ api_run B branching = Ok (Some true)) /\
  (forall n, api_ok (branching_received (string_of n)) /\
     api_run B (branching_received (string_of n)) = Ok (Some (string_of (if n mod ell =? 1 then 3 else - n)))) /\
  string_of 3 <> string_of (- (2)).
Proof.
  intros B S. split; [|split].
  - split; [exact branching_ok|]. rewrite (program_run B S _ _ branching_ok), branching_integers. reflexivity.
  - intro n. split; [exact (received_ok n)|]. rewrite (program_run B S _ _ (received_ok n)), received_integers. reflexivity.
  - intro E. apply string_inj in E. assert (L : 100 < ell) by (exact (eq_refl Lt)). apply modm_iff in E; [|lia]. apply Z.divide_pos_le in E; lia.
Qed.
