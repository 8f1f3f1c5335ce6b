(** The Edwards point properties in the form used by PropsEdwards.v. *)
Require Import ZArith Znumtheory List Bool Lia Ring Field Permutation.
From Verif Require Import Base BaseProofs SpecParams SpecField SpecCurve SpecEncoding FieldTheory FieldBackend FieldModel Backends BackendLaws
  FieldMain Wp ScalarModel ScalarProofs ScalarProofs2 ScalarMain Primes EdwardsTheory CurveTheory TwistedModel ScalarMulModel EdwardsModel PointSpec
  EdSigns TwistedProofs ScalarMulProofs EdwardsProofs EdwardsExpr EdwardsRun Order GroupOrder PhiHat.
Import ListNotations.
Open Scope F_scope.
Open Scope res_scope.
Local Opaque fadd fsub fmul fopp fdiv finv fpow of_Z padd pmul G pzero ed_decode T4 ell D.
Local Notation "P ⊕ Q" := (padd ed_a ed_d P Q) (at level 50, left associativity).
Local Notation "n • P" := (pmul ed_a ed_d n P) (at level 40).

Lemma okp_eq : forall A (x : res A) v, okp x (fun b => b = v) -> x = Ok v.
Proof. intros A x v (b & -> & ->). reflexivity. Qed.
Lemma ok_inj : forall A (x y : A), Ok x = Ok y -> x = y. Proof. intros A x y E. injection E as E. exact E. Qed.
Lemma ok_some_inj : forall A (x y : A), Ok (Some x) = Ok (Some y) -> x = y. Proof. intros A x y E. injection E as E. exact E. Qed.
Lemma some_inj : forall A (x y : A), Some x = Some y -> x = y. Proof. intros A x y E. injection E as E. exact E. Qed.
Lemma peqb_refl : forall Q, peqb Q Q = true. Proof. intro Q. apply peqb_eq. reflexivity. Qed.
Lemma on_padd : forall P Q, on_ed P -> on_ed Q -> on_ed (P ⊕ Q). Proof. exact (eg_add _ _ _ ed_group). Qed.
Lemma on_pmul : forall n P, on_ed P -> on_ed (n • P). Proof. intros n P H. exact (pmul_S _ _ _ ed_group n P H). Qed.
Lemma on_pneg : forall P, on_ed P -> on_ed (pneg P). Proof. exact (eg_neg _ _ _ ed_group). Qed.

Section Main.
Variable B : backend.
Hypothesis S : shipped B.
Let L := shipped_laws B S.
Local Notation rep := (ed_rep B).

Lemma rep_of : forall P, ed_valid B P -> rep P (ed_affine B P). Proof. exact (ed_rep_valid B). Qed.
Lemma of_rep : forall P Q, rep P Q -> ed_valid B P /\ ed_affine B P = Q. Proof. intros P Q H. apply ed_rep_iff. exact H. Qed.
Lemma ex_rep : forall x Q, okp x (fun R => rep R Q) -> exists R, x = Ok R /\ ed_valid B R /\ ed_affine B R = Q.
Proof. intros x Q (R & E & H). exists R. split; [exact E|]. apply of_rep. exact H. Qed.
Lemma valid_on : forall P, ed_valid B P -> on_ed (ed_affine B P). Proof. intros P H. exact (ed_rep_on B _ _ (rep_of P H)). Qed.

(** Steps through code on points: each bind leaves the affine value of its result. *)
Ltac estep := first
  [ eapply okp_bind; [eapply (ed_add_ok B L); eassumption|]
  | eapply okp_bind; [eapply (ed_sub_ok B L); eassumption|]
  | eapply okp_bind; [eapply (ed_negate_ok B L); eassumption|]
  | eapply okp_bind; [eapply (ed_double_ok B L); eassumption|]
  | eapply okp_bind; [eapply (ed_torque_ok B L); eassumption|]
  | eapply okp_bind; [eapply (ed_scalar_mul_ok B L); eassumption|]
  | eapply okp_bind; [eapply (ed_mod_four_ok B L); eassumption|] ];
  let R := fresh "R" in let H := fresh "HR" in intros R H; cbv beta in H.
Ltac eeq := apply okp_eq; repeat estep;
  erewrite (ed_ct_eq_ok B L) by eassumption; apply okp_ret; apply peqb_eq.

(** ** C19 *)
Lemma on_curve_valid : forall P, ed_valid B P -> ed_is_on_curve B P = Ok true.
Proof.
  intros P H. destruct (ed_is_on_curve_ok B L P (proj1 H) (proj1 (proj2 H))) as (b & E & I). rewrite E. f_equal. apply I. exact H.
Qed.
Lemma affine_conv : forall P, ed_valid B P -> exists A, ed_to_affine B P = Ok A /\ (fv B (edAx A), fv B (edAy A)) = ed_affine B P.
Proof.
  intros P H. destruct (ed_to_affine_ok B L P _ (rep_of P H)) as (A & E & [_ Vx] & [_ Vy]). exists A. split; [exact E|].
  rewrite Vx, Vy. destruct (ed_affine B P). reflexivity.
Qed.
Theorem edexp_valid : forall e, edexp_ok e ->
  exists o, edexp_run B e = Ok o /\
    match o with
    | Some P => ed_valid B P /\ ed_is_on_curve B P = Ok true /\ edexp_val e = Some (ed_affine B P) /\
        exists A, ed_to_affine B P = Ok A /\ (fv B (edAx A), fv B (edAy A)) = ed_affine B P
    | None => edexp_val e = None
    end.
Proof.
  intros e He. destruct (edexp_run_ok B L e He) as (o & E & R). exists o. split; [exact E|].
  destruct o as [P|], (edexp_val e) as [Q|]; cbn in R; try contradiction; [|reflexivity].
  destruct (of_rep _ _ R) as [V A]. split; [exact V|]. split; [exact (on_curve_valid P V)|]. split; [rewrite A; reflexivity|].
  exact (affine_conv P V).
Qed.

(** ** C20 *)
Theorem ed_abelian : forall P Q R, ed_valid B P -> ed_valid B Q -> ed_valid B R ->
  (t <- ed_add B P Q ;; l <- ed_add B t R ;; u <- ed_add B Q R ;; r <- ed_add B P u ;; ed_ct_eq B l r) = Ok true /\
  (l <- ed_add B P Q ;; r <- ed_add B Q P ;; ed_ct_eq B l r) = Ok true /\
  (l <- ed_add B P (ed_identity B) ;; ed_ct_eq B l P) = Ok true /\
  (n <- ed_negate B P ;; l <- ed_add B P n ;; ed_ct_eq B l (ed_identity B)) = Ok true.
Proof.
  intros P Q R VP VQ VR. pose proof (valid_on P VP) as OP. pose proof (valid_on Q VQ) as OQ. pose proof (valid_on R VR) as OR.
  apply rep_of in VP, VQ, VR. pose proof (ed_identity_rep B L) as H0. split; [|split; [|split]]; eeq.
  - apply (g_assoc _ _ _ ed_group); assumption.
  - apply padd_comm.
  - apply padd_0_r.
  - apply (g_neg_r _ _ _ ed_group). exact OP.
Qed.

(** ** C21 *)
Theorem ed_eq_iff : forall P Q, ed_valid B P -> ed_valid B Q ->
  exists b, ed_ct_eq B P Q = Ok b /\ (b = true <-> ed_affine B P = ed_affine B Q).
Proof.
  intros P Q VP VQ. exists (peqb (ed_affine B P) (ed_affine B Q)). split; [|apply peqb_eq].
  apply (ed_ct_eq_ok B L); apply rep_of; assumption.
Qed.
Lemma eq_true_iff : forall P Q, ed_valid B P -> ed_valid B Q -> (ed_ct_eq B P Q = Ok true <-> ed_affine B P = ed_affine B Q).
Proof.
  intros P Q VP VQ. destruct (ed_eq_iff P Q VP VQ) as (b & -> & I). split; [intro E; apply I; exact (ok_inj _ _ _ E)|]. intro E. apply I in E. subst b. reflexivity.
Qed.
Theorem ed_eq_equiv :
  (forall P, ed_valid B P -> ed_ct_eq B P P = Ok true) /\
  (forall P Q, ed_valid B P -> ed_valid B Q -> ed_ct_eq B P Q = Ok true -> ed_ct_eq B Q P = Ok true) /\
  (forall P Q R, ed_valid B P -> ed_valid B Q -> ed_valid B R ->
     ed_ct_eq B P Q = Ok true -> ed_ct_eq B Q R = Ok true -> ed_ct_eq B P R = Ok true).
Proof.
  split; [|split].
  - intros P VP. apply eq_true_iff; auto.
  - intros P Q VP VQ. rewrite !eq_true_iff by assumption. intro E. exact (eq_sym E).
  - intros P Q R VP VQ VR. rewrite !eq_true_iff by assumption. intros E1 E2. exact (eq_trans E1 E2).
Qed.
Lemma torsion_free_eq : forall P, ed_valid B P -> ed_is_torsion_free B P = Ok (peqb (ell • ed_affine B P) pzero).
Proof.
  intros P V. apply rep_of in V. apply okp_eq. unfold ed_is_torsion_free.
  assert (Hs : is_scalar BASEPOINT_ORDER) by (split; [reflexivity|repeat constructor; vm_compute; congruence]).
  assert (Vs : sval BASEPOINT_ORDER = ell) by (vm_compute; reflexivity).
  eapply okp_bind; [exact (ed_scalar_mul_ok B L _ _ _ V Hs)|]. intros R HR. cbv beta in HR. rewrite Vs in HR.
  rewrite (ed_ct_eq_ok B L _ _ _ _ HR (ed_identity_rep B L)). apply okp_ret. reflexivity.
Qed.
Theorem ed_eq_congruence : forall P P' Q Q' s, ed_valid B P -> ed_valid B P' -> ed_valid B Q -> ed_valid B Q' -> is_scalar s ->
  ed_ct_eq B P P' = Ok true -> ed_ct_eq B Q Q' = Ok true ->
  (l <- ed_add B P Q ;; r <- ed_add B P' Q' ;; ed_ct_eq B l r) = Ok true /\
  (l <- ed_sub B P Q ;; r <- ed_sub B P' Q' ;; ed_ct_eq B l r) = Ok true /\
  (l <- ed_negate B P ;; r <- ed_negate B P' ;; ed_ct_eq B l r) = Ok true /\
  (l <- ed_double B P ;; r <- ed_double B P' ;; ed_ct_eq B l r) = Ok true /\
  (l <- ed_torque B P ;; r <- ed_torque B P' ;; ed_ct_eq B l r) = Ok true /\
  (l <- ed_scalar_mul B P s ;; r <- ed_scalar_mul B P' s ;; ed_ct_eq B l r) = Ok true /\
  (l <- ed_scalar_mod_four B P s ;; r <- ed_scalar_mod_four B P' s ;; ed_ct_eq B l r) = Ok true /\
  ed_ct_eq B P Q = ed_ct_eq B P' Q' /\
  ed_compress B P = ed_compress B P' /\
  ed_to_montgomery B P = ed_to_montgomery B P' /\
  ed_is_torsion_free B P = ed_is_torsion_free B P' /\
  ed_is_on_curve B P = ed_is_on_curve B P'.
Proof.
  intros P P' Q Q' s VP VP' VQ VQ' Hs EP EQ. apply eq_true_iff in EP, EQ; try assumption.
  pose proof (rep_of P VP) as HP. pose proof (rep_of Q VQ) as HQ. pose proof (rep_of P' VP') as HP'. pose proof (rep_of Q' VQ') as HQ'.
  rewrite <- EP in HP'. rewrite <- EQ in HQ'. repeat split; try (eeq; reflexivity).
  - rewrite (ed_ct_eq_ok B L _ _ _ _ HP HQ), (ed_ct_eq_ok B L _ _ _ _ HP' HQ'). reflexivity.
  - rewrite (ed_compress_ok B L _ _ HP), (ed_compress_ok B L _ _ HP'). reflexivity.
  - rewrite (ed_to_montgomery_ok B L _ _ HP), (ed_to_montgomery_ok B L _ _ HP'). reflexivity.
  - rewrite (torsion_free_eq P VP), (torsion_free_eq P' VP'), EP. reflexivity.
  - rewrite (on_curve_valid P VP), (on_curve_valid P' VP'). reflexivity.
Qed.

(** ** C22 *)
Theorem ed_add_law : forall P Q, ed_valid B P -> ed_valid B Q ->
  exists R, ed_add B P Q = Ok R /\ ed_valid B R /\ ed_affine B R = padd ed_a ed_d (ed_affine B P) (ed_affine B Q).
Proof. intros P Q VP VQ. apply rep_of in VP, VQ. apply ex_rep. apply (ed_add_ok B L); assumption. Qed.
Theorem ed_law_complete : forall x1 y1 x2 y2, on_curve ed_a ed_d (x1, y1) -> on_curve ed_a ed_d (x2, y2) ->
  1 + ed_d * x1 * x2 * y1 * y2 <> 0 /\ 1 - ed_d * x1 * x2 * y1 * y2 <> 0.
Proof. intros x1 y1 x2 y2 H1 H2. exact (eg_den _ _ _ ed_group _ _ H1 H2). Qed.

(** ** C23 *)
Theorem ed_sub_double : forall P Q, ed_valid B P -> ed_valid B Q ->
  (exists R, ed_sub B P Q = Ok R /\ ed_valid B R /\ ed_affine B R = padd ed_a ed_d (ed_affine B P) (pneg (ed_affine B Q))) /\
  (exists R, ed_double B P = Ok R /\ ed_valid B R /\ ed_affine B R = padd ed_a ed_d (ed_affine B P) (ed_affine B P)) /\
  (exists R, ed_negate B P = Ok R /\ ed_valid B R /\ ed_affine B R = pneg (ed_affine B P)) /\
  (l <- ed_sub B P Q ;; n <- ed_negate B Q ;; r <- ed_add B P n ;; ed_ct_eq B l r) = Ok true /\
  (l <- ed_double B P ;; r <- ed_add B P P ;; ed_ct_eq B l r) = Ok true /\
  (l <- ed_sub B P Q ;; r <- ed_add B l Q ;; ed_ct_eq B r P) = Ok true.
Proof.
  intros P Q VP VQ. pose proof (valid_on P VP) as OP. pose proof (valid_on Q VQ) as OQ. apply rep_of in VP, VQ. repeat split.
  - apply ex_rep. apply (ed_sub_ok B L); assumption.
  - apply ex_rep. apply (ed_double_ok B L); assumption.
  - apply ex_rep. apply (ed_negate_ok B L); assumption.
  - eeq. reflexivity.
  - eeq. reflexivity.
  - eeq. rewrite (g_assoc _ _ _ ed_group _ _ _ OP (on_pneg _ OQ) OQ). rewrite (g_neg_l _ _ _ ed_group _ OQ). apply padd_0_r.
Qed.

Lemma reps_of : forall l, Forall (ed_valid B) l -> Forall2 rep l (map (ed_affine B) l).
Proof. induction 1; constructor; [apply rep_of; assumption|assumption]. Qed.
Lemma ons_of : forall l, Forall (ed_valid B) l -> Forall on_ed (map (ed_affine B) l).
Proof. induction 1; constructor; [apply valid_on; assumption|assumption]. Qed.
Definition sum_of (l : list point) : point := fold_right (padd ed_a ed_d) pzero l.
Lemma sum_on : forall l, Forall on_ed l -> on_ed (sum_of l).
Proof. intros l H. exact (proj2 (fold_sum l pzero H (on_curve_zero _ _))). Qed.
Lemma ed_sum_rep : forall l, Forall (ed_valid B) l -> okp (ed_sum B l) (fun R => rep R (sum_of (map (ed_affine B) l))).
Proof. intros l H. unfold sum_of. rewrite <- (sum_right B _ _ (reps_of l H)). apply (ed_sum_ok B L). apply reps_of. exact H. Qed.
Lemma sum_app : forall l l', Forall on_ed l -> Forall on_ed l' -> sum_of (l ++ l') = sum_of l ⊕ sum_of l'.
Proof.
  induction 1 as [|q l Hq Hl IH]; intro H'; cbn [app sum_of fold_right].
  - symmetry. apply padd_0_l.
  - fold (sum_of (l ++ l')) (sum_of l). rewrite IH by exact H'. symmetry. apply (g_assoc _ _ _ ed_group); [exact Hq|apply sum_on; exact Hl|apply sum_on; exact H'].
Qed.
Lemma sum_perm : forall l l', Permutation l l' -> Forall on_ed l -> sum_of l = sum_of l'.
Proof.
  induction 1 as [|q l l' _ IH|q q' l|l l' l'' P1 IH1 P2 IH2]; intro H; cbn [sum_of fold_right].
  - reflexivity.
  - apply Forall_cons_iff in H. fold (sum_of l) (sum_of l'). rewrite IH by apply H. reflexivity.
  - apply Forall_cons_iff in H. destruct H as [H1 H]. apply Forall_cons_iff in H. destruct H as [H2 H]. fold (sum_of l).
    pose proof (sum_on l H). rewrite <- !(g_assoc _ _ _ ed_group) by assumption. rewrite (padd_comm _ _ q q'). reflexivity.
  - rewrite IH1 by exact H. apply IH2. apply (Permutation_Forall P1). exact H.
Qed.
Theorem ed_sums : forall l, Forall (ed_valid B) l ->
  (exists R, ed_sum B l = Ok R /\ ed_valid B R /\ ed_affine B R = fold_right (padd ed_a ed_d) pzero (map (ed_affine B) l)) /\
  (forall l', Permutation l l' -> (x <- ed_sum B l ;; y <- ed_sum B l' ;; ed_ct_eq B x y) = Ok true) /\
  (forall l1 l2, l = l1 ++ l2 -> (x <- ed_sum B l ;; y <- ed_sum B l1 ;; z <- ed_sum B l2 ;; w <- ed_add B y z ;; ed_ct_eq B x w) = Ok true).
Proof.
  intros l H. split; [apply ex_rep; apply ed_sum_rep; exact H|]. split.
  - intros l' Pm. assert (H' : Forall (ed_valid B) l') by (apply (Permutation_Forall Pm); exact H). apply okp_eq.
    eapply okp_bind; [apply ed_sum_rep; exact H|]. intros x Hx. eapply okp_bind; [apply ed_sum_rep; exact H'|]. intros y Hy. cbv beta in *.
    rewrite (ed_ct_eq_ok B L _ _ _ _ Hx Hy). apply okp_ret. apply peqb_eq. apply sum_perm; [apply Permutation_map; exact Pm|apply ons_of; exact H].
  - intros l1 l2 E. rewrite E in H. apply Forall_app in H. destruct H as [H1 H2]. apply okp_eq.
    assert (H : Forall (ed_valid B) l) by (rewrite E; apply Forall_app; auto).
    eapply okp_bind; [apply ed_sum_rep; exact H|]. intros x Hx. eapply okp_bind; [apply ed_sum_rep; exact H1|]. intros y Hy.
    eapply okp_bind; [apply ed_sum_rep; exact H2|]. intros z Hz. cbv beta in *. eapply okp_bind; [exact (ed_add_ok B L _ _ _ _ Hy Hz)|]. intros w Hw. cbv beta in Hw.
    rewrite (ed_ct_eq_ok B L _ _ _ _ Hx Hw). apply okp_ret. apply peqb_eq. rewrite E, map_app. apply sum_app; apply ons_of; assumption.
Qed.

(** ** C24 *)
Theorem ed_torque_law : forall P, ed_valid B P ->
  (exists R, ed_torque B P = Ok R /\ ed_valid B R /\ ed_affine B R = padd ed_a ed_d (ed_affine B P) (0, - (1))) /\
  (t <- ed_torque B P ;; u <- ed_torque B t ;; ed_ct_eq B u P) = Ok true.
Proof.
  intros P V. apply rep_of in V. split; [apply ex_rep; apply (ed_torque_ok B L); exact V|]. eeq.
  destruct (ed_affine B P) as [x y]. rewrite !padd_N. apply pt_eq; ring.
Qed.
Lemma two_torsion_point : on_curve ed_a ed_d (0, - (1)) /\ (0, - (1)) <> pzero /\ (0, - (1)) ⊕ (0, - (1)) = pzero.
Proof.
  split; [unfold on_curve, ed_a; ring|]. split.
  - intro E. apply pt_0_eq in E. destruct E as [_ E]. exact (neg1_not_1 E).
  - rewrite padd_N. apply pt_0_eq. split; ring.
Qed.

(** ** C25 *)
Theorem ed_scalar_mul_law : forall P s, ed_valid B P -> is_scalar s ->
  exists R, ed_scalar_mul B P s = Ok R /\ ed_valid B R /\ ed_affine B R = pmul ed_a ed_d (sval s) (ed_affine B P).
Proof. intros P s V Hs. apply rep_of in V. apply ex_rep. apply (ed_scalar_mul_ok B L); assumption. Qed.

(** ** C31, C32 *)
Theorem ed_torsion_free_iff : forall P, ed_valid B P ->
  exists b, ed_is_torsion_free B P = Ok b /\
    (b = true <-> pmul ed_a ed_d ell (ed_affine B P) = pzero) /\
    (b = true <-> exists k, (0 <= k < ell)%Z /\ ed_affine B P = pmul ed_a ed_d k G).
Proof.
  intros P V. rewrite (torsion_free_eq P V). eexists. split; [reflexivity|]. rewrite peqb_eq. split; [reflexivity|].
  apply subgroup_iff. exact (valid_on P V).
Qed.
Theorem ed_generator_order :
  ed_valid B (ed_generator B) /\ ed_affine B (ed_generator B) = G /\
  (forall n, (0 <= n)%Z -> (pmul ed_a ed_d n (ed_affine B (ed_generator B)) = pzero <-> (ell | n)%Z)).
Proof.
  destruct (of_rep _ _ (ed_generator_rep B L)) as [V A]. split; [exact V|]. split; [exact A|]. rewrite A. exact G_order_iff.
Qed.

(** ** C26 *)
Lemma torsion_free_ell : forall P, ed_valid B P -> ed_is_torsion_free B P = Ok true -> ell • ed_affine B P = pzero.
Proof. intros P V E. rewrite (torsion_free_eq P V) in E. apply ok_inj in E. apply peqb_eq. exact E. Qed.
Lemma mul_mod : forall k Q, (0 <= k)%Z -> on_ed Q -> ell • Q = pzero -> (k mod ell) • Q = k • Q.
Proof. intros k Q Hk HQ E. symmetry. exact (pmul_mod _ _ _ ed_group ell k Q ell_pos' Hk HQ E). Qed.
Theorem ed_scalar_hom : forall P a b, ed_valid B P -> ed_is_torsion_free B P = Ok true -> canonical a -> canonical b ->
  (c <- scalar_add a b ;; l <- ed_scalar_mul B P c ;;
   x <- ed_scalar_mul B P a ;; y <- ed_scalar_mul B P b ;; r <- ed_add B x y ;; ed_ct_eq B l r) = Ok true /\
  (c <- scalar_sub a b ;; l <- ed_scalar_mul B P c ;;
   x <- ed_scalar_mul B P a ;; y <- ed_scalar_mul B P b ;; r <- ed_sub B x y ;; ed_ct_eq B l r) = Ok true /\
  (c <- scalar_mul a b ;; l <- ed_scalar_mul B P c ;;
   x <- ed_scalar_mul B P a ;; r <- ed_scalar_mul B x b ;; ed_ct_eq B l r) = Ok true /\
  (sval a <> 0%Z ->
   (i <- scalar_invert a ;; x <- ed_scalar_mul B P a ;; r <- ed_scalar_mul B x i ;; ed_ct_eq B r P) = Ok true).
Proof.
  intros P a b V TF Ca Cb. pose proof (torsion_free_ell P V TF) as E. pose proof (valid_on P V) as O. apply rep_of in V.
  pose proof ell_pos' as EP.
  destruct (canonical_add a b Ca Cb) as (c1 & E1 & C1 & V1). destruct (canonical_sub a b Ca Cb) as (c2 & E2 & C2 & V2).
  destruct (canonical_mul a b Ca Cb) as (c3 & E3 & C3 & V3).
  destruct Ca as [Sa La], Cb as [Sb Lb], C1 as [S1 _], C2 as [S2 _], C3 as [S3 _].
  pose proof (scalar_range a Sa) as Ra. pose proof (scalar_range b Sb) as Rb.
  set (Q := ed_affine B P) in *.
  split; [|split; [|split]].
  - rewrite E1. cbn [bind]. eeq. rewrite V1, mul_mod by (assumption || lia). apply (pmul_add _ _ _ ed_group); [lia|lia|exact O].
  - rewrite E2. cbn [bind]. eeq. rewrite V2. replace ((sval a - sval b) mod ell)%Z with ((sval a + ell - sval b) mod ell)%Z.
    2:{ replace (sval a + ell - sval b)%Z with (sval a - sval b + 1 * ell)%Z by ring. apply Z.mod_add. lia. }
    rewrite mul_mod by (assumption || lia). rewrite (pmul_sub _ _ _ ed_group (sval a + ell) (sval b) Q) by (assumption || lia).
    rewrite (pmul_add _ _ _ ed_group (sval a) ell Q) by (assumption || lia). rewrite E, padd_0_r. reflexivity.
  - rewrite E3. cbn [bind]. eeq. rewrite V3, mul_mod by (assumption || nia). rewrite Z.mul_comm. apply (pmul_mul _ _ _ ed_group); [lia|lia|exact O].
  - intro N. destruct (scalar_invert_mul a Sa) as (i & Ei & Si & Li & M & _); [rewrite Z.mod_small by lia; exact N|].
    destruct (scalar_mul_ok i a Si Sa) as (m & Em & Sm & Vm). rewrite M in Em. apply ok_inj in Em. rewrite <- Em in *.
    pose proof (scalar_range i Si) as Ri. rewrite Ei. cbn [bind]. eeq.
    rewrite <- (pmul_mul _ _ _ ed_group) by (assumption || lia). rewrite <- mul_mod by (assumption || nia). rewrite <- Vm.
    rewrite (proj2 scalar_one_ok). apply pmul_1.
Qed.

(** ** C27, C28 *)
Lemma encode_bytes : forall Q, bytes 57 (ed_encode Q) /\ firstn 56 (ed_encode Q) = le_bytes 56 (fval (snd Q)) /\
  nth 56 (ed_encode Q) 0%Z = if fodd (fst Q) then 128%Z else 0%Z.
Proof.
  intro Q. unfold ed_encode. pose proof (le_bytes_bytes 56 (fval (snd Q))) as [Len F]. split; [|split].
  - split; [rewrite app_length, Len; reflexivity|]. apply Forall_app. split; [exact F|]. repeat constructor; destruct (fodd (fst Q)); cbn; lia.
  - rewrite firstn_app, Len, Nat.sub_diag, firstn_O, app_nil_r. apply firstn_all2. rewrite Len. apply le_n.
  - rewrite app_nth2, Len by lia. reflexivity.
Qed.
Lemma decode_encode : forall Q, on_ed Q -> ed_decode (ed_encode Q) = Some Q.
Proof.
  intros [x y] O. destruct (encode_bytes (x, y)) as (_ & E1 & E2). apply ed_decode_some. rewrite E1, E2. cbn [fst snd].
  split; [exact O|]. split; [rewrite le_val_canon; symmetry; apply of_Z_fval|]. intros _. destruct (fodd x); reflexivity.
Qed.
Theorem ed_roundtrip : forall P, ed_valid B P ->
  exists b, ed_compress B P = Ok b /\ bytes 57 b /\
    le_val (firstn 56 b) = fval (snd (ed_affine B P)) /\
    nth 56 b 0%Z = (if fodd (fst (ed_affine B P)) then 0x80 else 0x00)%Z /\
    exists R, ed_decompress B b = Ok (Some R) /\ ed_valid B R /\ ed_ct_eq B R P = Ok true.
Proof.
  intros P V. pose proof (valid_on P V) as O. pose proof (rep_of P V) as H. exists (ed_encode (ed_affine B P)).
  destruct (encode_bytes (ed_affine B P)) as (Hb & E1 & E2).
  split; [exact (ed_compress_ok B L _ _ H)|]. split; [exact Hb|]. split; [rewrite E1; apply le_val_canon|]. split; [exact E2|].
  destruct (edexp_run_ok B L (EDecompress (ed_encode (ed_affine B P))) Hb) as (o & E & R). cbn [edexp_run edexp_val] in *.
  rewrite decode_encode in R by exact O. destruct o as [R'|]; [|contradiction]. cbn in R. exists R'. split; [exact E|].
  split; [exact (proj1 (of_rep _ _ R))|]. rewrite (ed_ct_eq_ok B L _ _ _ _ R H), peqb_refl. reflexivity.
Qed.
Lemma encode_inj : forall Q Q', on_ed Q -> on_ed Q' -> ed_encode Q = ed_encode Q' -> Q = Q'.
Proof.
  intros Q Q' O O' E. pose proof (decode_encode Q O) as D1. rewrite E, (decode_encode Q' O') in D1. exact (eq_sym (some_inj _ _ _ D1)).
Qed.
Theorem ed_compress_injective : forall P Q, ed_valid B P -> ed_valid B Q ->
  (ed_compress B P = ed_compress B Q <-> ed_ct_eq B P Q = Ok true).
Proof.
  intros P Q VP VQ. rewrite (eq_true_iff P Q VP VQ).
  rewrite (ed_compress_ok B L _ _ (rep_of P VP)), (ed_compress_ok B L _ _ (rep_of Q VQ)). split.
  - intro E. apply encode_inj; [exact (valid_on P VP)|exact (valid_on Q VQ)|]. exact (ok_inj _ _ _ E).
  - intros ->. reflexivity.
Qed.

(** ** C29, C30 *)
Theorem ed_decompress_exact : forall b, bytes 57 b ->
  let y := of_Z (le_val (firstn 56 b)) in
  (forall P, ed_decompress B b = Ok (Some P) -> ed_valid B P /\ snd (ed_affine B P) = y /\
     (fst (ed_affine B P) <> 0 -> fodd (fst (ed_affine B P)) = (128 <=? nth 56 b 0%Z)%Z)) /\
  ((exists P, ed_decompress B b = Ok (Some P)) <-> exists x, on_curve ed_a ed_d (x, y)) /\
  (ed_decompress B b = Ok None <-> ~ exists x, on_curve ed_a ed_d (x, y)).
Proof.
  intros b Hb y. pose proof (ed_decompress_ok B L b Hb) as K. fold y in K. destruct K as [(P & x & E & HP & HS)|[E N]]; rewrite E.
  - destruct (of_rep _ _ HP) as [V A]. split; [|split].
    + intros P' X. apply ok_some_inj in X. rewrite <- X. split; [exact V|]. rewrite A. auto.
    + split; [intros _; exists x; exact (ed_rep_on B _ _ HP)|]. intros _. exists P. reflexivity.
    + split; [discriminate|]. intro N. exfalso. apply N. exists x. exact (ed_rep_on B _ _ HP).
  - split; [intros P X; discriminate|]. split.
    + split; [intros [P X]; discriminate|]. intros [x H]. exfalso. exact (N x H).
    + split; [|reflexivity]. intros _ [x H]. exact (N x H).
Qed.
Theorem ed_decompress_canonical : forall b P, bytes 57 b -> ed_decompress B b = Ok (Some P) ->
  (ed_compress B P = Ok b <->
   (le_val (firstn 56 b) < p)%Z /\ (nth 56 b 0 = 0x00 \/ nth 56 b 0 = 0x80 /\ fst (ed_affine B P) <> of_Z 0)%Z).
Proof.
  intros b P Hb E. destruct (bytes_last 56 b Hb) as (_ & _ & B56 & R & Eb).
  destruct (ed_decompress_ok B L b Hb) as [(P' & x & E' & HP & HS)|[E' N]]; rewrite E in E'; [|discriminate]. apply ok_some_inj in E'. rewrite <- E' in HP.
  destruct (of_rep _ _ HP) as [V A]. rewrite (ed_compress_ok B L _ _ HP), A. cbn [fst].
  set (y := of_Z (le_val (firstn 56 b))) in *. assert (Vr : (0 <= le_val (firstn 56 b))%Z).
  { unfold le_val. apply (eval_range 8); [lia|exact (proj2 B56)]. }
  assert (Y : le_bytes 56 (fval y) = firstn 56 b <-> (le_val (firstn 56 b) < p)%Z).
  { split.
    - intro X. rewrite <- X, le_val_canon. apply fval_range.
    - intro Lt. unfold y. rewrite fval_of_Z, Z.mod_small by lia. apply bytes_le_bytes. exact B56. }
  assert (X0 : fodd (0 : F) = false) by reflexivity.
  unfold ed_encode. cbn [fst snd]. split.
  - intro X. apply ok_inj in X. rewrite Eb in X. apply app_inj_tail in X. destruct X as [X1 X2]. apply Y in X1. split; [exact X1|].
    rewrite <- X2. destruct (fodd x) eqn:Fx; [right; split; [reflexivity|]|left; reflexivity]. intros ->. congruence.
  - intros [Lt Sg]. apply Y in Lt. apply (f_equal Ok). rewrite Eb. rewrite Lt. apply (f_equal (fun z => firstn 56 b ++ [z])).
    destruct (F_eq_dec x 0) as [Zx|Nx].
    + rewrite Zx, X0. destruct Sg as [Sg|[_ Sg]]; [symmetry; exact Sg|contradiction].
    + rewrite (HS Nx). destruct Sg as [Sg|[Sg _]]; rewrite Sg; reflexivity.
Qed.

(** ** C33, C34, C35, C55 *)
Theorem isogenies : forall P, ed_valid B P ->
  (exists T R, ed_to_twisted B P = Ok T /\ tw_valid B T /\ tw_to_untwisted B T = Ok R /\ ed_valid B R /\
     ed_affine B R = pmul ed_a ed_d 4 (ed_affine B P)).
Proof.
  intros P V. pose proof (valid_on P V) as O. apply rep_of in V. destruct (ed_to_twisted_ok B L _ _ V) as (T & ET & HT).
  destruct (tw_to_untwisted_ok B L _ _ HT) as (R & ER & HR). exists T, R. split; [exact ET|].
  split; [exact (proj1 (proj1 (tw_rep_iff B _ _) HT))|]. split; [exact ER|]. rewrite (phihat_phi _ O) in HR. exact (of_rep _ _ HR).
Qed.
Lemma tw_rep_of : forall P, tw_valid B P -> tw_rep B P (tw_affine B P). Proof. intros P V. apply tw_rep_iff. auto. Qed.
Theorem isogeny_additive : forall P Q T U, ed_valid B P -> ed_valid B Q -> tw_valid B T -> tw_valid B U ->
  (s <- ed_add B P Q ;; l <- ed_to_twisted B s ;; x <- ed_to_twisted B P ;; y <- ed_to_twisted B Q ;; r <- tw_add B x y ;; tw_ct_eq B l r) = Ok true /\
  (s <- tw_add B T U ;; l <- tw_to_untwisted B s ;; x <- tw_to_untwisted B T ;; y <- tw_to_untwisted B U ;; r <- ed_add B x y ;; ed_ct_eq B l r) = Ok true.
Proof.
  intros P Q T U VP VQ VT VU. pose proof (valid_on P VP) as OP. pose proof (valid_on Q VQ) as OQ. apply rep_of in VP, VQ. apply tw_rep_of in VT, VU.
  pose proof (tw_rep_even B _ _ VT) as OT. pose proof (tw_rep_even B _ _ VU) as OU. split; apply okp_eq.
  - estep. eapply okp_bind; [exact (ed_to_twisted_ok B L _ _ HR)|]. intros l Hl. eapply okp_bind; [exact (ed_to_twisted_ok B L _ _ VP)|]. intros x Hx.
    eapply okp_bind; [exact (ed_to_twisted_ok B L _ _ VQ)|]. intros y Hy. cbv beta in *.
    eapply okp_bind; [exact (tw_add_ok B L _ _ _ _ Hx Hy)|]. intros r Hr. cbv beta in *.
    rewrite (tw_ct_eq_ok B L _ _ _ _ Hl Hr). apply okp_ret. apply peqb_eq. apply phi_add; assumption.
  - eapply okp_bind; [exact (tw_add_ok B L _ _ _ _ VT VU)|]. intros s Hs. cbv beta in *.
    eapply okp_bind; [exact (tw_to_untwisted_ok B L _ _ Hs)|]. intros l Hl. eapply okp_bind; [exact (tw_to_untwisted_ok B L _ _ VT)|]. intros x Hx.
    eapply okp_bind; [exact (tw_to_untwisted_ok B L _ _ VU)|]. intros y Hy. cbv beta in *. estep.
    rewrite (ed_ct_eq_ok B L _ _ _ _ Hl HR). apply okp_ret. apply peqb_eq. apply phihat_add; assumption.
Qed.
End Main.
