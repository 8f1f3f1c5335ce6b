(** The concrete cases beside the theorems of PropsEdwards.v. *)
Require Import ZArith Znumtheory List Bool Lia Ring Field Permutation.
From Verif Require Import Base BaseProofs SpecParams SpecField SpecCurve SpecEncoding FieldTheory FieldBackend FieldModel FieldU32Model Backends BackendLaws
  FieldProofs FieldMain Wp ScalarModel ScalarProofs ScalarProofs2 ScalarMain Primes EdwardsTheory CurveTheory TwistedModel ScalarMulModel EdwardsModel PointSpec
  TwistedProofs ScalarMulProofs EdwardsProofs EdwardsExpr EdwardsRun Order GroupOrder PhiHat EdwardsMain TwistedMain EdwardsCases.
Import ListNotations.
Open Scope F_scope.
Open Scope res_scope.
Local Opaque fadd fsub fmul fopp fdiv finv fpow of_Z padd pmul G pzero ed_decode T4 ell D Gx Gy Dx Dy.

Lemma ell_big : (8 < ell < 2 ^ 446)%Z. Proof. split; reflexivity. Qed.
Lemma sc : forall v, (0 <= v < 2 ^ 448)%Z -> is_scalar (digits 32 14 v). Proof. intros v H. exact (proj1 (digits_scalar v H)). Qed.
Lemma scv : forall v, (0 <= v < 2 ^ 448)%Z -> sval (digits 32 14 v) = v. Proof. intros v H. exact (proj2 (digits_scalar v H)). Qed.
Ltac ran := pose proof ell_big; lia.

Lemma reach_case :
  let e := EAdd (EMul (EDecompress (ed_encode G)) (digits 32 14 (ell - 1))) (ESum [ETorque EGenerator; EGenerator; ENeg EIdentity]) in
  edexp_ok e /\ edexp_val e = Some (padd ed_a ed_d (pmul ed_a ed_d (ell - 1) G)
    (padd ed_a ed_d (padd ed_a ed_d G (0, - (1))) (padd ed_a ed_d G (padd ed_a ed_d (pneg pzero) pzero)))).
Proof.
  cbv zeta. split.
  - cbn [edexp_ok]. split; [split; [exact (proj1 (encode_bytes G))|apply sc; ran]|auto].
  - cbn [edexp_val]. rewrite (decode_encode G on_G). cbn [omap omap2]. rewrite scv by ran. reflexivity.
Qed.

Section Facts.
Variable B : backend.
Hypothesis S : shipped B.
Let L := shipped_laws B S.
Local Notation ggen := (gen_rep B S).
Local Notation gt4 := (t4_rep B S).
Local Notation gid := (id_rep B S).

Lemma three_points :
  ed_valid B (ed_generator B) /\ ed_valid B (ed_identity B) /\ ed_valid B (t4_point B) /\
  ed_affine B (ed_generator B) = G /\ ed_affine B (ed_identity B) = pzero /\ ed_affine B (t4_point B) = (1, 0) /\
  ed_ct_eq B (ed_generator B) (ed_identity B) = Ok false /\ ed_ct_eq B (t4_point B) (ed_generator B) = Ok false.
Proof.
  destruct (gen_valid B S) as [V1 A1], (id_valid B S) as [V2 A2], (t4_valid B S) as [V3 A3].
  repeat (split; [assumption|]). split; [exact (gen_not_id B S)|exact (t4_not_gen B S)].
Qed.
Lemma ex_affine : forall x Q, okp x (fun R => ed_rep B R Q) -> exists R, x = Ok R /\ ed_affine B R = Q.
Proof. intros x Q (R & E & H). exists R. split; [exact E|]. exact (proj2 (of_rep B _ _ H)). Qed.
Lemma tw_ex_affine : forall x Q, okp x (fun R => tw_rep B R Q) -> exists R, x = Ok R /\ tw_affine B R = Q.
Proof. intros x Q (R & E & H). exists R. split; [exact E|]. exact (proj2 (tw_of_rep B _ _ H)). Qed.
Lemma add_case : exists R, ed_add B (t4_point B) (t4_point B) = Ok R /\ ed_affine B R = (0, - (1)).
Proof. apply ex_affine. rewrite <- T4_2, pmul_2, <- T4_pair. exact (ed_add_ok B L _ _ _ _ gt4 gt4). Qed.
Lemma sum_case : let l := [ed_generator B; t4_point B; ed_generator B] in
  Forall (ed_valid B) l /\ Permutation l [t4_point B; ed_generator B; ed_generator B].
Proof.
  destruct (gen_valid B S) as [V1 _], (t4_valid B S) as [V3 _]. split; [repeat (apply Forall_cons; [assumption|]); apply Forall_nil|]. apply perm_swap.
Qed.
Lemma torque_case : exists R, ed_torque B (t4_point B) = Ok R /\ ed_affine B R = (- (1), 0).
Proof. apply ex_affine. replace (- (1), 0) with (padd ed_a ed_d (1, 0) (0, - (1))). { exact (ed_torque_ok B L _ _ gt4). } rewrite padd_N. apply pt_eq; ring. Qed.
Lemma t4_mul : forall s r, is_scalar s -> (sval s mod 4 = 3)%Z -> okp r (fun R => ed_rep B R (pmul ed_a ed_d (sval s) (1, 0))) ->
  exists R, r = Ok R /\ ed_affine B R = (- (1), 0).
Proof.
  intros s r Hs E H. apply ex_affine. rewrite <- T4_3, <- E. rewrite <- (pmul_mod _ _ _ ed_group 4 (sval s) T4); [rewrite <- T4_pair; exact H|lia|apply scalar_range; exact Hs|exact on_T4|exact T4_4].
Qed.
Lemma mul_case :
  (exists R, ed_scalar_mul B (t4_point B) (digits 32 14 (2 ^ 448 - 1)) = Ok R /\ ed_affine B R = (- (1), 0)) /\
  (exists R, ed_scalar_mul B (ed_generator B) (digits 32 14 (ell + 2)) = Ok R /\ ed_affine B R = padd ed_a ed_d G G).
Proof.
  split.
  - apply (t4_mul (digits 32 14 (2 ^ 448 - 1))); [apply sc; lia|rewrite scv by lia; reflexivity|]. apply (ed_scalar_mul_ok B L); [exact gt4|apply sc; lia].
  - apply ex_affine. rewrite <- pmul_2. pose proof ell_big.
    assert (E : pmul ed_a ed_d 2 G = pmul ed_a ed_d (sval (digits 32 14 (ell + 2))) G).
    { rewrite scv by ran. rewrite (pmul_mod _ _ _ ed_group ell (ell + 2) G); [reflexivity|lia|lia|exact on_G|apply (G_order_iff ell); [lia|apply Z.divide_refl]]. }
    rewrite E. apply (ed_scalar_mul_ok B L); [exact ggen|apply sc; ran].
Qed.
Lemma hom_case :
  ed_is_torsion_free B (ed_generator B) = Ok true /\ canonical (digits 32 14 (ell - 1)) /\ canonical (digits 32 14 (2 ^ 445 + 7)).
Proof.
  split; [exact (gen_torsion B S)|]. split; (split; [apply sc|rewrite scv]); try ran; try (vm_compute; split; [intro X; discriminate X|reflexivity]). reflexivity.
Qed.
Lemma hom_needs_torsion :
  (c <- scalar_add (digits 32 14 (ell - 1)) scalar_one ;; l <- ed_scalar_mul B (t4_point B) c ;;
   x <- ed_scalar_mul B (t4_point B) (digits 32 14 (ell - 1)) ;; y <- ed_scalar_mul B (t4_point B) scalar_one ;;
   r <- ed_add B x y ;; ed_ct_eq B l r) = Ok false.
Proof.
  assert (C1 : canonical (digits 32 14 (ell - 1))) by (split; [apply sc; ran|rewrite scv by ran; lia]).
  assert (C2 : canonical scalar_one) by (split; [exact (proj1 scalar_one_ok)|rewrite (proj2 scalar_one_ok); reflexivity]).
  destruct (canonical_add _ _ C1 C2) as (c & -> & [Sc _] & Vc). cbn [bind].
  rewrite scv, (proj2 scalar_one_ok) in Vc by ran. replace (ell - 1 + 1)%Z with (1 * ell)%Z in Vc by ring. rewrite Z.mod_mul in Vc by ran.
  apply okp_eq. eapply okp_bind; [exact (ed_scalar_mul_ok B L _ _ _ gt4 Sc)|]. intros l Hl.
  eapply okp_bind; [exact (ed_scalar_mul_ok B L _ _ _ gt4 (proj1 C1))|]. intros x Hx.
  eapply okp_bind; [exact (ed_scalar_mul_ok B L _ _ _ gt4 (proj1 C2))|]. intros y Hy. cbv beta in *.
  eapply okp_bind; [exact (ed_add_ok B L _ _ _ _ Hx Hy)|]. intros r Hr. cbv beta in Hr.
  rewrite (ed_ct_eq_ok B L _ _ _ _ Hl Hr). apply okp_ret. rewrite Vc, T4_pair, scv, (proj2 scalar_one_ok) by ran.
  rewrite <- (pmul_add _ _ _ ed_group); [|ran|lia|exact on_T4]. replace (ell - 1 + 1)%Z with ell by ring.
  destruct (peqb _ _) eqn:E; [|reflexivity]. apply peqb_eq in E. exfalso. apply T4_ell. rewrite <- E. reflexivity.
Qed.
Lemma G_even : fodd (fst G) = false. Proof. vm_compute. reflexivity. Qed.
Lemma G_enc : ed_encode G = le_bytes 57 0x693f46716eb6bc248876203756c9c7624bea73736ca3984087789c1e05a0c2d73ad3ff1ce67c39c4fdbd132c4ed7c8ad9808795bf230fa14.
Proof. vm_compute. reflexivity. Qed.
Lemma T4_enc : ed_encode (1, 0) = repeat 0%Z 56 ++ [0x80%Z]. Proof. vm_compute. reflexivity. Qed.
Lemma compress_case :
  ed_compress B (ed_generator B) =
    Ok (le_bytes 57 0x693f46716eb6bc248876203756c9c7624bea73736ca3984087789c1e05a0c2d73ad3ff1ce67c39c4fdbd132c4ed7c8ad9808795bf230fa14) /\
  ed_compress B (t4_point B) = Ok (repeat 0%Z 56 ++ [0x80%Z]).
Proof. rewrite (ed_compress_ok B L _ _ ggen), (ed_compress_ok B L _ _ gt4), G_enc, T4_enc. split; reflexivity. Qed.
Lemma injective_case : ed_compress B (t4_point B) <> ed_compress B (ed_generator B).
Proof.
  intro E. apply (ed_compress_injective B S _ _ (proj1 (t4_valid B S)) (proj1 (gen_valid B S))) in E. rewrite (t4_not_gen B S) in E. discriminate E.
Qed.
Lemma sq_468975 : is_square (of_Z 468975).
Proof.
  exists (of_Z 0x794c867c49e612681d23895c5629ee686fb81abfbf82f5fb9965a1b791cada2b472e226bd203d4bff3ed576e40a7d196fffdb2eef5d4e723).
  rewrite <- of_Z_mul. apply of_Z_eq. vm_compute. reflexivity.
Qed.
Lemma y2_none : forall x, ~ on_ed (x, of_Z 2).
Proof.
  intros x H. unfold on_ed, on_curve, ed_a in H. rewrite ed_d_eq in H.
  assert (N : of_Z 468975 <> 0) by (apply of_Z_small_nonzero; split; reflexivity). apply N. apply square_and_neg; [exact sq_468975|].
  exists (x * of_Z 156325). transitivity (x * x * of_Z 156325 * of_Z 156325); [ring|].
  assert (E : x * x * of_Z 156325 = - of_Z 3).
  { transitivity (1 * (x * x) + of_Z 2 * of_Z 2 - (1 + - of_Z 39081 * (x * x) * (of_Z 2 * of_Z 2)) - of_Z 3); [ring|]. rewrite H. ring. }
  rewrite E. ring.
Qed.
Lemma decompress_case :
  (exists P, ed_decompress B (ed_encode G) = Ok (Some P) /\ ed_affine B P = G) /\
  ed_decompress B (2%Z :: repeat 0%Z 56) = Ok None.
Proof.
  split.
  - destruct (edexp_run_ok B L (EDecompress (ed_encode G)) (proj1 (encode_bytes G))) as (o & E & R). cbn [edexp_run edexp_val] in *.
    rewrite (decode_encode G on_G) in R. destruct o as [P|]; [|contradiction]. cbn in R. exists P. split; [exact E|]. exact (proj2 (of_rep B _ _ R)).
  - assert (Hb : bytes 57 (2%Z :: repeat 0%Z 56)) by (split; [reflexivity|repeat constructor; vm_compute; congruence]).
    apply (ed_decompress_exact B S _ Hb). intros [x H]. exact (y2_none x H).
Qed.
Lemma y1_accepted : forall b, bytes 57 b -> of_Z (le_val (firstn 56 b)) = 1 ->
  ~ ((le_val (firstn 56 b) < p)%Z /\ nth 56 b 0%Z = 0%Z) -> exists P, ed_decompress B b = Ok (Some P) /\ ed_valid B P /\ ed_compress B P <> Ok b.
Proof.
  intros b Hb Y N. destruct (ed_decompress_exact B S b Hb) as (K1 & K2 & _). cbv zeta in *.
  destruct (proj2 K2) as [P E].
  { exists 0. rewrite Y. exact (on_curve_zero ed_a ed_d). }
  exists P. split; [exact E|]. destruct (K1 P E) as (V & A & _). split; [exact V|]. intro C.
  apply (ed_decompress_canonical B S b P Hb E) in C. destruct C as [C1 [C2|[C2 C3]]]; [exact (N (conj C1 C2))|]. apply C3.
  pose proof (valid_on B P V) as O. destruct (ed_affine B P) as [x y]. cbn [fst snd] in *. rewrite A, Y in O.
  apply ed_eq in O. destruct (F_eq_dec x 0) as [X|X]; [exact X|]. exfalso.
  assert (W : (ed_d - 1) * (x * x) = 0). { transitivity (ed_d * x * x * 1 * 1 - x * x); [ring|]. rewrite O. ring. }
  revert W. apply fmul_nonzero; [rewrite <- tw_d_eq; exact nz_tw_d|apply fmul_nonzero; exact X].
Qed.
Lemma noncanonical_accepted :
  forall b, In b [le_bytes 57 (p + 1); 1%Z :: repeat 0%Z 55 ++ [1%Z]; 1%Z :: repeat 0%Z 55 ++ [0x80%Z]] ->
  bytes 57 b /\ exists P, ed_decompress B b = Ok (Some P) /\ ed_valid B P /\ ed_compress B P <> Ok b.
Proof.
  assert (Y1 : of_Z (p + 1) = 1) by (apply of_Z_eq; reflexivity).
  intros b [<-|[<-|[<-|[]]]].
  - assert (Hb : bytes 57 (le_bytes 57 (p + 1))) by (apply le_bytes_bytes). split; [exact Hb|].
    assert (V : le_val (firstn 56 (le_bytes 57 (p + 1))) = (p + 1)%Z) by (vm_compute; reflexivity).
    apply y1_accepted; [exact Hb|rewrite V; exact Y1|]. rewrite V. lia.
  - assert (Hb : bytes 57 (1%Z :: repeat 0%Z 55 ++ [1%Z])) by (split; [reflexivity|repeat constructor; vm_compute; congruence]). split; [exact Hb|].
    assert (V : le_val (firstn 56 (1%Z :: repeat 0%Z 55 ++ [1%Z])) = 1%Z) by (vm_compute; reflexivity).
    apply y1_accepted; [exact Hb|rewrite V; reflexivity|]. intros [_ X]. cbn in X. discriminate X.
  - assert (Hb : bytes 57 (1%Z :: repeat 0%Z 55 ++ [128%Z])) by (split; [reflexivity|repeat constructor; vm_compute; congruence]). split; [exact Hb|].
    assert (V : le_val (firstn 56 (1%Z :: repeat 0%Z 55 ++ [128%Z])) = 1%Z) by (vm_compute; reflexivity).
    apply y1_accepted; [exact Hb|rewrite V; reflexivity|]. intros [_ X]. cbn in X. discriminate X.
Qed.
Lemma torsion_case : ed_is_torsion_free B (ed_generator B) = Ok true /\ ed_is_torsion_free B (t4_point B) = Ok false.
Proof. split; [exact (gen_torsion B S)|exact (t4_torsion B S)]. Qed.
Lemma phi_T4 : phi (1, 0) = pzero.
Proof.
  unfold phi. apply pt_0_eq. split; apply fdiv_val; try ring.
  - replace (0 * 0 - 1 * 1) with (- (1 : F)) by ring. intro E. exact (F_1_neq_0 (proj1 (fopp_0_iff _) E)).
  - replace (of_Z 2 - (0 * 0 + 1 * 1)) with (1 : F) by ring. exact F_1_neq_0.
Qed.
Lemma isogeny_case :
  (exists T, ed_to_twisted B (ed_generator B) = Ok T /\ tw_affine B T = D) /\
  (exists T, ed_to_twisted B (t4_point B) = Ok T /\ tw_affine B T = pzero) /\ tw_valid B (tw_generator B).
Proof.
  split; [apply tw_ex_affine; rewrite <- phi_G; exact (ed_to_twisted_ok B L _ _ ggen)|].
  split; [apply tw_ex_affine; rewrite <- phi_T4; exact (ed_to_twisted_ok B L _ _ gt4)|]. exact (proj1 (tw_gen_valid B S)).
Qed.
Lemma mod_four_case :
  exists R, ed_scalar_mod_four B (t4_point B) (digits 32 14 (2 ^ 440 + 7)) = Ok R /\ ed_affine B R = (- (1), 0).
Proof.
  apply ex_affine. rewrite <- T4_3, <- T4_pair.
  assert (E : (3 = sval (digits 32 14 (2 ^ 440 + 7)) mod 4)%Z) by (rewrite scv; [reflexivity|split; [discriminate|reflexivity]]). rewrite E.
  apply (ed_mod_four_ok B L); [exact gt4|apply sc; split; [discriminate|reflexivity]].
Qed.
Lemma D_ell : pmul tw_a tw_d ell D = pzero.
Proof.
  pose proof ell_big. rewrite <- phi_G, <- phi_mul; [|lia|exact on_G]. rewrite <- phi_zero. apply (f_equal phi).
  apply (G_order_iff ell); [lia|apply Z.divide_refl].
Qed.
Lemma double_base_case :
  exists R, double_base_scalar_mul B (digits 32 14 (ell - 5)) (tw_generator B) (digits 32 14 5) = Ok R /\ tw_affine B R = pzero.
Proof.
  destruct (double_base_law B S (digits 32 14 (ell - 5)) (tw_generator B) (digits 32 14 5)) as (R & E & _ & A);
    [apply sc; ran|exact (proj1 (tw_gen_valid B S))|apply sc; lia|].
  exists R. split; [exact E|]. rewrite A, (proj2 (tw_gen_valid B S)), !scv by ran. rewrite <- (pmul_add _ _ _ tw_group); [|ran|lia|exact even_D].
  rewrite Z.sub_add. exact D_ell.
Qed.
Lemma affine_niels_wrong :
  exists P A N R, xt_valid B P /\ twa_valid B A /\ twa_to_affine_niels B A = Ok N /\ xt_add_affine_niels B P N = Ok R /\
    xt_affine B R <> padd tw_a tw_d (xt_affine B P) (twa_affine B A).
Proof.
  assert (VP : xt_valid B (xt_identity B)) by (exact (proj1 (proj1 (xt_rep_iff B _ _) (xt_identity_rep B L)))).
  assert (VA : twa_valid B (twa_identity B)).
  { destruct (l_zero B L) as [T0 V0], (l_one B L) as [T1 V1]. unfold twa_valid, twa_affine, twa_identity. cbn [twAx twAy fst snd].
    rewrite V0, V1. split; [auto|]. exact even_zero. }
  destruct (affine_niels_law B S _ _ VP VA) as (N & R & E & K1 & K2 & _ & K3 & _).
  exists (xt_identity B), (twa_identity B), N, R. repeat (split; [assumption|]). exact K3.
Qed.
End Facts.

Lemma canonical_case : bytes 57 (ed_encode G) /\ (le_val (firstn 56 (ed_encode G)) < p)%Z /\ nth 56 (ed_encode G) 0%Z = 0%Z.
Proof.
  destruct (encode_bytes G) as (K1 & K2 & K3). split; [exact K1|]. rewrite K2, K3, G_even. split; [rewrite le_val_canon; apply fval_range|reflexivity].
Qed.
Lemma id_scaled_case : ed_valid u32_backend id_scaled /\ ed_ct_eq u32_backend id_scaled (ed_identity u32_backend) = Ok true /\
  edY id_scaled <> edY (ed_identity u32_backend).
Proof.
  assert (V2 : fv u32_backend two28 = of_Z 2) by (apply of_Z_eq; vm_compute; reflexivity).
  assert (T2 : fe_tight u32_backend two28) by (split; [reflexivity|repeat constructor; vm_compute; congruence]).
  destruct (l_zero u32_backend (shipped_laws _ shipped_u32)) as [T0 V0].
  assert (H : ed_rep u32_backend id_scaled pzero).
  { unfold ed_rep, id_scaled. cbn [edX edY edZ edT]. split; [auto|]. split; [exact (on_curve_zero _ _)|].
    rewrite V2, V0. split; [exact F_2_neq_0|]. assert (P0 : pzero = (0, 1)) by reflexivity. rewrite P0. cbn [fst snd]. repeat split; ring. }
  split; [exact (proj1 (of_rep _ _ _ H))|]. split.
  - rewrite (ed_ct_eq_ok _ (shipped_laws _ shipped_u32) _ _ _ _ H (id_rep _ shipped_u32)). apply (f_equal Ok). apply peqb_refl.
  - intro E. apply (f_equal (fun l => hd 0%Z l)) in E. cbn in E. discriminate E.
Qed.
Lemma order_case : on_curve ed_a ed_d G /\ pmul ed_a ed_d ell G = pzero /\ pmul ed_a ed_d 4 G <> pzero /\ prime ell.
Proof.
  pose proof ell_big. split; [exact on_G|]. split; [apply (G_order_iff ell); [lia|apply Z.divide_refl]|]. split; [apply G_order; lia|exact prime_ell].
Qed.
Lemma recoding_case : (forall B, shipped B -> tw_valid B (tw_generator B) /\ tw_affine B (tw_generator B) = D) /\
  to_radix_16 (digits 32 14 (2 ^ 448 - 8)) = Ok (-8 :: repeat 0 111 ++ [1])%Z.
Proof. split; [exact tw_gen_valid|vm_compute; reflexivity]. Qed.
