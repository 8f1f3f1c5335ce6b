(** Every unit test of the crate, as transcribed in RepoTests.v, passes. *)
Require Import ZArith List Bool Lia Ring Field.
From Verif Require Import Base BaseProofs SpecParams SpecField SpecCurve SpecEncoding SpecDecaf FieldTheory CurveTheory EdwardsTheory PhiHat FieldU32Model
  FieldFiatModel FieldBackend FieldModel Backends BackendLaws FieldProofs Wp ScalarModel ScalarIndex ScalarIndexFacts ScalarProofs ScalarProofs2 ScalarMain TwistedModel ScalarMulModel
  EdwardsModel MontgomeryModel DecafModel PointSpec TwistedProofs ScalarMulProofs EdwardsProofs EdwardsMain TwistedMain AffineFacts ApiRun MontgomeryMain
  Order GroupOrder DecafTheory DecafGroup DecafProofs DecafRun DecafMain DecafFacts RfcFacts RepoTests RepoVectors.
Import ListNotations.
Open Scope F_scope.
Open Scope res_scope.

(** ** Scalars and the 32-bit field *)
Lemma scalar_small : forall i, (0 <= i < 2 ^ 32)%Z -> is_scalar (from i) /\ sval (from i) = i. Proof. exact from_u32_value. Qed.
Lemma inversion_pass : forall l, (forall i, In i l -> 1 <= i < 2 ^ 32)%Z ->
  for_all l (fun i => x_inv <- scalar_invert (from i) ;; s_eq (scalar_mul x_inv (from i)) (Ok scalar_one)) = Ok tt.
Proof.
  induction l as [|i l IH]; intro H; [reflexivity|]. cbn [for_all].
  assert (Hi : (1 <= i < 2 ^ 32)%Z) by (apply H; left; reflexivity).
  destruct (scalar_small i) as [Is Ev]; [lia|].
  assert (N : (sval (from i) mod ell <> 0)%Z).
  { rewrite Ev. assert (2 ^ 32 < ell)%Z by (vm_compute; reflexivity). rewrite Z.mod_small by lia. lia. }
  destruct (scalar_invert_mul _ Is N) as (j & -> & _ & _ & E & _). cbn [bind]. rewrite E.
  replace (s_eq (Ok scalar_one) (Ok scalar_one)) with (Ok tt) by reflexivity. cbn [bind].
  apply IH. intros k Hk. apply H. right. exact Hk.
Qed.
Lemma basic_inversion_pass : test_basic_inversion = Ok tt.
Proof.
  unfold test_basic_inversion. rewrite inversion_pass.
  - cbn [bind]. rewrite (scalar_invert_zero scalar_zero); [reflexivity| |reflexivity]. exact (proj1 (scalar_small 0 ltac:(lia))).
  - intros i Hi. apply in_map_iff in Hi. destruct Hi as (n & <- & Hn). apply in_seq in Hn. lia.
Qed.
Theorem scalar_pass : Forall (fun t => t = Ok tt) tests_scalar.
Proof.
  do 8 (apply Forall_cons; [vm_compute; reflexivity|]). apply Forall_cons; [exact basic_inversion_pass|].
  do 5 (apply Forall_cons; [vm_compute; reflexivity|]). apply Forall_nil.
Qed.
Theorem u32_pass : Forall (fun t => t = Ok tt) tests_u32.
Proof. repeat apply Forall_cons; try apply Forall_nil; vm_compute; reflexivity. Qed.

Theorem negate_pass : forall P, fiat_contract P -> test_negate56 P = Ok tt.
Proof.
  intros P C. pose proof (fiat_laws P C) as L. destruct (l_zero _ L) as [T0 V0]. destruct (l_negate _ L _ T0) as (y & E & Ty & Vy).
  change (negate56 P zero56 = Ok y) in E. unfold test_negate56. rewrite E. cbn [bind].
  pose proof (l_to _ L y Ty) as ET. change (to_bytes56 P y = Ok (le_bytes 56 (fval (fv _ y)))) in ET. rewrite ET, Vy, V0.
  vm_compute. reflexivity.
Qed.

(** ** The curve *)
Ltac num := apply fval_eq; vm_compute; reflexivity.
Local Opaque fadd fsub fmul fopp fdiv finv fpow of_Z padd pmul pzero fsqrt D Dx Dy G Gx Gy decaf_encode ed_encode.

Lemma coord : forall v, (0 <= v < p)%Z -> le_val (le_bytes 56 v) = v.
Proof. intros v H. apply FieldMain.le_val_le_bytes. assert (p < 2 ^ 448)%Z by (vm_compute; reflexivity). lia. Qed.

(** *** Numbers *)
Definition new_P : point := (of_Z new_x, of_Z new_y).
Definition torsion_x : Z := 0xb4620b9ecf4481c6931f6021ad715fb077ccd5dcd755e1ebb85d564f7f3d9e595f724a83e9ba25ac9708a46afbd6c2ddc387014d990f9155.
Definition torsion_y : Z := 0x41679f5ed3ceb704090dedef7b8b37ad162c0c8a17ae6158df0560ed9741fb4e47a563e3fa372ef430cd172f8fc8be1b10535f7a4c71b613.
Definition torsion_w : Z := 0x98d04857bf3ac309476051cc45066874d4284d7c545f8e9a09af1a4dcbcc4f04e3284276852ce68fefc95594aab1103124cae8db7be454e.
Lemma on_new : on_ed new_P. Proof. unfold on_ed, on_curve, new_P. num. Qed.
Lemma old_G : (of_Z old_x, of_Z old_y) = G. Proof. rewrite G_pair. reflexivity. Qed.
Lemma double_G : padd ed_a ed_d G G = new_P.
Proof.
  rewrite G_pair, (ed_dbl_eq _ _ on_G). unfold new_P. apply pt_eq; apply div_eq; try (apply nz; vm_compute; reflexivity); num.
Qed.
Lemma on_bytes : on_ed (of_Z ed_bytes_x, of_Z ed_bytes_y). Proof. unfold on_ed, on_curve. num. Qed.
Lemma on_torsion : on_ed (of_Z torsion_x, of_Z torsion_y). Proof. unfold on_ed, on_curve. num. Qed.
(** Twice a point has 1 - x^2 a square. *)
Lemma double_square : forall Q, on_ed Q -> is_square (1 - fst (padd ed_a ed_d Q Q) * fst (padd ed_a ed_d Q Q)).
Proof.
  intros [x y] H. rewrite (ed_dbl_eq _ _ H). cbn [fst]. pose proof (ed_C_nz _ _ H) as N. exists ((y * y - x * x) / (y * y + x * x)). field. exact N.
Qed.
Lemma torsion_num : 1 - of_Z torsion_x * of_Z torsion_x = - (1) * (of_Z torsion_w * of_Z torsion_w). Proof. num. Qed.
Lemma torsion_not : pmul ed_a ed_d ell (of_Z torsion_x, of_Z torsion_y) <> pzero.
Proof.
  intro E. set (Q := (of_Z torsion_x, of_Z torsion_y)) in *. pose proof on_torsion as O. fold Q in O.
  assert (X : padd ed_a ed_d (pmul ed_a ed_d ((ell + 1) / 2) Q) (pmul ed_a ed_d ((ell + 1) / 2) Q) = Q).
  { rewrite <- (pmul_add _ _ _ ed_group) by (exact O || (vm_compute; intro; discriminate)).
    replace ((ell + 1) / 2 + (ell + 1) / 2)%Z with (ell + 1)%Z by (vm_compute; reflexivity).
    rewrite pmul_succ by (vm_compute; intro; discriminate). rewrite E. apply padd_0_r. }
  pose proof (double_square _ (on_pmul ((ell + 1) / 2) Q O)) as SQ. rewrite X in SQ. unfold Q in SQ. cbn [fst] in SQ.
  rewrite torsion_num in SQ.
  revert SQ. apply nonsquare_mul_square; [exact neg1_nonsquare|exists (of_Z torsion_w); reflexivity|]. apply nz. vm_compute. reflexivity.
Qed.

(** The point of [test_isogeny_twisted] lies on the Edwards curve and not on the twisted one, so the group law does not apply:
    the two routes are followed in numbers. *)
Definition iso_x : F := of_Z 0x49dcbc5c6c0cce2c1419a17226f929ea255a09cf4e0891c693fda4be70c74cc301b7bdf1515dd8ba21aee1798949e120e2ce42ac48ba7f30.
Definition iso_y : F := of_Z 0x762f4916bc598e8bbb16762f1c4b70382c50d03d36f251bf1533e0520d0c2327c54dab41d15463fb4bcecb668d4c229bc9ffc2eed9367d15.
Definition back_x : F := of_Z 0x1f382934bc61b3bc857cdc405f8093bb2b5dddb291a69362875a3b30ff174f5ca83362fe3d31c9fe81c0d83523c5ab459ff9a6c72d2ea85f.
Definition back_y : F := of_Z 0x24fca5da6bc6d7aefa38cf9405ea02989311d51b83402ccc504606a0777cd0290fb4f61dd0060ac09f3aa6fb9a82a06bf785c318d8c51508.
Lemma iso_num : let X := of_Z new_x in let Y := of_Z new_y in
  of_Z 2 * X * Y / (Y * Y - - (1) * (X * X)) = iso_x /\ (Y * Y + - (1) * (X * X)) / (of_Z 2 - (Y * Y + - (1) * (X * X))) = iso_y.
Proof. cbv zeta. split; apply div_eq; try (apply nz; vm_compute; reflexivity); num. Qed.
Lemma back_num : of_Z 2 * iso_x * iso_y / (iso_y * iso_y - 1 * (iso_x * iso_x)) = back_x /\
  (iso_y * iso_y + 1 * (iso_x * iso_x)) / (of_Z 2 - (iso_y * iso_y + 1 * (iso_x * iso_x))) = back_y.
Proof. split; apply div_eq; try (apply nz; vm_compute; reflexivity); num. Qed.
(** [xt_double] on coordinates. *)
Definition dbl_num (c : F * F * F) : F * F * F :=
  let '(x, y, z) := c in
  let E := (x + y) * (x + y) - x * x - y * y in
  let Gg := - (x * x) + y * y in
  let Ff := Gg - (z * z + z * z) in
  let H := - (x * x) - y * y in
  (E * Ff, Gg * H, Ff * Gg).
Definition twice_num : F * F * F := dbl_num (dbl_num (of_Z new_x, of_Z new_y, 1)).
Lemma twice_eq : feqb (back_x * snd twice_num) (1 * fst (fst twice_num)) = true /\ feqb (back_y * snd twice_num) (1 * snd (fst twice_num)) = true.
Proof. split; vm_compute; reflexivity. Qed.
Local Opaque iso_x iso_y back_x back_y.

Lemma G_off : ~ on_curve tw_a tw_d (Gx, Gy).
Proof. unfold on_curve. intro H. apply feqb_eq in H. revert H. vm_compute. intro X. discriminate X. Qed.

Lemma finv_one : finv 1 = 1. Proof. transitivity (1 * finv 1); [ring|]. apply finv_r. exact F_1_neq_0. Qed.

Section Curve.
Variable B : backend.
Variable S : shipped B.
Let L := shipped_laws B S.
Local Notation pass t := (okp t (fun _ => True)).
Lemma pass_ok : forall t : res unit, pass t -> t = Ok tt. Proof. intros t ([] & E & _). exact E. Qed.
Lemma assert_pass : forall t, okp t (fun b => b = true) -> pass (assert t).
Proof. intros t (b & -> & ->). exists tt. split; [reflexivity|exact I]. Qed.
Lemma assert_true : forall t, t = Ok true -> pass (assert t).
Proof. intros t ->. exists tt. split; [reflexivity|exact I]. Qed.
Lemma assert_not_false : forall t, t = Ok false -> pass (assert_not t).
Proof. intros t ->. exists tt. split; [reflexivity|exact I]. Qed.
Lemma unwrap_some : forall A (t : res (option A)) x, t = Ok (Some x) -> unwrap t = Ok x.
Proof. intros A t x ->. reflexivity. Qed.
Lemma tw_ret : forall P Q, tw_rep B P Q -> okp (Ok P) (fun R => tw_rep B R Q). Proof. intros P Q H. exists P. split; [reflexivity|exact H]. Qed.
Lemma ed_ret : forall P Q, ed_rep B P Q -> okp (Ok P) (fun R => ed_rep B R Q). Proof. intros P Q H. exists P. split; [reflexivity|exact H]. Qed.
Lemma tw_eq_pass : forall a b Q, okp a (fun R => tw_rep B R Q) -> okp b (fun R => tw_rep B R Q) -> pass (tw_eq B a b).
Proof.
  intros a b Q (x & -> & Hx) (y & -> & Hy). apply assert_true. cbn [bind]. rewrite (tw_ct_eq_ok B L _ _ _ _ Hx Hy), peqb_refl. reflexivity.
Qed.
Lemma ed_eq_pass : forall a b Q, okp a (fun R => ed_rep B R Q) -> okp b (fun R => ed_rep B R Q) -> pass (ed_eq B a b).
Proof.
  intros a b Q (x & -> & Hx) (y & -> & Hy). apply assert_true. cbn [bind]. rewrite (ed_ct_eq_ok B L _ _ _ _ Hx Hy), peqb_refl. reflexivity.
Qed.
Lemma fe_eq_pass : forall a b v, okp a (fun r => is_val B r v) -> okp b (fun r => is_val B r v) -> pass (fe_eq B a b).
Proof.
  intros a b v (x & -> & Tx & Vx) (y & -> & Ty & Vy). apply assert_true. cbn [bind]. rewrite (ct_eq_ok B L) by assumption.
  rewrite Vx, Vy. apply (f_equal (@Ok bool)). apply feqb_eq. reflexivity.
Qed.
Lemma hex_ok : forall v, (0 <= v < p)%Z -> okp (hex B v) (fun r => is_val B r (of_Z v)).
Proof.
  intros v H. pose proof (l_from B L (le_bytes 56 v) (le_bytes_bytes _ _)) as K. rewrite (coord v H) in K. exact K.
Qed.
Lemma ed_point_ok : forall x y, (0 <= x < p)%Z -> (0 <= y < p)%Z -> on_ed (of_Z x, of_Z y) ->
  okp (ed_point B x y) (fun R => ed_rep B R (of_Z x, of_Z y)).
Proof.
  intros x y Hx Hy H. unfold ed_point. eapply okp_bind; [exact (hex_ok x Hx)|]. intros a Ha. eapply okp_bind; [exact (hex_ok y Hy)|]. intros b Hb.
  exact (eda_to_extended_ok B L a b _ _ Ha Hb H).
Qed.
Tactic Notation "by_op" constr(h) "as" ident(R) ident(H) := eapply okp_bind; [exact h|]; intros R H; cbv beta in H.
Ltac gen := pose proof (tw_generator_rep B S) as HG; pose proof (tw_to_extensible_ok B L _ _ HG) as HX.
Lemma add_comm : forall P Q, even_tw P -> even_tw Q -> padd tw_a tw_d P Q = padd tw_a tw_d Q P. Proof. intros P Q _ _. apply padd_comm. Qed.

Local Opaque tw_rep xt_rep ed_rep pn_rep tw_generator tw_identity.
Lemma pass_montgomery : pass (test_montgomery_edwards B).
Proof.
  destruct (of_rep B _ _ (ed_generator_rep B L)) as [V _]. destruct (scalar_small 200) as [Is Ev]; [lia|].
  destruct (even_scalar B S (ed_generator B) (from 200) V Is) as (r & E1 & E2); [rewrite Ev; reflexivity|].
  unfold test_montgomery_edwards. destruct (ed_to_montgomery B (ed_generator B)) as [u|]; [|discriminate E1]. cbn [bind] in *. rewrite E1. cbn [bind].
  destruct (ed_scalar_mul B (ed_generator B) (from 200)) as [Q|]; [|discriminate E2]. cbn [bind] in *. rewrite E2. cbn [bind].
  apply assert_true. apply (f_equal (@Ok bool)). apply list_eqb_eq. reflexivity.
Qed.
Lemma pass_conditional_negate : pass (test_conditional_negate B).
Proof.
  gen. unfold test_conditional_negate. by_op (xt_to_projective_niels_ok B L _ _ HX) as n Hn. by_op (pn_cond_negate_ok B L _ _ true Hn) as m Hm.
  by_op (pn_to_extended_ok B L _ _ Hm) as e He. by_op (tw_add_ok B L _ _ _ _ He HG) as s Hs.
  rewrite (g_neg_l _ _ _ tw_group _ even_D) in Hs. apply (tw_eq_pass _ _ pzero); apply okp_ret; [exact (tw_identity_rep B L)|exact Hs].
Qed.
Lemma pass_point_add : pass (test_point_add B).
Proof.
  gen. unfold test_point_add. by_op (tw_double_ok B L _ _ HG) as b Hb. by_op (xt_add_extended_ok B L _ _ _ _ HX Hb) as c Hc.
  by_op (xt_to_extended_ok B L _ _ Hc) as c1 Hc1. by_op (xt_add_extended_ok B L _ _ _ _ (tw_to_extensible_ok B L _ _ Hb) HG) as c' Hc'.
  by_op (xt_to_extended_ok B L _ _ Hc') as c2 Hc2. rewrite (padd_comm _ _ (padd tw_a tw_d D D) D) in Hc2.
  eapply okp_bind; [exact (tw_eq_pass _ _ _ (tw_ret _ _ Hc1) (tw_ret _ _ Hc2))|]. intros _ _.
  by_op (xt_add_extended_ok B L _ _ _ _ (tw_to_extensible_ok B L _ _ Hc1) (tw_identity_rep B L)) as f Hf. rewrite padd_0_r in Hf.
  exact (tw_eq_pass _ _ _ (xt_to_extended_ok B L _ _ Hf) (tw_ret _ _ Hc1)).
Qed.
Lemma pass_point_sub : pass (test_point_sub B).
Proof.
  gen. unfold test_point_sub. by_op (tw_double_ok B L _ _ HG) as b Hb. by_op (xt_sub_extended_ok B L _ _ _ _ HX Hb) as c Hc.
  by_op (xt_to_extended_ok B L _ _ Hc) as c1 Hc1. by_op (tw_negate_ok B L _ _ Hb) as m Hm.
  by_op (xt_add_extended_ok B L _ _ _ _ (tw_to_extensible_ok B L _ _ Hm) HG) as c' Hc'.
  by_op (xt_to_extended_ok B L _ _ Hc') as c2 Hc2. rewrite (padd_comm _ _ _ D) in Hc2.
  exact (tw_eq_pass _ _ _ (tw_ret _ _ Hc1) (tw_ret _ _ Hc2)).
Qed.
Lemma pass_negate_twisted : pass (test_negate_twisted B).
Proof.
  gen. unfold test_negate_twisted. by_op (tw_negate_ok B L _ _ HG) as m Hm. apply assert_pass. by_op (xt_add_extended_ok B L _ _ _ _ HX Hm) as c Hc.
  rewrite (g_neg_r _ _ _ tw_group _ even_D) in Hc. rewrite (xt_ct_eq_ok B S _ _ _ _ Hc (xt_identity_rep B L)), peqb_refl. apply okp_ret. reflexivity.
Qed.
Lemma pass_negation : pass (test_negation B).
Proof.
  unfold test_negation. destruct (base_affine B S) as (A & -> & VA & EA & T). cbn [bind]. rewrite T. cbn [assert bind].
  destruct (affine_negate B S A VA) as (N & -> & VN & EN). cbn [bind]. destruct (affine_add B S N A VN VA) as (R & -> & VR & ER). cbn [bind].
  destruct (affine_identity B S) as [VI EI]. destruct (affine_eq B S R _ VR VI) as (b & -> & Hb). apply assert_true. apply (f_equal (@Ok bool)). apply Hb.
  rewrite ER, EI, EN, EA. exact (g_neg_l _ _ _ tw_group _ even_D).
Qed.
Lemma lookup_pass : forall points n k e, table_ok B points D -> (0 <= k)%Z -> (k + Z.of_nat n <= 8)%Z -> tw_rep B e (pmul tw_a tw_d k D) ->
  pass (lookup_loop B points (tw_generator B) e (map (fun i => (k + Z.of_nat i)%Z) (seq 0 n))).
Proof.
  intros points. induction n as [|n IH]; intros k e HT Hk Hn He; [apply okp_ret; exact I|]. gen.
  cbn [seq map lookup_loop]. replace (k + Z.of_nat 0)%Z with k by lia.
  eapply okp_bind; [exact (lookup_select_ok B L points D k HT ltac:(lia))|]. intros s Hs.
  eapply okp_bind; [apply (tw_eq_pass _ _ (pmul tw_a tw_d k D)); [exact (pn_to_extended_ok B L _ _ Hs)|apply okp_ret; exact He]|]. intros _ _.
  eapply okp_bind; [exact (xt_add_extended_ok B L _ _ _ _ (tw_to_extensible_ok B L _ _ He) HG)|]. intros C HC.
  eapply okp_bind; [exact (xt_to_extended_ok B L _ _ HC)|]. intros e' He'. rewrite padd_comm, <- pmul_succ in He' by exact Hk.
  rewrite <- seq_shift, map_map. erewrite map_ext; [apply (IH (k + 1)%Z e' HT); [lia|lia|exact He']|]. intro i. cbv beta. lia.
Qed.
Lemma pass_lookup : pass (test_lookup B).
Proof.
  gen. unfold test_lookup. eapply okp_bind; [exact (lookup_from_ok B L _ _ HG)|]. intros t Ht.
  exact (lookup_pass t 8 0 (tw_identity B) Ht ltac:(lia) ltac:(lia) (tw_identity_rep B L)).
Qed.
Lemma window_scalar : is_scalar window_s.
Proof. split; [reflexivity|]. repeat apply Forall_cons; try apply Forall_nil; split; try (intro X; discriminate X); reflexivity. Qed.
Lemma pass_scalar_mul : pass (test_scalar_mul B).
Proof.
  gen. unfold test_scalar_mul. eapply okp_bind; [exact (variable_base_ok B L _ _ _ HG window_scalar)|]. intros g Hg.
  eapply okp_bind; [exact (double_and_add_ok B L _ _ _ HG window_scalar)|]. intros g2 Hg2.
  eapply okp_bind; [apply (tw_eq_pass _ _ (pmul tw_a tw_d (sval window_s) D)); apply okp_ret; [exact Hg|exact Hg2]|]. intros _ _.
  eapply okp_bind; [exact (tw_to_untwisted_ok B L _ _ HG)|]. intros e He. eapply okp_bind; [exact (ed_scalar_mul_ok B L _ _ _ He window_scalar)|]. intros u Hu.
  eapply okp_bind; [exact (tw_to_untwisted_ok B L _ _ Hg)|]. intros v Hv. rewrite phihat_mul in Hv by (exact even_D || (vm_compute; intro X; discriminate X)).
  apply (ed_eq_pass _ _ (pmul ed_a ed_d (sval window_s) (phihat D))); apply okp_ret; [exact Hu|exact Hv].
Qed.
Lemma pass_simple : pass (test_simple_scalar_mul_identities B).
Proof.
  gen. destruct (scalar_small 1) as [I1 E1]; [lia|]. destruct (scalar_small 4) as [I4 E4]; [lia|].
  unfold test_simple_scalar_mul_identities. eapply okp_bind; [exact (variable_base_ok B L _ _ _ HG I1)|]. intros e He.
  rewrite E1, pmul_1 in He. eapply okp_bind; [apply (tw_eq_pass _ _ D); apply okp_ret; [exact HG|exact He]|]. intros _ _.
  eapply okp_bind; [exact (xt_add_xt_ok B S _ _ _ _ HX HX)|]. intros s Hs. eapply okp_bind; [exact (xt_double_ok B L _ _ Hs)|]. intros d Hd.
  eapply okp_bind; [exact (variable_base_ok B L _ _ _ HG I4)|]. intros g Hg. rewrite E4 in Hg.
  apply (tw_eq_pass _ _ (pmul tw_a tw_d 4 D)); [|apply okp_ret; exact Hg].
  rewrite (pmul_4 _ _ _ tw_group _ even_D). exact (xt_to_extended_ok B L _ _ Hd).
Qed.
Lemma new_ok : okp (ed_point B new_x new_y) (fun R => ed_rep B R new_P).
Proof. apply ed_point_ok; [split; vm_compute; [intro X; discriminate X|reflexivity]..|exact on_new]. Qed.
Lemma old_ok : okp (ed_point B old_x old_y) (fun R => ed_rep B R G).
Proof. rewrite <- old_G. apply ed_point_ok; [split; vm_compute; [intro X; discriminate X|reflexivity]..|rewrite old_G; exact on_G]. Qed.
Lemma pass_isogeny : pass (test_isogeny B).
Proof.
  unfold test_isogeny. by_op new_ok as a Ha. by_op (ed_to_twisted_ok B L _ _ Ha) as t Ht. by_op (tw_to_untwisted_ok B L _ _ Ht) as u Hu.
  by_op (ed_double_ok B L _ _ Ha) as d Hd. by_op (ed_double_ok B L _ _ Hd) as e He.
  rewrite (phihat_phi _ on_new), (pmul_4 _ _ _ ed_group _ on_new) in Hu. exact (ed_eq_pass _ _ _ (ed_ret _ _ Hu) (ed_ret _ _ He)).
Qed.
Lemma pass_derive : pass (derive_base_points B).
Proof.
  unfold derive_base_points. by_op old_ok as o Ho. by_op new_ok as n Hn. pose proof (ed_double_ok B L _ _ Ho) as Hd. rewrite double_G in Hd.
  eapply okp_bind; [exact (ed_eq_pass _ _ _ Hd (ed_ret _ _ Hn))|]. intros _ _.
  eapply okp_bind; [exact (ed_eq_pass _ _ _ (ed_ret _ _ (ed_generator_rep B L)) (ed_ret _ _ Ho))|]. intros _ _.
  pose proof (ed_to_twisted_ok B L _ _ Ho) as Ht. rewrite phi_G in Ht. exact (tw_eq_pass _ _ _ Ht (tw_ret _ _ (tw_generator_rep B S))).
Qed.
Lemma pass_is_on_curve : pass (test_is_on_curve B).
Proof.
  unfold test_is_on_curve. by_op new_ok as n Hn. apply assert_true. exact (on_curve_valid B S n (proj1 (of_rep B _ _ Hn))).
Qed.
(** The point that the encoding of a point decodes to. *)
Lemma decode_encode : forall P Q, ed_rep B P Q -> exists R, ed_decompress B (ed_encode Q) = Ok (Some R) /\ ed_rep B R Q.
Proof.
  intros P Q H. destruct (of_rep B _ _ H) as [V E]. destruct (ed_roundtrip B S P V) as (b & EC & _ & _ & _ & R & ED & VR & EQ).
  rewrite (ed_compress_ok B L _ _ H) in EC. apply ok_inj in EC. subst b. exists R. split; [exact ED|].
  apply (eq_true_iff B S _ _ VR V) in EQ. rewrite <- E, <- EQ. exact (rep_of B R VR).
Qed.
Lemma pass_compress_decompress : pass (test_compress_decompress B).
Proof.
  unfold test_compress_decompress. by_op new_ok as n Hn. rewrite (ed_compress_ok B L _ _ Hn). cbn [bind].
  destruct (decode_encode _ _ Hn) as (R & E & HR). rewrite (unwrap_some _ _ _ E). cbn [bind]. exact (ed_eq_pass _ _ _ (ed_ret _ _ Hn) (ed_ret _ _ HR)).
Qed.
Lemma decode_bytes : forall b x y, (0 <= x < p)%Z -> (0 <= y < p)%Z -> on_ed (of_Z x, of_Z y) -> ed_encode (of_Z x, of_Z y) = b ->
  exists R, ed_decompress B b = Ok (Some R) /\ ed_rep B R (of_Z x, of_Z y).
Proof. intros b x y Hx Hy O <-. destruct (ed_point_ok x y Hx Hy O) as (P & _ & H). exact (decode_encode P _ H). Qed.
Lemma bytes_decode : exists R, ed_decompress B ed_bytes = Ok (Some R) /\ ed_rep B R (of_Z ed_bytes_x, of_Z ed_bytes_y).
Proof.
  apply decode_bytes; [split; vm_compute; [intro X; discriminate X|reflexivity]..|exact on_bytes|]. vm_compute. reflexivity.
Qed.
Lemma pass_decompress_compress : pass (test_decompress_compress B).
Proof.
  unfold test_decompress_compress. destruct bytes_decode as (R & E & HR). rewrite (unwrap_some _ _ _ E). cbn [bind].
  rewrite (ed_compress_ok B L _ _ HR). cbn [bind]. apply assert_true. vm_compute. reflexivity.
Qed.
Lemma decompress_Z : forall b P, ed_decompress B b = Ok (Some P) -> edZ P = fe_one B.
Proof.
  intros b P. unfold ed_decompress, eda_to_extended.
  repeat match goal with
  | |- bind (bind ?x _) _ = _ -> _ => destruct x; cbn [bind]; [|intro X; discriminate X]
  | |- bind ?x _ = _ -> _ => destruct x as [?v|]; cbn [bind]; [|intro X; discriminate X]
  | |- (let (_, _) := ?x in _) = _ -> _ => destruct x
  | |- (if ?c then _ else _) = _ -> _ => destruct c; [intro X; discriminate X|]
  end.
  intro X. injection X as <-. reflexivity.
Qed.
Lemma decompress_coords : forall b R x y, ed_decompress B b = Ok (Some R) -> ed_rep B R (x, y) -> is_val B (edX R) x /\ is_val B (edY R) y.
Proof.
  Local Transparent ed_rep.
  intros b R x y E ((TX & TY & _) & _ & _ & EX & EY & _). rewrite (decompress_Z _ _ E), (proj2 (l_one B L)) in EX, EY. cbn [fst snd] in EX, EY.
  split; (split; [assumption|]); [rewrite EX|rewrite EY]; ring.
Qed.
Local Opaque ed_rep.
Lemma fe_ret : forall x v, is_val B x v -> okp (Ok x) (fun r => is_val B r v). Proof. intros x v H. exists x. split; [reflexivity|exact H]. Qed.
Lemma pass_just_decompress : pass (test_just_decompress B).
Proof.
  unfold test_just_decompress. destruct bytes_decode as (R & E & HR). rewrite (unwrap_some _ _ _ E). cbn [bind].
  destruct (decompress_coords _ _ _ _ E HR) as [VX VY].
  eapply okp_bind; [apply (fe_eq_pass _ _ (of_Z ed_bytes_x) (fe_ret _ _ VX)); apply hex_ok; split; vm_compute; [intro X; discriminate X|reflexivity]|]. intros _ _.
  eapply okp_bind; [apply (fe_eq_pass _ _ (of_Z ed_bytes_y) (fe_ret _ _ VY)); apply hex_ok; split; vm_compute; [intro X; discriminate X|reflexivity]|]. intros _ _.
  destruct (decode_bytes (0x01%Z :: repeat 0x00%Z 56) 0 1) as (R' & E' & HR').
  { split; vm_compute; [intro X; discriminate X|reflexivity]. } { split; vm_compute; [intro X; discriminate X|reflexivity]. }
  { unfold on_ed, on_curve. num. } { vm_compute. reflexivity. }
  rewrite (unwrap_some _ _ _ E'). cbn [bind]. destruct (decompress_coords _ _ _ _ E' HR') as [VX' VY'].
  eapply okp_bind; [apply (fe_eq_pass _ _ (of_Z 0) (fe_ret _ _ VX')); apply hex_ok; split; vm_compute; [intro X; discriminate X|reflexivity]|]. intros _ _.
  apply (fe_eq_pass _ _ (of_Z 1) (fe_ret _ _ VY')); apply hex_ok; split; vm_compute; [intro X; discriminate X|reflexivity].
Qed.
Lemma torsion_free : forall P Q, ed_rep B P Q -> ed_is_torsion_free B P = Ok (peqb (pmul ed_a ed_d ell Q) pzero).
Proof. intros P Q H. destruct (of_rep B _ _ H) as [V <-]. exact (torsion_free_eq B S P V). Qed.
Lemma pass_torsion_free : pass (test_is_torsion_free B).
Proof.
  unfold test_is_torsion_free. rewrite (torsion_free _ _ (ed_generator_rep B L)), (torsion_free _ _ (ed_identity_rep B L)).
  rewrite ell_G, (pmul_zero ed_a ed_d ell) by (vm_compute; intro X; discriminate X). rewrite !peqb_refl. cbn [assert bind].
  destruct (decode_bytes torsion_bytes torsion_x torsion_y) as (R & E & HR).
  { split; vm_compute; [intro X; discriminate X|reflexivity]. } { split; vm_compute; [intro X; discriminate X|reflexivity]. }
  { exact on_torsion. } { vm_compute. reflexivity. }
  rewrite (unwrap_some _ _ _ E). cbn [bind]. apply assert_not_false. rewrite (torsion_free _ _ HR).
  destruct (peqb _ pzero) eqn:EQ; [|reflexivity]. exfalso. apply torsion_not. apply peqb_eq. exact EQ.
Qed.
Lemma decaf_there_and_back : forall P Q, tw_rep B P Q -> exists b R Q', dc_compress B P = Ok b /\ dc_decompress B b = Ok (Some R) /\ tw_rep B R Q' /\ same_class Q' Q.
Proof.
  intros P Q H. destruct (tw_of_rep B _ _ H) as [V <-]. destruct (roundtrip B S P V) as (b & R & E & _ & ED & VR & EQ).
  exists b, R, (tw_affine B R). split; [exact E|]. split; [exact ED|]. split; [exact (tw_rep_of B R VR)|]. apply (equals_iff B S _ _ VR V). exact EQ.
Qed.
Lemma pass_ristretto : pass (test_edwards_ristretto_operations B).
Proof.
  gen. unfold test_edwards_ristretto_operations. by_op (tw_double_ok B L _ _ HG) as b Hb. by_op (xt_add_extended_ok B L _ _ _ _ (tw_to_extensible_ok B L _ _ Hb) HG) as c Hc.
  by_op (xt_to_extended_ok B L _ _ Hc) as d Hd.
  destruct (decaf_there_and_back _ _ HG) as (b1 & R1 & Q1 & -> & E1 & H1 & C1). cbn [bind]. rewrite (unwrap_some _ _ _ E1). cbn [bind].
  destruct (decaf_there_and_back _ _ Hb) as (b2 & R2 & Q2 & -> & E2 & H2 & C2). cbn [bind]. rewrite (unwrap_some _ _ _ E2). cbn [bind].
  destruct (decaf_there_and_back _ _ Hd) as (b3 & R3 & Q3 & -> & E3 & H3 & C3). cbn [bind]. rewrite (unwrap_some _ _ _ E3). cbn [bind].
  by_op (dc_add_ok B L _ _ _ _ H1 H2) as e He. apply assert_true. destruct (tw_of_rep B _ _ He) as [Ve Ee]. destruct (tw_of_rep B _ _ H3) as [V3 E3'].
  apply (equals_iff B S _ _ Ve V3). rewrite Ee, E3'.
  pose proof (tw_rep_even B _ _ H1) as N1. pose proof (tw_rep_even B _ _ H2) as N2. pose proof (tw_rep_even B _ _ H3) as N3. pose proof (tw_rep_even B _ _ Hd) as Nd.
  apply (class_trans _ (padd tw_a tw_d (padd tw_a tw_d D D) D)); [exact (even_padd _ _ N1 N2)|exact Nd|exact N3| |exact (class_sym _ _ N3 Nd C3)].
  rewrite (padd_comm _ _ _ D). exact (class_add _ _ _ _ N1 even_D N2 (tw_rep_even B _ _ Hb) C1 C2).
Qed.
Lemma decaf_encoding : forall P Q, tw_rep B P Q -> dc_compress B P = Ok (decaf_encode Q).
Proof. intros P Q H. destruct (tw_of_rep B _ _ H) as [V <-]. exact (compress_exact B S P V). Qed.
Lemma pass_identity : pass (test_identity B).
Proof.
  unfold test_identity. change (dc_identity B) with (tw_identity B). rewrite (decaf_encoding _ _ (tw_identity_rep B L)), encode_zero. cbn [bind]. apply assert_true. reflexivity.
Qed.
Lemma vector_pass : forall l P Q, tw_rep B P Q -> multiples l Q -> pass (vector_loop B l P (dc_generator B)).
Proof.
  induction l as [|b l IH]; intros P Q H M; [apply okp_ret; exact I|]. destruct M as [E M]. cbn [vector_loop].
  eapply okp_bind; [apply assert_true; rewrite (decaf_encoding _ _ H), E; cbn [bind]; apply (f_equal (@Ok bool)); apply list_eqb_refl|]. intros _ _.
  change (dc_generator B) with (tw_generator B). by_op (dc_add_ok B L _ _ _ _ H (tw_generator_rep B S)) as R HR. exact (IH R _ HR M).
Qed.
Lemma tw_double_num : forall P x y z, is_val B (twX P) x -> is_val B (twY P) y -> is_val B (twZ P) z -> fe_tight B (twT P) ->
  okp (tw_double B P) (fun R => is_val B (twX R) (fst (fst (dbl_num (x, y, z)))) /\ is_val B (twY R) (snd (fst (dbl_num (x, y, z)))) /\
    is_val B (twZ R) (snd (dbl_num (x, y, z))) /\ fe_tight B (twT R)).
Proof.
  intros P x y z [TX VX] [TY VY] [TZ VZ] TT. pose proof L as L'. unfold tw_double.
  apply (okp_bind _ _ (fun R => is_val B (xtX R) (fst (fst (dbl_num (x, y, z)))) /\ is_val B (xtY R) (snd (fst (dbl_num (x, y, z)))) /\
    is_val B (xtZ R) (snd (dbl_num (x, y, z))) /\ fe_tight B (xtT1 R) /\ fe_tight B (xtT2 R))).
  - unfold xt_double, tw_to_extensible. cbn [xtX xtY xtZ xtT1 xtT2]. fsteps. apply okp_ret. cbn [xtX xtY xtZ xtT1 xtT2].
    unfold is_val, dbl_num. cbn [fst snd]. fvals. auto 10.
  - intros R (VX' & VY' & VZ' & T1 & T2). unfold xt_to_extended. fsteps. apply okp_ret. cbn [twX twY twZ twT]. auto.
Qed.
Lemma tw_affine_num : forall P x y, is_val B (twX P) x -> is_val B (twY P) y -> is_val B (twZ P) 1 ->
  okp (tw_to_affine B P) (fun A => is_val B (twAx A) x /\ is_val B (twAy A) y).
Proof.
  intros P x y [TX VX] [TY VY] [TZ VZ]. pose proof L as L'. unfold tw_to_affine. fsteps. apply okp_ret. cbn [twAx twAy]. unfold is_val. fvals.
  rewrite finv_one. split; (split; [assumption|ring]).
Qed.
Lemma ed_affine_num : forall P x y, is_val B (edX P) x -> is_val B (edY P) y -> is_val B (edZ P) 1 ->
  okp (ed_to_affine B P) (fun A => is_val B (edAx A) x /\ is_val B (edAy A) y).
Proof.
  intros P x y [TX VX] [TY VY] [TZ VZ]. pose proof L as L'. unfold ed_to_affine. fsteps. apply okp_ret. cbn [edAx edAy]. unfold is_val. fvals.
  rewrite finv_one. split; (split; [assumption|ring]).
Qed.
Lemma pass_isogeny_twisted : pass (test_isogeny_twisted B).
Proof.
  pose proof (l_one B L) as V1. unfold test_isogeny_twisted.
  apply (okp_bind _ _ (fun P => is_val B (twX P) (of_Z new_x) /\ is_val B (twY P) (of_Z new_y) /\ is_val B (twZ P) 1 /\ fe_tight B (twT P))).
  { unfold tw_point. eapply okp_bind; [apply (hex_ok new_x); split; vm_compute; [intro X; discriminate X|reflexivity]|]. intros x [Tx Vx].
    eapply okp_bind; [apply (hex_ok new_y); split; vm_compute; [intro X; discriminate X|reflexivity]|]. intros y [Ty Vy].
    pose proof L as L'. unfold twa_to_extended, twa_to_extensible, xt_to_extended. cbn [xtX xtY xtZ xtT1 xtT2 twAx twAy]. fsteps. apply okp_ret.
    cbn [twX twY twZ twT]. unfold is_val. auto. }
  intros P (PX & PY & PZ & PT).
  apply (okp_bind _ _ (fun U => is_val B (edX U) iso_x /\ is_val B (edY U) iso_y /\ is_val B (edZ U) 1)).
  { unfold tw_to_untwisted. by_op (tw_affine_num P _ _ PX PY PZ) as A HA. destruct HA as [Ax Ay].
    eapply okp_bind; [exact (isogeny_ok B L _ _ _ _ _ _ (proj1 (l_minus_one B L)) (proj2 (l_minus_one B L)) Ax Ay)|].
    intros [[nx ny] t] (Ex & Ey & _). rewrite (proj1 iso_num) in Ex. rewrite (proj2 iso_num) in Ey. apply okp_ret. cbn [edX edY edZ]. auto. }
  intros U (UX & UY & UZ).
  apply (okp_bind _ _ (fun T => is_val B (twX T) back_x /\ is_val B (twY T) back_y /\ is_val B (twZ T) 1)).
  { unfold ed_to_twisted. by_op (ed_affine_num U _ _ UX UY UZ) as A HA. destruct HA as [Ax Ay].
    eapply okp_bind; [exact (isogeny_ok B L _ _ _ _ _ _ (l_loose B L _ (proj1 V1)) (proj2 V1) Ax Ay)|].
    intros [[nx ny] t] (Ex & Ey & _). rewrite (proj1 back_num) in Ex. rewrite (proj2 back_num) in Ey. apply okp_ret. cbn [twX twY twZ]. auto. }
  intros T (TX & TY & TZ).
  by_op (tw_double_num P _ _ _ PX PY PZ PT) as d Hd. destruct Hd as (DX & DY & DZ & DT). by_op (tw_double_num d _ _ _ DX DY DZ DT) as e He.
  destruct He as (EX & EY & EZ & _). rewrite <- !surjective_pairing in EX, EY, EZ. fold twice_num in EX, EY, EZ.
  destruct TX as [T1 W1], TY as [T2 W2], TZ as [T3 W3], EX as [T4 W4], EY as [T5 W5], EZ as [T6 W6].
  unfold tw_eq. apply assert_pass. cbn [bind]. pose proof L as L'. unfold tw_ct_eq. fsteps. apply okp_ret. fvals.
  rewrite (proj1 twice_eq), (proj2 twice_eq). reflexivity.
Qed.
Local Transparent tw_rep ed_rep.
Lemma pass_on_curve_twisted : pass (test_is_on_curve_twisted B).
Proof.
  unfold test_is_on_curve_twisted. destruct (tw_of_rep B _ _ (tw_generator_rep B S)) as [V E].
  assert (A : tw_is_on_curve B (tw_generator B) = Ok true).
  { destruct (tw_generator_rep B S) as (T & [O _] & NZ & EX & EY & ET). destruct (extended_test B S _ T NZ) as (b & -> & Hb). apply (f_equal (@Ok bool)).
    apply Hb. rewrite E, ET, EX, EY. split; [|exact O]. generalize (fst D) (snd D) (fv B (twZ (tw_generator B))). intros a b0 c. ring. }
  rewrite A. cbn [assert bind].
  destruct (ed_generator_rep B L) as ((TX & TY & TZ & TT) & _ & NZ & EX & EY & ET).
  destruct (extended_test B S (mkTw (edX (ed_generator B)) (edY (ed_generator B)) (edZ (ed_generator B)) (edT (ed_generator B)))) as (b & Eb & Hb).
  { cbn [twX twY twZ twT]. auto. } { exact NZ. }
  apply assert_not_false. rewrite Eb. destruct b; [|reflexivity]. exfalso. destruct (proj1 Hb eq_refl) as [_ O]. revert O.
  unfold tw_affine. cbn [twX twY twZ]. rewrite EX, EY, G_pair. cbn [fst snd].
  replace (Gx * fv B (edZ (ed_generator B)) / fv B (edZ (ed_generator B))) with Gx by (field; exact NZ).
  replace (Gy * fv B (edZ (ed_generator B)) / fv B (edZ (ed_generator B))) with Gy by (field; exact NZ).
  exact G_off.
Qed.
Lemma pass_vectors : pass (test_vectors_lib_decaf B).
Proof. exact (vector_pass _ _ _ (tw_identity_rep B L) vectors_ok). Qed.
End Curve.

Theorem curve_pass : forall B, shipped B -> Forall (fun t => t = Ok tt) (tests_curve B).
Proof.
  intros B S. unfold tests_curve. repeat (apply Forall_cons; [apply pass_ok|]); [..|apply Forall_nil].
  - exact (pass_montgomery B S).
  - exact (pass_conditional_negate B S).
  - exact (pass_isogeny_twisted B S).
  - exact (pass_on_curve_twisted B S).
  - exact (pass_point_add B S).
  - exact (pass_point_sub B S).
  - exact (pass_negate_twisted B S).
  - exact (pass_negation B S).
  - exact (pass_lookup B S).
  - exact (pass_scalar_mul B S).
  - exact (pass_simple B S).
  - exact (pass_isogeny B S).
  - exact (pass_derive B S).
  - exact (pass_is_on_curve B S).
  - exact (pass_compress_decompress B S).
  - exact (pass_decompress_compress B S).
  - exact (pass_just_decompress B S).
  - exact (pass_torsion_free B S).
  - exact (pass_ristretto B S).
  - exact (pass_identity B S).
  - exact (pass_vectors B S).
Qed.
(** The transcribed tests can fail: a wrong vector makes the loop of the last one panic. *)
Theorem vector_fail : forall B, shipped B -> forall b, b <> repeat 0%Z 56 -> vector_loop B [b] (dc_identity B) (dc_generator B) = Panic.
Proof.
  intros B S b N. cbn [vector_loop]. change (dc_identity B) with (tw_identity B). rewrite (decaf_encoding B S _ _ (tw_identity_rep B (shipped_laws B S))), encode_zero.
  cbn [bind]. unfold cd_eq. destruct (list_eqb (repeat 0%Z 56) b) eqn:E; [|reflexivity]. apply list_eqb_eq in E. exfalso. apply N. symmetry. exact E.
Qed.
