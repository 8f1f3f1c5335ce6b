(** Cases for C76 and C77. *)
Require Import ZArith Znumtheory List Bool Lia Ring.
From Verif Require Import Base BaseProofs Wp SpecParams SpecField SpecCurve FieldTheory EdwardsTheory CurveTheory GroupOrder FieldBackend FieldModel FieldU32Model FieldU32Proofs FieldFiatModel Backends BackendLaws
  ScalarModel ScalarProofs TwistedModel ScalarMulModel EdwardsModel PointSpec TwistedProofs EdwardsProofs EdwardsMain TwistedMain EdwardsCases
  Steps StepCurve TraceSpec ApiExpr CostSpec CostMain DecafTheory DecafGroup DocsField DocsCurve DocsMain DocsCost.
Import ListNotations.
Open Scope Z_scope.

Lemma borrow_case : is_scalar (digits 32 14 (ell - 1)) /\ ~ 2 ^ 448 + ell <= sval (digits 32 14 (ell - 1)) + sval (digits 32 14 (ell - 1)).
Proof. destruct (digits_scalar (ell - 1)) as [H E]; [split; [discriminate|reflexivity]|]. split; [exact H|]. rewrite E. intro K. apply K. reflexivity. Qed.
Lemma limbs_case : wf28 (repeat (2 ^ 28 + 511) 16) /\ 2 ^ 448 < val28 (repeat (2 ^ 28 + 511) 16).
Proof. split; [split; [reflexivity|repeat constructor; vm_compute; congruence]|]. vm_compute. reflexivity. Qed.
Lemma ratio_case : shipped u32_backend /\ fe_tight u32_backend zero28 /\ fv u32_backend zero28 = of_Z 0 /\ fe_tight u32_backend one28 /\ fv u32_backend one28 <> of_Z 0.
Proof.
  pose proof (shipped_laws _ shipped_u32) as L. split; [exact shipped_u32|]. destruct (l_zero _ L) as [T0 V0]. destruct (l_one _ L) as [T1 V1].
  split; [exact T0|]. split; [exact V0|]. split; [exact T1|]. change (fv u32_backend (fe_one u32_backend) <> of_Z 0). rewrite V1. exact F_1_neq_0.
Qed.
Lemma chain_length : forall B, shipped B -> forall (a : fe (tagged B)), fe_tight B (fst a) ->
  exists c, costs (fe_invertS _ _ (field_machine B) a) c /\ (muls c + squares c = 460)%N.
Proof. intros B S a Ha. eexists. split; [exact (cost_invert B S a Ha)|reflexivity]. Qed.
Open Scope F_scope.
Local Opaque fadd fsub fmul fopp fdiv finv fpow of_Z padd pmul zmul pzero SpecCurve.G D ell.
Lemma torsion_case : forall B, shipped B -> exists P, ed_valid B P /\ pmul ed_a ed_d (2 * ell) (ed_affine B P) <> pzero.
Proof.
  intros B S. destruct (t4_valid B S) as [V A]. exists (t4_point B). split; [exact V|]. rewrite A. change (of_Z 1, of_Z 0) with T4. Local Opaque T4. intro E.
  pose proof ell_nonneg as E0. rewrite (pmul_mul _ _ _ ed_group) in E by (lia || exact on_T4).
  assert (EO : exists k, (0 <= k)%Z /\ ell = (k * 4 + 3)%Z). { exists (ell / 4)%Z. split; [apply Z.div_pos; lia|]. Local Transparent ell. vm_compute. reflexivity. }
  Local Opaque ell. destruct EO as (k & Hk & EK). rewrite EK in E. rewrite (pmul_add _ _ _ ed_group) in E by (lia || exact on_T4). rewrite (pmul_mul _ _ _ ed_group k) in E by (lia || exact on_T4).
  rewrite T4_4, pmul_zero, padd_0_l in E by lia. rewrite <- (pmul_mul _ _ _ ed_group) in E by (lia || exact on_T4). change (2 * 3)%Z with (4 + 2)%Z in E.
  rewrite (pmul_add _ _ _ ed_group) in E by (lia || exact on_T4).
  rewrite T4_4, padd_0_l in E. exact (T4_order 2 ltac:(lia) E).
Qed.
Lemma twisted_case : forall B, shipped B -> tw_valid B (tw_generator B).
Proof. intros B S. exact (proj1 (tw_gen_valid B S)). Qed.
Lemma comment_equation_refuted : exists x y, on_curve ed_a ed_d (x, y) /\ y * y + x * x <> 1 - ed_d * (x * x * (y * y)).
Proof.
  exists Gx, Gy. split; [exact on_G|]. intro E. apply (comment_equation_ed Gx Gy on_G) in E. destruct E as [E|E]; revert E; [unfold Gx|unfold Gy]; apply of_Z_small_nonzero; (split; [reflexivity|vm_compute; reflexivity]).
Qed.
Lemma cost_8M : forall B, shipped B -> forall (P : XtPoint (tagged B)) (N : PNiels (tagged B)) R,
  xt_valid B (field_values (s := TXt) P) -> pn_rep B (field_values (s := TPn) N) R ->
  costs (xt_add_projective_nielsS _ _ (field_machine B) P N) (mkCost 8 0 3 3 0 0 0).
Proof. intros B S P N R V HN. apply (cost_add_pn B S P N (xt_affine B (field_values (s := TXt) P)) R); [apply xt_rep_iff; split; [exact V|reflexivity]|exact HN]. Qed.
Lemma cost_case : forall B, shipped B -> exists (P : XtPoint (tagged B)) (N : PNiels (tagged B)), xt_valid B (field_values (s := TXt) P) /\ pn_rep B (field_values (s := TPn) N) D.
Proof.
  intros B S. pose proof (shipped_laws B S) as L. pose proof (tw_to_extensible_ok B L _ _ (tw_generator_rep B S)) as HX. destruct (xt_to_projective_niels_ok B L _ _ HX) as (N & _ & HN).
  set (P := tw_to_extensible B (tw_generator B)) in *. pose (s := SIn 0).
  exists (@mkXt (tagged B) (xtX P, s) (xtY P, s) (xtZ P, s) (xtT1 P, s) (xtT2 P, s)), (@mkPN (tagged B) (pnYpX N, s) (pnYmX N, s) (pnTd N, s) (pnZ N, s)).
  split; [|exact HN]. exact (proj1 (proj1 (xt_rep_iff B _ _) HX)).
Qed.
