(** Affine points of the twisted curve, the curve membership tests and cached affine points. *)
Require Import ZArith List Bool Lia Ring Field.
From Verif Require Import Base BaseProofs SpecParams SpecField SpecCurve FieldTheory FieldBackend FieldModel Backends BackendLaws
  FieldProofs Wp EdwardsTheory CurveTheory TwistedModel PointSpec TwistedProofs EdwardsMain TwistedMain.
Import ListNotations.
Open Scope F_scope.
Open Scope res_scope.
Local Opaque fadd fsub fmul fopp fdiv finv fpow of_Z padd pzero D Dx Dy.

Lemma fcomm : forall a b : F, a * b = b * a. Proof. intros a b. ring. Qed.
(** The curve equation in extended coordinates. *)
Lemma on_tw_proj : forall x y t z, z <> 0 -> t * z = x * y ->
  (y * y - x * x = z * z + t * t * tw_d <-> on_curve tw_a tw_d (x / z, y / z)).
Proof.
  intros x y t z N H. unfold on_curve. assert (Nzz : z * z <> 0) by (apply fmul_nonzero; assumption).
  assert (A : t * t * (z * z) = x * x * (y * y)). { transitivity (t * z * (t * z)); [ring|]. rewrite H. ring. }
  assert (K : (tw_a * (x / z * (x / z)) + y / z * (y / z)) * (z * z) = y * y - x * x) by (unfold tw_a; field; exact N).
  assert (K' : (1 + tw_d * (x / z * (x / z)) * (y / z * (y / z))) * (z * z) = z * z + t * t * tw_d).
  { transitivity (z * z + tw_d * (x * x * (y * y)) / (z * z)); [field; exact N|]. rewrite <- A. field. exact N. }
  split; intro E.
  - apply (fmul_cancel_l (z * z)); [exact Nzz|]. rewrite (fcomm (z * z)), K, (fcomm (z * z)), K'. exact E.
  - rewrite <- K, <- K', E. reflexivity.
Qed.

Section Affine.
Variable B : backend.
Hypothesis S : shipped B.
Let L := shipped_laws B S.
Local Notation fv := (fv B).
Local Notation tight := (fe_tight B).

Theorem extended_test : forall P, (tight (twX P) /\ tight (twY P) /\ tight (twZ P) /\ tight (twT P)) -> fv (twZ P) <> 0 ->
  exists b, tw_is_on_curve B P = Ok b /\
    (b = true <-> fv (twT P) * fv (twZ P) = fv (twX P) * fv (twY P) /\ on_curve tw_a tw_d (tw_affine B P)).
Proof.
  intros P (TX & TY & TZ & TT) NZ. change (okp (tw_is_on_curve B P) (fun b => b = true <-> fv (twT P) * fv (twZ P) = fv (twX P) * fv (twY P) /\ on_curve tw_a tw_d (tw_affine B P))).
  pose proof L as L'. unfold tw_is_on_curve. fsteps. unfold tw_affine.
  pose proof (on_tw_proj (fv (twX P)) (fv (twY P)) (fv (twT P)) (fv (twZ P)) NZ) as K.
  fvals. fconsts. destruct (feqb (fv (twX P) * fv (twY P)) (fv (twZ P) * fv (twT P))) eqn:E1.
  - apply feqb_eq in E1. rewrite (ct_eq_ok B L) by assumption. eexists. split; [reflexivity|].
    fvals. fconsts. rewrite feqb_eq. assert (HT : fv (twT P) * fv (twZ P) = fv (twX P) * fv (twY P)) by (rewrite E1; ring).
    rewrite (K HT). tauto.
  - eexists. split; [reflexivity|]. split; [discriminate|]. intros (HT & _). exfalso.
    assert (E2 : fv (twX P) * fv (twY P) = fv (twZ P) * fv (twT P)) by (rewrite <- HT; ring). apply feqb_eq in E2. rewrite E2 in E1. discriminate E1.
Qed.
Theorem affine_test : forall A, tight (twAx A) -> tight (twAy A) ->
  exists b, twa_is_on_curve B A = Ok b /\ (b = true <-> on_curve tw_a tw_d (twa_affine B A)).
Proof.
  intros A TX TY. change (okp (twa_is_on_curve B A) (fun b => b = true <-> on_curve tw_a tw_d (twa_affine B A))).
  pose proof L as L'. unfold twa_is_on_curve. fsteps. rewrite (ct_eq_ok B L) by assumption. eexists. split; [reflexivity|].
  fvals. fconsts. rewrite feqb_eq. unfold twa_affine, on_curve, tw_a. split; intro E.
  - transitivity (fv (twAy A) * fv (twAy A) - fv (twAx A) * fv (twAx A)); [ring|]. rewrite E. ring.
  - transitivity (- (1) * (fv (twAx A) * fv (twAx A)) + fv (twAy A) * fv (twAy A)); [ring|]. rewrite E. ring.
Qed.

Lemma twa_even : forall A, twa_valid B A -> even_tw (twa_affine B A). Proof. intros A (_ & H). exact H. Qed.
Lemma twa_intro : forall A Q, is_val B (twAx A) (fst Q) -> is_val B (twAy A) (snd Q) -> even_tw Q -> twa_valid B A /\ twa_affine B A = Q.
Proof.
  intros A [x y] [T1 V1] [T2 V2] E. cbn [fst snd] in *.
  assert (K : twa_affine B A = (x, y)) by (unfold twa_affine; rewrite V1, V2; reflexivity). split; [|exact K].
  split; [split; assumption|]. rewrite K. exact E.
Qed.
Theorem affine_identity : twa_valid B (twa_identity B) /\ twa_affine B (twa_identity B) = pzero.
Proof. apply twa_intro; [exact (l_zero B L)|exact (l_one B L)|exact even_zero]. Qed.
Theorem affine_negate : forall A, twa_valid B A -> exists R, twa_negate B A = Ok R /\ twa_valid B R /\ twa_affine B R = pneg (twa_affine B A).
Proof.
  intros A V. pose proof (twa_even A V) as E. destruct V as ((TX & TY) & _). change (okp (twa_negate B A) (fun R => twa_valid B R /\ twa_affine B R = pneg (twa_affine B A))).
  pose proof L as L'. unfold twa_negate. fsteps. apply okp_ret. apply twa_intro; cbn [twAx twAy pneg twa_affine fst snd].
  - split; [assumption|]. fvals. reflexivity.
  - split; [assumption|reflexivity].
  - exact (even_neg _ E).
Qed.
Theorem affine_add : forall A A', twa_valid B A -> twa_valid B A' ->
  exists R, twa_add B A A' = Ok R /\ twa_valid B R /\ twa_affine B R = padd tw_a tw_d (twa_affine B A) (twa_affine B A').
Proof.
  intros A A' V V'. pose proof (twa_even A V) as E. pose proof (twa_even A' V') as E'. destruct V as ((TX & TY) & _). destruct V' as ((TX' & TY') & _).
  change (okp (twa_add B A A') (fun R => twa_valid B R /\ twa_affine B R = padd tw_a tw_d (twa_affine B A) (twa_affine B A'))).
  pose proof (even_add _ _ E E') as ES. pose proof L as L'. unfold twa_add. fsteps. apply okp_ret. apply twa_intro; [| |exact ES]; cbn [twAx twAy]; unfold twa_affine; rewrite padd_unf; cbn [fst snd].
  - split; [assumption|]. fvals. fconsts. reflexivity.
  - split; [assumption|]. fvals. fconsts. rewrite (Fdiv_def F_field). apply (f_equal2 fmul); [unfold tw_a; ring|reflexivity].
Qed.
Theorem affine_eq : forall A A', twa_valid B A -> twa_valid B A' ->
  exists b, twa_eq B A A' = Ok b /\ (b = true <-> twa_affine B A = twa_affine B A').
Proof.
  intros A A' ((TX & TY) & _) ((TX' & TY') & _). change (okp (twa_eq B A A') (fun b => b = true <-> twa_affine B A = twa_affine B A')).
  pose proof L as L'. unfold twa_eq. fsteps. unfold twa_affine. destruct (feqb (fv (twAx A)) (fv (twAx A'))) eqn:E1.
  - apply feqb_eq in E1. rewrite (ct_eq_ok B L) by assumption. eexists. split; [reflexivity|]. rewrite feqb_eq, E1. split; [intros ->; reflexivity|].
    intro H. exact (f_equal snd H).
  - eexists. split; [reflexivity|]. split; [discriminate|]. intro H. apply (f_equal fst) in H. cbn [fst] in H. apply feqb_eq in H. rewrite H in E1. discriminate E1.
Qed.
Theorem affine_to_extensible : forall A, twa_valid B A -> xt_valid B (twa_to_extensible B A) /\ xt_affine B (twa_to_extensible B A) = twa_affine B A.
Proof.
  intros A V. pose proof (twa_even A V) as E. destruct V as ((TX & TY) & _). apply xt_rep_iff. unfold xt_rep, twa_to_extensible. cbn [xtX xtY xtZ xtT1 xtT2].
  pose proof (l_one B L) as [T1 V1]. split; [auto|]. split; [exact E|]. rewrite V1. unfold twa_affine. cbn [fst snd].
  split; [exact F_1_neq_0|]. repeat split; ring.
Qed.
Theorem affine_to_extended : forall A, twa_valid B A -> exists R, twa_to_extended B A = Ok R /\ tw_valid B R /\ tw_affine B R = twa_affine B A.
Proof.
  intros A V. apply (tw_ex_rep B). unfold twa_to_extended. apply (xt_to_extended_ok B L). apply xt_rep_iff. exact (affine_to_extensible A V).
Qed.
Theorem extended_to_affine : forall P, tw_valid B P -> exists A, tw_to_affine B P = Ok A /\ twa_valid B A /\ twa_affine B A = tw_affine B P.
Proof.
  intros P V. pose proof (tw_valid_even B P V) as E. destruct (tw_to_affine_ok B L _ _ (tw_rep_of B P V)) as (A & EA & V1 & V2).
  exists A. split; [exact EA|]. exact (twa_intro A _ V1 V2 E).
Qed.

(** ** Cached affine points *)
Definition an_tight (N : ANiels B) : Prop := tight (anYpX N) /\ tight (anYmX N) /\ tight (anTd N).
Lemma niels_val : forall A, twa_valid B A -> okp (twa_to_affine_niels B A) (fun N => an_tight N /\ fv (anYpX N) = fv (twAy A) + fv (twAx A) /\
   fv (anYmX N) = fv (twAy A) - fv (twAx A) /\ fv (anTd N) = fv (twAx A) * fv (twAy A) * tw_d).
Proof.
  intros A ((TX & TY) & _). pose proof L as L'. unfold twa_to_affine_niels. fsteps. apply okp_ret. unfold an_tight. cbn [anYpX anYmX anTd]. fvals. fconsts. auto 10.
Qed.
Lemma an_equals_val : forall N N', an_tight N -> an_tight N' -> okp (an_equals B N N') (fun b => b = true <->
  fv (anYmX N) = fv (anYmX N') /\ fv (anYpX N) = fv (anYpX N') /\ fv (anTd N) = fv (anTd N')).
Proof.
  intros N N' (T1 & T2 & T3) (T1' & T2' & T3'). pose proof L as L'. unfold an_equals. fsteps. destruct (feqb (fv (anYmX N)) (fv (anYmX N'))) eqn:E1; cbn [negb].
  2:{ apply okp_ret. split; [discriminate|]. intros (H & _). apply feqb_eq in H. rewrite H in E1. discriminate E1. }
  fsteps. destruct (feqb (fv (anYpX N)) (fv (anYpX N'))) eqn:E2; cbn [negb].
  2:{ apply okp_ret. split; [discriminate|]. intros (_ & H & _). apply feqb_eq in H. rewrite H in E2. discriminate E2. }
  rewrite (ct_eq_ok B L) by assumption. eexists. split; [reflexivity|]. apply feqb_eq in E1, E2. rewrite feqb_eq. tauto.
Qed.
Theorem niels_equals : forall A A', twa_valid B A -> twa_valid B A' ->
  exists b, (n <- twa_to_affine_niels B A ;; n' <- twa_to_affine_niels B A' ;; an_equals B n n') = Ok b /\ (b = true <-> twa_affine B A = twa_affine B A').
Proof.
  intros A A' V V'. change (okp (n <- twa_to_affine_niels B A ;; n' <- twa_to_affine_niels B A' ;; an_equals B n n') (fun b => b = true <-> twa_affine B A = twa_affine B A')).
  eapply okp_bind; [exact (niels_val A V)|]. intros N (T & E1 & E2 & E3). eapply okp_bind; [exact (niels_val A' V')|]. intros N' (T' & E1' & E2' & E3').
  eapply okp_weaken; [exact (an_equals_val N N' T T')|]. intros b Hb. rewrite Hb, E1, E2, E3, E1', E2', E3'. unfold twa_affine.
  generalize (fv (twAx A)) (fv (twAy A)) (fv (twAx A')) (fv (twAy A')). intros x y x' y'. split.
  - intros (H1 & H2 & _). assert (X : of_Z 2 * x = of_Z 2 * x') by (transitivity (y + x - (y - x)); [ring|rewrite H1, H2; ring]).
    assert (Y : of_Z 2 * y = of_Z 2 * y') by (transitivity (y + x + (y - x)); [ring|rewrite H1, H2; ring]).
    apply fmul_cancel_l in X; [|exact F_2_neq_0]. apply fmul_cancel_l in Y; [|exact F_2_neq_0]. rewrite X, Y. reflexivity.
  - intro H. pose proof (f_equal fst H) as X. pose proof (f_equal snd H) as Y. cbn [fst snd] in X, Y. rewrite X, Y. auto.
Qed.
Theorem niels_identity : (n <- twa_to_affine_niels B (twa_identity B) ;; an_equals B n (an_identity B)) = Ok true.
Proof.
  apply okp_eq. eapply okp_bind; [exact (niels_val _ (proj1 affine_identity))|]. intros N (T & E1 & E2 & E3).
  pose proof (l_one B L) as [T1 V1]. pose proof (l_zero B L) as [T0 V0].
  eapply okp_weaken; [apply (an_equals_val N (an_identity B) T); unfold an_tight, an_identity; cbn [anYpX anYmX anTd]; auto|].
  intros b Hb. apply Hb. rewrite E1, E2, E3. unfold an_identity, twa_identity. cbn [anYpX anYmX anTd twAx twAy]. rewrite V1, V0. repeat split; ring.
Qed.
Theorem niels_select : forall N N' c, an_tight N -> an_tight N' -> an_select B N N' c = Ok (if c then N' else N).
Proof.
  intros [a b d] [a' b' d'] c (T1 & T2 & T3) (T1' & T2' & T3'). cbn [anYpX anYmX anTd] in *. unfold an_select. cbn [anYpX anYmX anTd].
  rewrite !(l_select B L) by assumption. cbn [bind]. destruct c; reflexivity.
Qed.

(** A witness for the hypotheses: the base point. *)
Theorem base_affine : exists A, tw_to_affine B (tw_generator B) = Ok A /\ twa_valid B A /\ twa_affine B A = D /\ twa_is_on_curve B A = Ok true.
Proof.
  destruct (tw_of_rep B _ _ (tw_generator_rep B S)) as [V E]. destruct (extended_to_affine _ V) as (A & EA & VA & EQ). exists A.
  split; [exact EA|]. split; [exact VA|]. split; [rewrite EQ; exact E|]. destruct (affine_test A (proj1 (proj1 VA)) (proj2 (proj1 VA))) as (b & -> & Hb).
  apply (f_equal (@Ok bool)). apply Hb. exact (proj1 (proj2 VA)).
Qed.
End Affine.

(** ** Together *)
Theorem affine_group : forall B, shipped B -> forall A A', twa_valid B A -> twa_valid B A' ->
  (exists R, twa_add B A A' = Ok R /\ twa_valid B R /\ twa_affine B R = padd tw_a tw_d (twa_affine B A) (twa_affine B A')) /\
  (exists R, twa_negate B A = Ok R /\ twa_valid B R /\ twa_affine B R = pneg (twa_affine B A)) /\
  (exists b, twa_eq B A A' = Ok b /\ (b = true <-> twa_affine B A = twa_affine B A')) /\
  twa_valid B (twa_identity B) /\ twa_affine B (twa_identity B) = pzero.
Proof.
  intros B S A A' V V'. split; [exact (affine_add B S A A' V V')|]. split; [exact (affine_negate B S A V)|].
  split; [exact (affine_eq B S A A' V V')|]. exact (affine_identity B S).
Qed.
Theorem affine_conversions : forall B, shipped B ->
  (forall A, twa_valid B A ->
    xt_valid B (twa_to_extensible B A) /\ xt_affine B (twa_to_extensible B A) = twa_affine B A /\
    exists R, twa_to_extended B A = Ok R /\ tw_valid B R /\ tw_affine B R = twa_affine B A) /\
  (forall P, tw_valid B P -> exists A, tw_to_affine B P = Ok A /\ twa_valid B A /\ twa_affine B A = tw_affine B P).
Proof.
  intros B S. split; [|exact (extended_to_affine B S)]. intros A V. destruct (affine_to_extensible B S A V) as [H1 H2].
  split; [exact H1|]. split; [exact H2|]. exact (affine_to_extended B S A V).
Qed.
Theorem curve_tests : forall B, shipped B ->
  (forall A, fe_tight B (twAx A) -> fe_tight B (twAy A) ->
    exists b, twa_is_on_curve B A = Ok b /\ (b = true <-> on_curve tw_a tw_d (twa_affine B A))) /\
  (forall P, fe_tight B (twX P) /\ fe_tight B (twY P) /\ fe_tight B (twZ P) /\ fe_tight B (twT P) -> fv B (twZ P) <> 0 ->
    exists b, tw_is_on_curve B P = Ok b /\
      (b = true <-> fv B (twT P) * fv B (twZ P) = fv B (twX P) * fv B (twY P) /\ on_curve tw_a tw_d (tw_affine B P))).
Proof. intros B S. split; [exact (affine_test B S)|exact (extended_test B S)]. Qed.
Theorem cached_affine : forall B, shipped B ->
  (forall A A', twa_valid B A -> twa_valid B A' ->
    exists b, (n <- twa_to_affine_niels B A ;; n' <- twa_to_affine_niels B A' ;; an_equals B n n') = Ok b /\
      (b = true <-> twa_affine B A = twa_affine B A')) /\
  (forall A A' c, twa_valid B A -> twa_valid B A' ->
    exists n n', twa_to_affine_niels B A = Ok n /\ twa_to_affine_niels B A' = Ok n' /\
      an_select B n n' c = Ok (if c then n' else n)) /\
  (n <- twa_to_affine_niels B (twa_identity B) ;; an_equals B n (an_identity B)) = Ok true.
Proof.
  intros B S. split; [exact (niels_equals B S)|]. split; [|exact (niels_identity B S)]. intros A A' c V V'.
  destruct (niels_val B S A V) as (n & E & T & _). destruct (niels_val B S A' V') as (n' & E' & T' & _). exists n, n'.
  split; [exact E|]. split; [exact E'|]. exact (niels_select B S n n' c T T').
Qed.
Lemma off_curve : ~ on_curve tw_a tw_d (1, 1).
Proof.
  unfold on_curve. intro H. apply feqb_eq in H. revert H. Local Transparent fadd fsub fmul fopp of_Z. vm_compute. discriminate.
Qed.
Theorem affine_case : forall B, shipped B ->
  (exists A, tw_to_affine B (tw_generator B) = Ok A /\ twa_valid B A /\ twa_affine B A = D /\ twa_is_on_curve B A = Ok true) /\
  twa_is_on_curve B {| twAx := fe_one B; twAy := fe_one B |} = Ok false.
Proof.
  intros B S. split; [exact (base_affine B S)|]. pose proof (shipped_laws B S) as L. destruct (l_one B L) as [T1 V1].
  destruct (affine_test B S {| twAx := fe_one B; twAy := fe_one B |} T1 T1) as (b & E & H). rewrite E. apply (f_equal (@Ok bool)).
  destruct b; [|reflexivity]. exfalso. apply off_curve. pose proof (proj1 H eq_refl) as K. unfold twa_affine in K. cbn [twAx twAy] in K. rewrite V1 in K. exact K.
Qed.
