(** Proofs for C89: what the tests [is_on_curve] accept, for arbitrary coordinates. *)
Require Import ZArith List Bool Lia Ring Field.
From Verif Require Import Base BaseProofs SpecParams SpecField SpecCurve FieldTheory FieldBackend FieldModel Backends BackendLaws
  FieldProofs Wp EdwardsTheory CurveTheory TwistedModel EdwardsModel PointSpec TwistedProofs EdwardsProofs EdwardsMain TwistedMain AffineFacts EdwardsCases.
Import ListNotations.
Open Scope F_scope.
Open Scope res_scope.
Local Opaque fadd fsub fmul fopp fdiv finv fpow of_Z padd pzero.

(** A square that is a non-square times a square is zero. *)
Lemma nsq_zero : forall n a t, ~ is_square n -> a * a = t * t * n -> a = 0 /\ t = 0.
Proof.
  intros n a t N E. assert (T0 : t = 0).
  { destruct (F_eq_dec t 0) as [Z|NT]; [exact Z|]. exfalso. apply N. exists (a / t). transitivity (a * a / (t * t)); [field; exact NT|]. rewrite E. field. exact NT. }
  split; [|exact T0]. rewrite T0 in E. assert (Z : a * a = 0) by (rewrite E; ring). apply fmul_integral in Z. destruct Z; assumption.
Qed.

Lemma one_over : 1 / 1 = 1. Proof. field. exact F_1_neq_0. Qed.

Section Checks.
Variable B : backend.
Hypothesis S : shipped B.
Let L := shipped_laws B S.
Local Notation fv := (fv B).
Local Notation tight := (fe_tight B).

Theorem ed_check : forall P, tight (edX P) /\ tight (edY P) /\ tight (edZ P) /\ tight (edT P) ->
  exists b, ed_is_on_curve B P = Ok b /\
    (b = true <-> ed_valid B P \/ fv (edX P) = 0 /\ fv (edY P) = 0 /\ fv (edZ P) = 0 /\ fv (edT P) = 0).
Proof.
  intros P H. destruct (F_eq_dec (fv (edZ P)) 0) as [Z0|NZ].
  - destruct H as (TX & TY & TZ & TT). pose proof L as L'.
    change (okp (ed_is_on_curve B P) (fun b => b = true <-> ed_valid B P \/ fv (edX P) = 0 /\ fv (edY P) = 0 /\ fv (edZ P) = 0 /\ fv (edT P) = 0)).
    unfold ed_is_on_curve. fsteps. fvals. fconsts. rewrite ?Z0.
    destruct (feqb (fv (edX P) * fv (edY P)) (0 * fv (edT P))) eqn:E1.
    + apply feqb_eq in E1. assert (M : fv (edX P) * fv (edY P) = 0) by (rewrite E1; ring). clear E1. rewrite (ct_eq_ok B L) by assumption. eexists. split; [reflexivity|].
      fvals. fconsts. rewrite ?Z0, feqb_eq. split.
      * intro E. right. apply fmul_integral in M. destruct M as [M|M]; rewrite M in *.
        -- destruct (nsq_zero ed_d (fv (edY P)) (fv (edT P)) nsq_ed_d) as [K1 K2]; [|auto].
           transitivity (fv (edY P) * fv (edY P) + 0 * 0); [ring|]. rewrite E. ring.
        -- destruct (nsq_zero ed_d (fv (edX P)) (fv (edT P)) nsq_ed_d) as [K1 K2]; [|auto].
           transitivity (0 * 0 + fv (edX P) * fv (edX P)); [ring|]. rewrite E. ring.
      * intros [V|(X0 & Y0 & _ & T0)]; [destruct V as (_ & NZ & _); contradiction|]. rewrite X0, Y0, T0. ring.
    + eexists. split; [reflexivity|]. split; [discriminate|]. intros [V|(X0 & Y0 & _ & T0)]; [destruct V as (_ & NZ & _); contradiction|]. exfalso.
      assert (K : fv (edX P) * fv (edY P) = 0 * fv (edT P)) by (rewrite X0; ring). apply feqb_eq in K. rewrite K in E1. discriminate E1.
  - destruct (ed_is_on_curve_ok B L P H NZ) as (b & E & K). exists b. split; [exact E|]. rewrite K. split; [auto|]. intros [V|(_ & _ & Z0 & _)]; [exact V|contradiction].
Qed.

Theorem tw_check : forall P, tight (twX P) /\ tight (twY P) /\ tight (twZ P) /\ tight (twT P) ->
  exists b, tw_is_on_curve B P = Ok b /\
    (b = true <->
      (fv (twZ P) <> 0 /\ fv (twT P) * fv (twZ P) = fv (twX P) * fv (twY P) /\ on_curve tw_a tw_d (tw_affine B P)) \/
      (fv (twZ P) = 0 /\ fv (twX P) = 0 /\ fv (twY P) * fv (twY P) = tw_d * (fv (twT P) * fv (twT P)))).
Proof.
  intros P H. destruct (F_eq_dec (fv (twZ P)) 0) as [Z0|NZ].
  - destruct H as (TX & TY & TZ & TT). pose proof L as L'.
    change (okp (tw_is_on_curve B P) (fun b => b = true <->
      (fv (twZ P) <> 0 /\ fv (twT P) * fv (twZ P) = fv (twX P) * fv (twY P) /\ on_curve tw_a tw_d (tw_affine B P)) \/
      (fv (twZ P) = 0 /\ fv (twX P) = 0 /\ fv (twY P) * fv (twY P) = tw_d * (fv (twT P) * fv (twT P))))).
    unfold tw_is_on_curve. fsteps. fvals. fconsts. rewrite ?Z0.
    destruct (feqb (fv (twX P) * fv (twY P)) (0 * fv (twT P))) eqn:E1.
    + apply feqb_eq in E1. assert (M : fv (twX P) * fv (twY P) = 0) by (rewrite E1; ring). clear E1. rewrite (ct_eq_ok B L) by assumption. eexists. split; [reflexivity|].
      fvals. fconsts. rewrite ?Z0, feqb_eq. split.
      * intro E. right. split; [reflexivity|]. apply fmul_integral in M. destruct M as [M|M]; rewrite M in *.
        -- split; [reflexivity|]. transitivity (fv (twY P) * fv (twY P) - 0 * 0); [ring|]. rewrite E. ring.
        -- destruct (nsq_zero (- tw_d) (fv (twX P)) (fv (twT P)) nsq_m_tw_d) as [K1 K2].
           { transitivity (- (0 * 0 - fv (twX P) * fv (twX P))); [ring|]. rewrite E. ring. }
           split; [exact K1|]. rewrite K2. ring.
      * intros [(NZ & _)|(_ & X0 & E)]; [exfalso; apply NZ; reflexivity|]. rewrite X0, E. ring.
    + eexists. split; [reflexivity|]. split; [discriminate|]. intros [(NZ & _)|(_ & X0 & E)]; [exfalso; apply NZ; reflexivity|]. exfalso.
      assert (K : fv (twX P) * fv (twY P) = 0 * fv (twT P)) by (rewrite X0; ring). apply feqb_eq in K. rewrite K in E1. discriminate E1.
  - destruct (extended_test B S P H NZ) as (b & E & K). exists b. split; [exact E|]. rewrite K. split; [intros [A C]; left; auto|].
    intros [(_ & A & C)|(Z0 & _)]; [auto|contradiction].
Qed.

(** Coordinates that pass and stand for no point. *)
Theorem ed_zeros : let z := fe_zero B in ed_is_on_curve B (mkEd z z z z) = Ok true /\ ~ ed_valid B (mkEd z z z z).
Proof.
  cbv zeta. destruct (l_zero B L) as [T0 V0]. split.
  - destruct (ed_check (mkEd (fe_zero B) (fe_zero B) (fe_zero B) (fe_zero B))) as (b & -> & K); [cbn [edX edY edZ edT]; auto|]. f_equal. apply K. right. cbn [edX edY edZ edT]. rewrite V0. auto.
  - intros (_ & N & _). cbn [edZ] in N. contradiction.
Qed.
(** [tw_inf c]: the point at infinity of the twisted curve, by a square root c of tw_d. *)
Theorem tw_infinity : exists Y, tight Y /\ fv Y <> 0 /\ fv Y * fv Y = tw_d /\ tw_is_on_curve B (mkTw (fe_zero B) Y (fe_zero B) (fe_one B)) = Ok true.
Proof.
  destruct sq_m39082 as [c Hc]. change (of_Z (-39082)) with tw_d in Hc.
  assert (Hb : bytes 56 (le_bytes 56 (fval c))) by (apply digits_array; lia).
  destruct (l_from B L _ Hb) as (Y & _ & TY & VY). assert (V : fv Y = c).
  { rewrite VY. rewrite le_val_canon. apply of_Z_fval. }
  destruct (l_zero B L) as [T0 V0]. destruct (l_one B L) as [T1 V1].
  exists Y. split; [exact TY|]. rewrite V. split; [intros ->; apply nz_tw_d; rewrite <- Hc; ring|]. split; [exact Hc|].
  destruct (tw_check (mkTw (fe_zero B) Y (fe_zero B) (fe_one B))) as (b & -> & K); [cbn [twX twY twZ twT]; auto|]. f_equal. apply K. right. cbn [twX twY twZ twT]. rewrite V0, V, V1, Hc.
  split; [reflexivity|]. split; [reflexivity|]. ring.
Qed.
End Checks.
Lemma off_ed : ~ on_curve ed_a ed_d (1, 1).
Proof.
  unfold on_curve. intro H. apply feqb_eq in H. revert H. Local Transparent fadd fsub fmul fopp of_Z. vm_compute. discriminate.
Qed.
Local Opaque fadd fsub fmul fopp of_Z.
Theorem checks_case : forall B, shipped B -> let o := fe_one B in
  ed_is_on_curve B (ed_generator B) = Ok true /\ tw_is_on_curve B (tw_generator B) = Ok true /\
  ed_is_on_curve B (mkEd o o o o) = Ok false /\ tw_is_on_curve B (mkTw o o o o) = Ok false.
Proof.
  intros B S o. pose proof (shipped_laws B S) as L. destruct (l_one B L) as [T1 V1]. fold o in T1, V1.
  split; [apply (on_curve_valid B S); apply (gen_valid B S)|]. split.
  - destruct (proj1 (tw_gen_valid B S)) as (HT & NZ & TT & O & _). destruct (tw_check B S _ HT) as (b & -> & K). f_equal. apply K. left. auto.
  - split.
    + destruct (ed_check B S (mkEd o o o o)) as (b & -> & K); [cbn [edX edY edZ edT]; auto|]. f_equal. destruct b; [|reflexivity]. exfalso. destruct (proj1 K eq_refl) as [V|(Z0 & _)].
      * destruct V as (_ & _ & _ & O). unfold ed_affine in O. cbn [edX edY edZ edT] in O. rewrite V1 in O. apply off_ed. rewrite one_over in O. exact O.
      * cbn [edX] in Z0. rewrite V1 in Z0. exact (F_1_neq_0 Z0).
    + destruct (tw_check B S (mkTw o o o o)) as (b & -> & K); [cbn [twX twY twZ twT]; auto|]. f_equal. destruct b; [|reflexivity]. exfalso. destruct (proj1 K eq_refl) as [(_ & _ & O)|(Z0 & _)].
      * unfold tw_affine in O. cbn [twX twY twZ twT] in O. rewrite V1 in O. apply off_curve. rewrite one_over in O. exact O.
      * cbn [twZ] in Z0. rewrite V1 in Z0. exact (F_1_neq_0 Z0).
Qed.
