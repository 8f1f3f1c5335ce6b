(** The model's ladder computes the ladder over field elements. *)
Require Import ZArith List Bool Lia Ring Field.
From Verif Require Import Base BaseProofs SpecParams SpecField SpecCurve SpecMontgomery FieldTheory FieldBackend FieldModel BackendLaws FieldProofs Wp
  EdwardsTheory CurveTheory ScalarModel ScalarProofs ScalarMulProofs TwistedModel TwistedProofs MontTheory Ladder MontCurves MontgomeryModel.
Import ListNotations.
Open Scope F_scope.
Open Scope res_scope.
Local Opaque fadd fsub fmul fopp fdiv finv fpow of_Z.

Section Model.
Variable B : backend.
Hypothesis L : laws B.
Local Notation fv := (fv B).
Local Notation tight := (fe_tight B).

Definition pm_rep (P : PMPoint B) (x : F * F) : Prop := tight (pmU P) /\ tight (pmW P) /\ fv (pmU P) = fst x /\ fv (pmW P) = snd x.

Lemma pm_swap_ok : forall P Q x c, pm_rep P (fst x) -> pm_rep Q (snd x) ->
  okp (pm_cond_swap B P Q c) (fun R => pm_rep (fst R) (fst (lswap c x)) /\ pm_rep (snd R) (snd (lswap c x))).
Proof.
  intros P Q x c (T1 & T2 & V1 & V2) (T3 & T4 & V3 & V4). unfold pm_cond_swap, pm_select. rewrite !(l_select B L) by assumption. cbn [bind]. apply okp_ret.
  destruct c; cbn [fst snd lswap]; unfold pm_rep; cbn [pmU pmW]; tauto.
Qed.

Lemma a24 : of_Z 39082 = (mont_A + of_Z 2) / of_Z 4.
Proof. rewrite A_plus_2. symmetry. apply fdiv_val; [exact F_4_neq_0|ring]. Qed.

Lemma dad_ok : forall P Q x y u v, pm_rep P x -> pm_rep Q y -> tight u -> fv u = v ->
  okp (differential_add_and_double B P Q u) (fun R => pm_rep (fst R) (fst (lstep v x y)) /\ pm_rep (snd R) (snd (lstep v x y))).
Proof.
  intros P Q [U1 W1] [U2 W2] u v (T1 & T2 & V1 & V2) (T3 & T4 & V3 & V4) Tu Vu. cbn [fst snd] in *. unfold differential_add_and_double. fsteps.
  apply okp_ret. unfold pm_rep. cbn [fst snd pmU pmW lstep]. pose proof F_4_neq_0 as N4.
  repeat split; try assumption; fvals; fconsts; rewrite ?V1, ?V2, ?V3, ?V4, ?Vu; try ring.
  rewrite a24. field. exact N4.
Qed.

Lemma loop_ok : forall u v, tight u -> fv u = v -> forall bits swap P Q x, pm_rep P (fst x) -> pm_rep Q (snd x) ->
  okp (ladder_loop B u bits swap P Q) (fun R => pm_rep R (lloop v bits swap x)).
Proof.
  intros u v Tu Vu. induction bits as [|b bits IH]; intros swap P Q x HP HQ; cbn [ladder_loop lloop]; [apply okp_ret; exact HP|].
  eapply okp_bind; [apply pm_swap_ok; eassumption|]. intros [P' Q'] [H1 H2]. cbn [fst snd] in *.
  eapply okp_bind; [apply dad_ok; eassumption|]. intros [P2 Q2] [H3 H4]. cbn [fst snd] in *. apply IH; assumption.
Qed.

Theorem mp_mul_ok : forall b s, bytes 56 b -> let u := of_Z (le_val b) in
  mp_mul B b s = Ok (le_bytes 56 (fval (lval (lloop u (rev (scalar_bits s)) false ((1, 0), (u, 1)))))).
Proof.
  intros b s Hb. cbv zeta. set (w := lval _).
  assert (K : okp (mp_mul B b s) (fun r => r = le_bytes 56 (fval w))).
  { unfold mp_mul. eapply okp_bind; [apply (l_from B L); exact Hb|]. intros u [Tu Vu].
    eapply okp_bind.
    { apply (loop_ok u (of_Z (le_val b)) Tu Vu _ false _ _ ((1, 0), (of_Z (le_val b), 1))); unfold pm_rep; cbn [fst snd pmU pmW pm_identity].
      - repeat split; try (apply (proj1 (l_one B L)) || apply (proj1 (l_zero B L))); fconsts; reflexivity.
      - repeat split; try assumption; try apply (proj1 (l_one B L)); fconsts; reflexivity. }
    intros R (T1 & T2 & V1 & V2). unfold pm_to_affine. fsteps. rewrite (l_to B L) by assumption. eexists. split; [reflexivity|].
    apply (f_equal (fun z => le_bytes 56 (fval z))). fvals. rewrite ?V1, ?V2. reflexivity. }
  destruct K as (r & -> & ->). reflexivity.
Qed.

Lemma last_rev_bits : forall s, is_scalar s -> Z.b2z (last (rev (scalar_bits s)) false) = (sval s mod 2)%Z.
Proof.
  intros s Hs. pose proof (scalar_bits_val s Hs) as E. destruct (rev (scalar_bits s)) as [|b l] using rev_ind.
  - cbn in E. rewrite <- E. reflexivity.
  - rewrite last_last. unfold bits_acc in E. rewrite fold_left_app in E. cbn [fold_left] in E. rewrite <- E.
    rewrite Z.add_comm, Z.mul_comm, Z.mod_add by discriminate. destruct b; reflexivity.
Qed.
End Model.
