(** Decaf classes and their encodings, the operators on classes, and the execution of programs over the Decaf API. *)
Require Import ZArith List Bool Lia Ring Field.
From Verif Require Import Base BaseProofs SpecParams SpecField SpecCurve SpecEncoding SpecDecaf FieldTheory FieldBackend FieldModel Backends BackendLaws FieldProofs Wp
  ScalarModel ScalarProofs EdwardsTheory CurveTheory TwistedModel ScalarMulModel DecafModel PointSpec EdSigns TwistedProofs ScalarMulProofs EdwardsProofs EdwardsExpr
  EdwardsRun EdwardsMain TwistedMain MontTheory MontgomeryMain DecafTheory DecafGroup DecafProofs DecafExpr.
Import ListNotations.
Open Scope F_scope.
Open Scope res_scope.
Local Opaque fadd fsub fmul fopp fdiv finv fpow of_Z padd pmul pzero fsqrt G D ell.

(** ** Encodings of classes *)
Lemma class_drel : forall P Q s, same_class P Q -> drel Q s -> drel P s.
Proof.
  intros [x y] [x' y'] s H R. apply class_coords in H. destruct H as [[-> ->]|[-> ->]]; [exact R|]. apply drel_torque. exact R.
Qed.
Lemma drel_class : forall P Q s, on_tw P -> on_tw Q -> drel P s -> drel Q s -> same_class P Q.
Proof. intros [x y] [x' y'] s O O' R R'. apply class_coords. exact (drel_inj _ _ _ _ s O O' R R'). Qed.
Lemma encode_class : forall P Q, even_tw P -> even_tw Q -> (decaf_encode P = decaf_encode Q <-> same_class P Q).
Proof.
  intros P Q HP HQ. pose proof (enc_drel P HP) as RP. pose proof (enc_drel Q HQ) as RQ. unfold decaf_encode. split; intro H.
  - apply le_inj in H. rewrite H in RP. exact (drel_class _ _ _ (proj1 HP) (proj1 HQ) RP RQ).
  - rewrite (drel_unique P _ _ (proj1 HP) RP (class_drel _ _ _ H RQ)). reflexivity.
Qed.
Lemma decaf_encode_bytes : forall Q, bytes 56 (decaf_encode Q). Proof. intro Q. apply le_bytes_bytes. Qed.
Lemma encode_s : forall Q, of_Z (le_val (decaf_encode Q)) = decaf_s Q. Proof. intro Q. apply of_Z_le. Qed.
Lemma fodd_Z : forall v, (0 <= v < p)%Z -> fodd (of_Z v) = Z.odd v.
Proof. intros v H. unfold fodd. rewrite fval_of_Z, Z.mod_small by exact H. reflexivity. Qed.
Lemma encode_ok : forall Q, even_tw Q -> decaf_ok (decaf_encode Q).
Proof.
  intros Q H. pose proof (enc_drel Q H) as R. unfold decaf_ok. cbv zeta. rewrite encode_s. unfold decaf_encode. rewrite le_val_canon.
  pose proof (fval_range (decaf_s Q)) as V. split; [exact (proj2 V)|]. split; [|exact (drel_ok Q _ (proj1 H) R)].
  rewrite <- fodd_Z by exact V. rewrite of_Z_fval. destruct Q as [x y]. exact (proj1 R).
Qed.
Lemma canon_bytes : forall b, bytes 56 b -> (le_val b < p)%Z -> le_bytes 56 (fval (of_Z (le_val b))) = b.
Proof. intros b Hb H. apply list_eqb_eq. apply (le_lt_p b Hb). exact H. Qed.
Lemma ok_even : forall b, bytes 56 b -> decaf_ok b -> fodd (of_Z (le_val b)) = false.
Proof. intros b Hb (H & E & _). rewrite fodd_Z; [exact E|]. split; [exact (le_val_nonneg b Hb)|exact H]. Qed.
Lemma ok_point : forall b, bytes 56 b -> decaf_ok b -> even_tw (decaf_point (of_Z (le_val b))) /\ drel (decaf_point (of_Z (le_val b))) (of_Z (le_val b)).
Proof. intros b Hb H. pose proof (ok_even b Hb H) as E. destruct H as (_ & _ & N & S & NV). apply dec_drel; assumption. Qed.
Lemma drel_encode : forall b Q, bytes 56 b -> (le_val b < p)%Z -> even_tw Q -> drel Q (of_Z (le_val b)) -> decaf_encode Q = b.
Proof.
  intros b Q Hb H HQ R. unfold decaf_encode. rewrite (drel_unique Q _ _ (proj1 HQ) (enc_drel Q HQ) R). apply canon_bytes; assumption.
Qed.
Lemma ok_decode : forall b, (decaf_ok b -> decaf_decode b = Some (decaf_point (of_Z (le_val b)))) /\ (~ decaf_ok b -> decaf_decode b = None).
Proof.
  intro b. unfold decaf_decode. match goal with |- context [if ?c then _ else _] => assert (E : c = true <-> decaf_ok b) end.
  { unfold decaf_ok. cbv zeta. rewrite !andb_true_iff, !negb_true_iff, Z.ltb_lt, fsqrt_iff. set (s := of_Z (le_val b)).
    assert (A1 : feqb (s * s) 1 = false <-> s * s <> 1).
    { rewrite <- feqb_eq. destruct (feqb (s * s) 1); split; congruence. }
    assert (A2 : feqb (decaf_v s) 0 = false <-> decaf_v s <> 0).
    { rewrite <- feqb_eq. destruct (feqb (decaf_v s) 0); split; congruence. }
    rewrite A1, A2. tauto. }
  match goal with |- context [if ?c then _ else _] => destruct c end.
  - split; [reflexivity|]. intro H. destruct H. apply E. reflexivity.
  - split; [|reflexivity]. intro H. apply E in H. discriminate H.
Qed.
Lemma ok_dec : forall b, decaf_ok b \/ ~ decaf_ok b.
Proof.
  intro b. unfold decaf_ok. cbv zeta. set (s := of_Z (le_val b)).
  destruct (Z_lt_dec (le_val b) p) as [H1|H1]; [|tauto]. destruct (Z.odd (le_val b)); [right; intros (_ & E & _); discriminate E|].
  destruct (F_eq_dec (s * s) 1) as [H3|H3]; [tauto|]. destruct (F_eq_dec (decaf_v s) 0) as [H4|H4]; [tauto|].
  destruct (square_dec (decaf_v s)) as [H5|H5]; tauto.
Qed.

(** Equality of classes by cross multiplication. *)
Definition ceqb (P Q : point) : bool := feqb (fst P * snd Q) (snd P * fst Q).
Lemma ceqb_class : forall P Q, even_tw P -> even_tw Q -> (ceqb P Q = true <-> same_class P Q).
Proof. intros [x y] [x' y'] H H'. unfold ceqb. cbn [fst snd]. rewrite feqb_eq. apply class_cross; assumption. Qed.

Section WithLaws.
Variable B : backend.
Hypothesis L : laws B.
Local Notation fv := (fv B).

Lemma eqb_scale : forall a b k, k <> 0 -> feqb (a * k) (b * k) = feqb a b.
Proof.
  intros a b k N. destruct (feqb a b) eqn:E.
  - apply feqb_eq in E. rewrite E. apply feqb_eq. reflexivity.
  - destruct (feqb (a * k) (b * k)) eqn:E'; [|reflexivity]. apply feqb_eq in E'. assert (a = b) as X.
    { apply (fmul_cancel_l k); [exact N|]. transitivity (a * k); [ring|]. rewrite E'. ring. }
    apply feqb_eq in X. rewrite X in E. discriminate E.
Qed.
Lemma dc_equals_ok : forall P Q P' Q', tw_rep B P Q -> tw_rep B P' Q' -> dc_equals B P P' = Ok (ceqb Q Q').
Proof.
  intros P Q P' Q' ((TX & TY & TZ & TT) & HQ & NZ & EX & EY & ET) ((TX' & TY' & TZ' & TT') & HQ' & NZ' & EX' & EY' & ET').
  assert (K : okp (dc_equals B P P') (fun b => b = ceqb Q Q')).
  { unfold dc_equals. fsteps. rewrite (ct_eq_ok B L) by ftight. apply okp_ret. fvals. unfold ceqb.
    rewrite <- (eqb_scale (fst Q * snd Q') _ (fv (twZ P) * fv (twZ P'))) by (apply fmul_nonzero; assumption). f_equal; ring. }
  destruct K as (b & -> & ->). reflexivity.
Qed.
Lemma dc_add_ok : forall P Q P' Q', tw_rep B P Q -> tw_rep B P' Q' -> okp (dc_add B P P') (fun R => tw_rep B R (padd tw_a tw_d Q Q')).
Proof.
  intros P Q P' Q' H H'. unfold dc_add. eapply okp_bind; [apply (xt_add_extended_ok B L); [apply (tw_to_extensible_ok B L); exact H|exact H']|].
  intros r Hr. apply (xt_to_extended_ok B L). exact Hr.
Qed.
Lemma dc_sub_ok : forall P Q P' Q', tw_rep B P Q -> tw_rep B P' Q' -> okp (dc_sub B P P') (fun R => tw_rep B R (padd tw_a tw_d Q (pneg Q'))).
Proof.
  intros P Q P' Q' H H'. unfold dc_sub. eapply okp_bind; [apply (xt_sub_extended_ok B L); [apply (tw_to_extensible_ok B L); exact H|exact H']|].
  intros r Hr. apply (xt_to_extended_ok B L). exact Hr.
Qed.
Lemma dc_neg_ok : forall P Q, tw_rep B P Q -> okp (dc_neg B P) (fun R => tw_rep B R (pneg Q)).
Proof. exact (tw_negate_ok B L). Qed.
Lemma dc_mul_ok : forall P Q s, tw_rep B P Q -> is_scalar s -> okp (dc_mul B P s) (fun R => tw_rep B R (pmul tw_a tw_d (sval s) Q)).
Proof. exact (double_and_add_ok B L). Qed.
Lemma dc_decode_ok : forall b, bytes 56 b -> okp (dc_decompress B b) (fun o => match o, decaf_decode b with
  | Some P, Some q => decaf_ok b /\ even_tw q /\ exists Q, tw_rep B P Q /\ same_class Q q /\ decaf_encode Q = b
  | None, None => ~ decaf_ok b
  | _, _ => False end).
Proof.
  intros b Hb. destruct (dc_decompress_ok B L b Hb) as (o & E & H). exists o. split; [exact E|]. destruct o as [P|].
  - destruct H as (OK & Q & HQ & R). rewrite (proj1 (ok_decode b) OK). split; [exact OK|]. destruct (ok_point b Hb OK) as [Ev R'].
    split; [exact Ev|]. exists Q. split; [exact HQ|]. pose proof (tw_rep_even B _ _ HQ) as EQ.
    split; [exact (drel_class _ _ _ (proj1 EQ) (proj1 Ev) R R')|]. exact (drel_encode b Q Hb (proj1 OK) EQ R).
  - rewrite (proj2 (ok_decode b) H). exact H.
Qed.

(** ** Programs *)
Definition crep (P : TwPoint B) (q : point) : Prop := even_tw q /\ exists Q, tw_rep B P Q /\ same_class Q q.
Definition ocrep (o : option (TwPoint B)) (q : option point) : Prop :=
  match o, q with Some P, Some Q => crep P Q | None, None => True | _, _ => False end.
Lemma obind_crep : forall C x q (f : TwPoint B -> res (option C)) (Post : option C -> Prop), okp x (fun o => ocrep o q) ->
  (q = None -> Post None) -> (forall Q P, q = Some Q -> crep P Q -> okp (f P) Post) -> okp (obind x f) Post.
Proof.
  intros C x q f Post (o & -> & H) N S. unfold obind. destruct o as [P|], q as [Q|]; cbn in H; try contradiction.
  - apply (S Q); auto.
  - exists None. auto.
Qed.
Lemma osome_cok : forall x Q, okp x (fun P => crep P Q) -> okp (osome x) (fun o => ocrep o (Some Q)).
Proof. intros x Q H. unfold osome. eapply okp_bind; [exact H|]. intros P HP. apply okp_ret. exact HP. Qed.
Lemma rep_crep : forall P Q, tw_rep B P Q -> crep P Q.
Proof. intros P Q H. split; [exact (tw_rep_even B _ _ H)|]. exists Q. split; [exact H|apply class_refl]. Qed.

Lemma dc_add_c : forall P Q P' Q', crep P Q -> crep P' Q' -> okp (dc_add B P P') (fun R => crep R (padd tw_a tw_d Q Q')).
Proof.
  intros P q P' q' (Eq & Q & H & C) (Eq' & Q' & H' & C'). eapply okp_weaken; [exact (dc_add_ok _ _ _ _ H H')|]. intros R HR. cbv beta in HR.
  split; [apply even_padd; assumption|]. eexists. split; [exact HR|]. pose proof (tw_rep_even B _ _ H). pose proof (tw_rep_even B _ _ H').
  apply class_add; assumption.
Qed.
Lemma dc_neg_c : forall P Q, crep P Q -> okp (dc_neg B P) (fun R => crep R (pneg Q)).
Proof.
  intros P q (Eq & Q & H & C). eapply okp_weaken; [exact (dc_neg_ok _ _ H)|]. intros R HR. cbv beta in HR.
  split; [apply even_neg; assumption|]. eexists. split; [exact HR|]. pose proof (tw_rep_even B _ _ H). apply class_neg; assumption.
Qed.
Lemma dc_sub_c : forall P Q P' Q', crep P Q -> crep P' Q' -> okp (dc_sub B P P') (fun R => crep R (padd tw_a tw_d Q (pneg Q'))).
Proof.
  intros P q P' q' (Eq & Q & H & C) (Eq' & Q' & H' & C'). eapply okp_weaken; [exact (dc_sub_ok _ _ _ _ H H')|]. intros R HR. cbv beta in HR.
  pose proof (even_neg _ Eq'). split; [apply even_padd; assumption|]. eexists. split; [exact HR|]. pose proof (tw_rep_even B _ _ H). pose proof (tw_rep_even B _ _ H') as E'.
  pose proof (even_neg _ E'). apply class_add; try assumption. apply class_neg; assumption.
Qed.
Lemma dc_mul_c : forall P Q s, crep P Q -> is_scalar s -> okp (dc_mul B P s) (fun R => crep R (pmul tw_a tw_d (sval s) Q)).
Proof.
  intros P q s (Eq & Q & H & C) Hs. eapply okp_weaken; [exact (dc_mul_ok _ _ _ H Hs)|]. intros R HR. cbv beta in HR.
  split; [apply even_pmul; assumption|]. eexists. split; [exact HR|]. pose proof (tw_rep_even B _ _ H). pose proof (scalar_range s Hs).
  apply class_mul; try assumption. lia.
Qed.

Ltac un H := apply (obind_crep _ _ _ _ _ H); [let E := fresh in intro E; rewrite E; exact I|];
  let E := fresh "E" in intros ? ? E ?; rewrite E; cbn [omap].
Ltac bin H1 H2 := apply (obind_crep _ _ _ _ _ H1); [let E := fresh in intro E; rewrite E; exact I|];
  let E1 := fresh "E" in intros ? ? E1 ?; rewrite E1;
  apply (obind_crep _ _ _ _ _ H2); [let E := fresh in intro E; rewrite E; exact I|];
  let E2 := fresh "E" in intros ? ? E2 ?; rewrite E2; cbn [omap2].
Theorem dcexp_run_ok : tw_rep B (tw_generator B) D -> forall e, dcexp_ok e -> okp (dcexp_run B e) (fun o => ocrep o (dcexp_val e)).
Proof.
  intro HD. induction e as [| |b|x IHx y IHy|x IHx y IHy|x IHx|x IHx s]; cbn [dcexp_ok dcexp_run dcexp_val].
  - intros _. apply okp_ret. apply rep_crep. exact (tw_identity_rep B L).
  - intros _. apply okp_ret. apply rep_crep. exact HD.
  - intro Hb. eapply okp_weaken; [exact (dc_decode_ok b Hb)|]. intros o H. cbv beta in H. destruct o as [P|], (decaf_decode b) as [q|]; cbn [ocrep]; try exact H; [|exact I].
    destruct H as (_ & Ev & Q & HQ & C & _). split; [exact Ev|]. exists Q. auto.
  - intros [Ox Oy]. bin (IHx Ox) (IHy Oy). apply osome_cok. apply dc_add_c; assumption.
  - intros [Ox Oy]. bin (IHx Ox) (IHy Oy). apply osome_cok. apply dc_sub_c; assumption.
  - intros Ox. un (IHx Ox). apply osome_cok. apply dc_neg_c; assumption.
  - intros [Ox Os]. un (IHx Ox). apply osome_cok. apply dc_mul_c; assumption.
Qed.
End WithLaws.
