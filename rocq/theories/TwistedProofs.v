(** The twisted-curve arithmetic computes the group law on valid points. *)
Require Import ZArith List Bool Lia Ring Field.
From Verif Require Import Base BaseProofs SpecParams SpecField SpecCurve FieldTheory FieldBackend FieldModel BackendLaws FieldProofs Wp
  EdwardsTheory CurveTheory TwistedModel PointSpec.
Import ListNotations.
Open Scope F_scope.
Open Scope res_scope.
Local Opaque fadd fsub fmul fopp fdiv finv fpow of_Z.

(** ** Stepping through field code *)
Ltac ftight := first
  [ assumption
  | apply (proj1 (l_zero _ ltac:(eassumption))) | apply (proj1 (l_one _ ltac:(eassumption))) ].
Ltac floose := first
  [ assumption
  | match goal with L : laws ?B |- fe_loose ?B ?x => apply (l_loose B L); ftight end
  | match goal with L : laws ?B |- _ => first
      [ exact (proj1 (l_d B L)) | exact (proj1 (l_twd B L)) | exact (proj1 (l_2twd B L)) | exact (proj1 (l_minus_one B L))
      | exact (proj1 (l_neg4d B L)) | exact (proj1 (l_negd B L)) | exact (proj1 (l_factor B L)) | exact (proj1 (l_a24 B L)) ] end ].

Lemma invert_val : forall B, laws B -> forall a, fe_tight B a -> okp (fe_invert B a) (fun r => is_val B r (finv (fv B a))).
Proof. intros B L a Ha. apply invert_ok; assumption. Qed.

(** One bind: leaves the limb bound and the value of the result in the context. *)
Ltac fstep r :=
  let T := fresh "T" r in let V := fresh "V" r in
  match goal with
  | L : laws ?B |- okp (bind (fe_mul ?B ?a ?b) _) _ =>
      eapply okp_bind; [apply (l_mul B L); floose|]; intros r [T V]
  | L : laws ?B |- okp (bind (fe_square ?B ?a) _) _ =>
      eapply okp_bind; [apply (l_square B L); floose|]; intros r [T V]
  | L : laws ?B |- okp (bind (fe_add ?B ?a ?b) _) _ =>
      eapply okp_bind; [apply (l_add B L); ftight|]; intros r [T V]
  | L : laws ?B |- okp (bind (fe_sub ?B ?a ?b) _) _ =>
      eapply okp_bind; [apply (l_sub B L); ftight|]; intros r [T V]
  | L : laws ?B |- okp (bind (fe_negate ?B ?a) _) _ =>
      eapply okp_bind; [apply (l_negate B L); ftight|]; intros r [T V]
  | L : laws ?B |- okp (bind (fe_strong_reduce ?B ?a) _) _ =>
      eapply okp_bind; [apply (l_strong B L); ftight|]; intros r [T V]
  | L : laws ?B |- okp (bind (fe_invert ?B ?a) _) _ =>
      eapply okp_bind; [apply (invert_val B L); ftight|]; intros r [T V]
  | L : laws ?B |- okp (bind (fe_cond_negate ?B ?a _) _) _ =>
      eapply okp_bind; [apply (l_cneg B L); ftight|]; intros r [T V]
  | L : laws ?B |- okp (bind (fe_ct_eq ?B ?a ?b) _) _ =>
      rewrite (ct_eq_ok B L) by ftight; cbn [bind]
  | L : laws ?B |- okp (bind (fe_is_negative ?B ?a) _) _ =>
      rewrite (l_isneg B L) by ftight; cbn [bind]
  | L : laws ?B |- okp (bind (fe_to_bytes ?B ?a) _) _ =>
      rewrite (l_to B L) by ftight; cbn [bind]
  | L : laws ?B |- okp (bind (fe_select ?B ?a ?b ?c) _) _ =>
      rewrite (l_select B L) by ftight; cbn [bind]
  end.
Ltac fsteps := repeat (let r := fresh "r" in fstep r).
(** Replace the values of intermediate results in the goal by what they were computed from. *)
Ltac fvals := repeat match goal with V : fv _ ?r = _ |- context [fv _ ?r] => rewrite V end.
Ltac fconsts := repeat match goal with
  | L : laws ?B |- context [fv ?B (fe_zero ?B)] => rewrite (proj2 (l_zero B L))
  | L : laws ?B |- context [fv ?B (fe_one ?B)] => rewrite (proj2 (l_one B L))
  | L : laws ?B |- context [fv ?B (fe_minus_one ?B)] => rewrite (proj2 (l_minus_one B L))
  | L : laws ?B |- context [fv ?B (EDWARDS_D ?B)] => rewrite (proj2 (l_d B L))
  | L : laws ?B |- context [fv ?B (NEG_EDWARDS_D ?B)] => rewrite (proj2 (l_negd B L))
  | L : laws ?B |- context [fv ?B (TWISTED_D ?B)] => rewrite (proj2 (l_twd B L))
  | L : laws ?B |- context [fv ?B (TWO_TIMES_TWISTED_D ?B)] => rewrite (proj2 (l_2twd B L))
  | L : laws ?B |- context [fv ?B (NEG_FOUR_TIMES_TWISTED_D ?B)] => rewrite (proj2 (l_neg4d B L))
  | L : laws ?B |- context [fv ?B (DECAF_FACTOR ?B)] => rewrite (proj2 (l_factor B L))
  | L : laws ?B |- context [fv ?B (A_PLUS_TWO_OVER_FOUR ?B)] => rewrite (proj2 (l_a24 B L))
  end.

Lemma two_twd : of_Z (-78164) = of_Z 2 * tw_d.
Proof. unfold tw_d. rewrite <- of_Z_mul. reflexivity. Qed.

(** The four products that end every addition routine. *)
Lemma add_fin : forall a d Q1 Q2 E F G H w, den_ok d Q1 Q2 -> w <> 0 ->
  E = (fst Q1 * snd Q2 + snd Q1 * fst Q2) * w -> H = (snd Q1 * snd Q2 - a * (fst Q1 * fst Q2)) * w ->
  F = (1 - d * (fst Q1 * snd Q1) * (fst Q2 * snd Q2)) * w -> G = (1 + d * (fst Q1 * snd Q1) * (fst Q2 * snd Q2)) * w ->
  let S := padd a d Q1 Q2 in
  F * G <> 0 /\ E * F = fst S * (F * G) /\ G * H = snd S * (F * G) /\ E * H = fst S * snd S * (F * G).
Proof.
  intros a d [x1 y1] [x2 y2] E F G H w [N1 N2] Nw HE HH HF HG. cbn [fst snd padd] in *. subst E F G H.
  replace (d * (x1 * y1) * (x2 * y2)) with (d * x1 * x2 * y1 * y2) by ring. replace (a * (x1 * x2)) with (a * x1 * x2) by ring.
  set (p := 1 + d * x1 * x2 * y1 * y2) in *. set (q := 1 - d * x1 * x2 * y1 * y2) in *.
  split; [repeat apply fmul_nonzero; assumption|]. repeat split; field; auto.
Qed.

(** ** Representations *)
Section Twisted.
Variable B : backend.
Hypothesis L : laws B.
Local Notation fv := (fv B).
Local Notation tight := (fe_tight B).
Local Notation padd_t := (padd tw_a tw_d).

(** P is a valid representation of the affine point Q. *)
Definition tw_rep (P : TwPoint B) (Q : point) : Prop :=
  (tight (twX P) /\ tight (twY P) /\ tight (twZ P) /\ tight (twT P)) /\ even_tw Q /\
  fv (twZ P) <> 0 /\ fv (twX P) = fst Q * fv (twZ P) /\ fv (twY P) = snd Q * fv (twZ P) /\
  fv (twT P) = fst Q * snd Q * fv (twZ P).
Definition xt_rep (P : XtPoint B) (Q : point) : Prop :=
  (tight (xtX P) /\ tight (xtY P) /\ tight (xtZ P) /\ tight (xtT1 P) /\ tight (xtT2 P)) /\ even_tw Q /\
  fv (xtZ P) <> 0 /\ fv (xtX P) = fst Q * fv (xtZ P) /\ fv (xtY P) = snd Q * fv (xtZ P) /\
  fv (xtT1 P) * fv (xtT2 P) = fst Q * snd Q * fv (xtZ P).

Lemma frac : forall x z, z <> 0 -> x = x / z * z.
Proof. intros x z N. field. exact N. Qed.
Lemma frac_eq : forall x y z, z <> 0 -> x = y * z -> x / z = y.
Proof. intros x y z N ->. field. exact N. Qed.
Lemma ext_T : forall t x y z, z <> 0 -> (t * z = x * y <-> t = x / z * (y / z) * z).
Proof.
  intros t x y z N. split; intro H.
  - transitivity (t * z / z); [field; exact N|]. rewrite H. field. exact N.
  - rewrite H. field. exact N.
Qed.

Lemma tw_rep_iff : forall P Q, tw_rep P Q <-> tw_valid B P /\ tw_affine B P = Q.
Proof.
  intros P Q. unfold tw_rep, tw_valid, even_tw, on_tw, tw_affine. split.
  - intros (T & (HC & HS) & N & EX & EY & ET). destruct Q as [x y]. cbn [fst snd] in *.
    assert (X : fv (twX P) / fv (twZ P) = x) by (apply frac_eq; assumption).
    assert (Y : fv (twY P) / fv (twZ P) = y) by (apply frac_eq; assumption).
    rewrite X, Y. repeat split; try tauto. apply (proj2 (ext_T _ _ _ _ N)). rewrite X, Y. exact ET.
  - intros [(T & N & ET & HC & HS) <-]. cbn [fst snd] in *. repeat split; try tauto; try (apply frac; exact N).
    exact (proj1 (ext_T _ _ _ _ N) ET).
Qed.
Lemma xt_rep_iff : forall P Q, xt_rep P Q <-> xt_valid B P /\ xt_affine B P = Q.
Proof.
  intros P Q. unfold xt_rep, xt_valid, even_tw, on_tw, xt_affine. split.
  - intros (T & (HC & HS) & N & EX & EY & ET). destruct Q as [x y]. cbn [fst snd] in *.
    assert (X : fv (xtX P) / fv (xtZ P) = x) by (apply frac_eq; assumption).
    assert (Y : fv (xtY P) / fv (xtZ P) = y) by (apply frac_eq; assumption).
    rewrite X, Y. repeat split; try tauto. apply (proj2 (ext_T _ _ _ _ N)). rewrite X, Y. exact ET.
  - intros [(T & N & ET & HC & HS) <-]. cbn [fst snd] in *. repeat split; try tauto; try (apply frac; exact N).
    exact (proj1 (ext_T _ _ _ _ N) ET).
Qed.

Lemma tight0 : tight (fe_zero B). Proof. exact (proj1 (l_zero B L)). Qed.
Lemma tight1 : tight (fe_one B). Proof. exact (proj1 (l_one B L)). Qed.
Lemma fv0 : fv (fe_zero B) = 0. Proof. exact (proj2 (l_zero B L)). Qed.
Lemma fv1 : fv (fe_one B) = 1. Proof. exact (proj2 (l_one B L)). Qed.
Hint Resolve tight0 tight1 : core.

Lemma xt_identity_rep : xt_rep (xt_identity B) pzero.
Proof.
  unfold xt_rep, xt_identity, pzero. cbn. rewrite fv0, fv1. split; [auto 10|]. split; [apply even_zero|].
  split; [exact F_1_neq_0|]. repeat split; ring.
Qed.
Lemma tw_identity_rep : tw_rep (tw_identity B) pzero.
Proof.
  unfold tw_rep, tw_identity, pzero. cbn. rewrite fv0, fv1. split; [auto 10|]. split; [apply even_zero|].
  split; [exact F_1_neq_0|]. repeat split; ring.
Qed.

(** ** Extensible points *)
Lemma xt_double_ok : forall P Q, xt_rep P Q -> okp (xt_double B P) (fun R => xt_rep R (padd_t Q Q)).
Proof.
  intros P Q ((TX & TY & TZ & T1 & T2) & HQ & NZ & EX & EY & ET). unfold xt_double. fsteps. apply okp_ret.
  unfold xt_rep. cbn [xtX xtY xtZ xtT1 xtT2]. split; [repeat split; assumption|]. split; [apply even_add; assumption|].
  fvals. clear - HQ NZ. destruct Q as [x y]. pose proof (tw_B_nz x y HQ) as NB. pose proof (tw_E_nz x y HQ) as NE.
  rewrite tw_dbl_eq by exact (proj1 HQ). clear HQ. cbn [fst snd]. generalize dependent (fv (xtZ P)). intros z Nz.
  set (b := y * y - x * x) in *. set (e := of_Z 2 - b) in *.
  assert (Z3 : (- (x * z * (x * z)) + y * z * (y * z) - (z * z + z * z)) * (- (x * z * (x * z)) + y * z * (y * z)) = - (e * b * (z * z) * (z * z))) by (unfold e, b; ring).
  rewrite Z3. assert (Q1 : e * b * (z * z) * (z * z) <> 0) by (repeat apply fmul_nonzero; assumption).
  split; [intro H; apply Q1; apply fopp_0_iff; exact H|].
  repeat split.
  - transitivity (- (of_Z 2 * x * y * e * (z * z) * (z * z))); [unfold e, b; ring|field; assumption].
  - transitivity (- ((y * y + x * x) * b * (z * z) * (z * z))); [unfold b; ring|field; assumption].
  - transitivity (- (of_Z 2 * x * y * (y * y + x * x) * (z * z) * (z * z))); [ring|field; split; assumption].
Qed.

Ltac add_fin_with Q1 Q2 w := apply (add_fin tw_a tw_d Q1 Q2 _ _ _ _ w).
Ltac rep_split := split; [repeat split; assumption|]; split; [first [apply even_add|idtac]; auto using even_neg|].

Lemma xt_add_extended_ok : forall P Q1 O Q2, xt_rep P Q1 -> tw_rep O Q2 ->
  okp (xt_add_extended B P O) (fun R => xt_rep R (padd_t Q1 Q2)).
Proof.
  intros P Q1 O Q2 ((TX & TY & TZ & T1 & T2) & HQ1 & NZ & EX & EY & ET) ((TX' & TY' & TZ' & TT') & HQ2 & NZ' & EX' & EY' & ET').
  unfold xt_add_extended. fsteps. apply okp_ret. unfold xt_rep. cbn [xtX xtY xtZ xtT1 xtT2]. rep_split.
  rewrite Vr13, Vr14, Vr15. add_fin_with Q1 Q2 (fv (xtZ P) * fv (twZ O)).
  - apply even_den; assumption.
  - apply fmul_nonzero; assumption.
  - fvals. ring.
  - fvals. unfold tw_a. ring.
  - fvals. rewrite ET. fconsts. ring.
  - fvals. rewrite ET. fconsts. ring.
Qed.
Lemma xt_sub_extended_ok : forall P Q1 O Q2, xt_rep P Q1 -> tw_rep O Q2 ->
  okp (xt_sub_extended B P O) (fun R => xt_rep R (padd_t Q1 (pneg Q2))).
Proof.
  intros P Q1 O Q2 ((TX & TY & TZ & T1 & T2) & HQ1 & NZ & EX & EY & ET) ((TX' & TY' & TZ' & TT') & HQ2 & NZ' & EX' & EY' & ET').
  unfold xt_sub_extended. fsteps. apply okp_ret. unfold xt_rep. cbn [xtX xtY xtZ xtT1 xtT2]. rep_split.
  rewrite Vr13, Vr14, Vr15. add_fin_with Q1 (pneg Q2) (fv (xtZ P) * fv (twZ O)).
  - apply even_den; auto using even_neg.
  - apply fmul_nonzero; assumption.
  - fvals. destruct Q2. cbn [pneg fst snd]. ring.
  - fvals. destruct Q2. cbn [pneg fst snd]. unfold tw_a. ring.
  - fvals. rewrite ET. fconsts. destruct Q2. cbn [pneg fst snd]. ring.
  - fvals. rewrite ET. fconsts. destruct Q2. cbn [pneg fst snd]. ring.
Qed.
Lemma xt_add_projective_niels_ok : forall P Q1 N Q2, xt_rep P Q1 -> pn_rep B N Q2 ->
  okp (xt_add_projective_niels B P N) (fun R => xt_rep R (padd_t Q1 Q2)).
Proof.
  intros P Q1 N Q2 ((TX & TY & TZ & T1 & T2) & HQ1 & NZ & EX & EY & ET) ((TX' & TY' & TZ' & TT') & HQ2 & z & NZ' & EX' & EY' & ET' & EZ').
  unfold xt_add_projective_niels. fsteps. apply okp_ret. unfold xt_rep. cbn [xtX xtY xtZ xtT1 xtT2].
  split; [repeat split; assumption|]. split; [apply even_add; [assumption|exact HQ2]|].
  rewrite Vr10, Vr11, Vr12. add_fin_with Q1 Q2 (of_Z 2 * fv (xtZ P) * z).
  - apply even_den; [assumption|exact HQ2].
  - repeat apply fmul_nonzero; try assumption. exact F_2_neq_0.
  - fvals. ring.
  - fvals. unfold tw_a. ring.
  - fvals. transitivity (fv (xtZ P) * (of_Z 2 * z) - of_Z 2 * tw_d * (fst Q2 * snd Q2) * z * (fv (xtT1 P) * fv (xtT2 P))); [ring|].
    rewrite ET. ring.
  - fvals. transitivity (fv (xtZ P) * (of_Z 2 * z) + of_Z 2 * tw_d * (fst Q2 * snd Q2) * z * (fv (xtT1 P) * fv (xtT2 P))); [ring|].
    rewrite ET. ring.
Qed.
Lemma xt_to_extended_ok : forall P Q, xt_rep P Q -> okp (xt_to_extended B P) (fun R => tw_rep R Q).
Proof.
  intros P Q ((TX & TY & TZ & T1 & T2) & HQ & NZ & EX & EY & ET). unfold xt_to_extended. fsteps. apply okp_ret.
  unfold tw_rep. cbn [twX twY twZ twT]. rewrite Vr. auto 10.
Qed.
Lemma xt_to_projective_niels_ok : forall P Q, xt_rep P Q -> okp (xt_to_projective_niels B P) (fun N => pn_rep B N Q).
Proof.
  intros P Q ((TX & TY & TZ & T1 & T2) & HQ & NZ & EX & EY & ET). unfold xt_to_projective_niels. fsteps. apply okp_ret.
  unfold pn_rep. cbn [pnYpX pnYmX pnTd pnZ]. split; [repeat split; assumption|]. split; [exact HQ|]. exists (fv (xtZ P)).
  split; [exact NZ|]. fvals. rewrite ET. fconsts. rewrite two_twd. repeat split; ring.
Qed.
Lemma pn_identity_ok : okp (pn_identity B) (fun N => pn_rep B N pzero).
Proof. apply xt_to_projective_niels_ok. apply xt_identity_rep. Qed.

(** ** Cached points *)
Lemma pn_select_ok : forall M N (c : bool), (fe_tight B (pnYpX M) /\ tight (pnYmX M) /\ tight (pnTd M) /\ tight (pnZ M)) ->
  (fe_tight B (pnYpX N) /\ tight (pnYmX N) /\ tight (pnTd N) /\ tight (pnZ N)) ->
  pn_select B M N c = Ok (if c then N else M).
Proof.
  intros [a1 b1 c1 d1] [a2 b2 c2 d2] c (? & ? & ? & ?) (? & ? & ? & ?). unfold pn_select. cbn [pnYpX pnYmX pnTd pnZ] in *.
  rewrite !(l_select B L) by assumption. cbn [bind]. destruct c; reflexivity.
Qed.
Lemma pn_cond_negate_ok : forall N Q (c : bool), pn_rep B N Q -> okp (pn_cond_negate B N c) (fun R => pn_rep B R (if c then pneg Q else Q)).
Proof.
  intros N Q c ((TX' & TY' & TZ' & TT') & HQ & z & NZ' & EX' & EY' & ET' & EZ'). unfold pn_cond_negate, fe_cond_swap.
  rewrite !(l_select B L) by assumption. cbn [bind]. fsteps. apply okp_ret. unfold pn_rep. cbn [pnYpX pnYmX pnTd pnZ].
  split; [destruct c; repeat split; assumption|]. split; [destruct c; [exact (even_neg Q HQ)|exact HQ]|]. exists z. split; [exact NZ'|].
  rewrite Vr. destruct c, Q as [x y]; cbn [pneg fst snd] in *; fvals; repeat split; ring.
Qed.
Lemma pn_to_extended_ok : forall N Q, pn_rep B N Q -> okp (pn_to_extended B N) (fun R => tw_rep R Q).
Proof.
  intros N Q ((TX' & TY' & TZ' & TT') & HQ & z & NZ' & EX' & EY' & ET' & EZ'). unfold pn_to_extended. fsteps. apply okp_ret.
  unfold tw_rep. cbn [twX twY twZ twT]. split; [repeat split; assumption|]. split; [exact HQ|]. fvals. split.
  - repeat apply fmul_nonzero; first [exact F_2_neq_0|assumption].
  - repeat split; ring.
Qed.

(** ** Extended points *)
Lemma tw_to_extensible_ok : forall P Q, tw_rep P Q -> xt_rep (tw_to_extensible B P) Q.
Proof.
  intros P Q ((TX & TY & TZ & TT) & HQ & NZ & EX & EY & ET). unfold xt_rep, tw_to_extensible. cbn [xtX xtY xtZ xtT1 xtT2].
  split; [auto 10|]. rewrite fv1. repeat (split; [assumption|]). rewrite ET. ring.
Qed.
Lemma tw_double_ok : forall P Q, tw_rep P Q -> okp (TwistedModel.tw_double B P) (fun R => tw_rep R (padd_t Q Q)).
Proof.
  intros P Q H. unfold TwistedModel.tw_double. eapply okp_bind; [apply xt_double_ok; apply tw_to_extensible_ok; exact H|].
  intros R HR. apply xt_to_extended_ok. exact HR.
Qed.
Lemma tw_add_ok : forall P Q P' Q', tw_rep P Q -> tw_rep P' Q' -> okp (tw_add B P P') (fun R => tw_rep R (padd_t Q Q')).
Proof.
  intros P Q P' Q' H H'. unfold tw_add. eapply okp_bind; [apply xt_add_extended_ok; [apply tw_to_extensible_ok; exact H|exact H']|].
  intros R HR. apply xt_to_extended_ok. exact HR.
Qed.
Lemma tw_select_ok : forall P P' Q Q' (c : bool), tw_rep P Q -> tw_rep P' Q' ->
  tw_select B P P' c = Ok (if c then P' else P).
Proof.
  intros [a1 b1 c1 d1] [a2 b2 c2 d2] Q Q' c ((? & ? & ? & ?) & _) ((? & ? & ? & ?) & _). unfold tw_select. cbn [twX twY twZ twT] in *.
  rewrite !(l_select B L) by assumption. cbn [bind]. destruct c; reflexivity.
Qed.
Lemma tw_negate_ok : forall P Q, tw_rep P Q -> okp (tw_negate B P) (fun R => tw_rep R (pneg Q)).
Proof.
  intros P Q ((TX & TY & TZ & TT) & HQ & NZ & EX & EY & ET). unfold tw_negate. fsteps. apply okp_ret.
  unfold tw_rep. cbn [twX twY twZ twT]. split; [repeat split; assumption|]. split; [apply even_neg; exact HQ|]. split; [exact NZ|].
  destruct Q as [x y]. cbn [pneg fst snd] in *. fvals. repeat split; ring.
Qed.
Lemma even_torque : forall x y, even_tw (x, y) -> even_tw (- x, - y).
Proof.
  intros x y [H S]. split.
  - unfold on_tw, on_curve in *. replace (- x * - x) with (x * x) by ring. replace (- y * - y) with (y * y) by ring. exact H.
  - cbn [fst] in *. replace (- x * - x) with (x * x) by ring. exact S.
Qed.
(** (x, y) + (0, -1) = (-x, -y). *)
Lemma padd_N : forall a d x y, padd a d (x, y) (0, - (1)) = (- x, - y).
Proof.
  intros a d x y. unfold padd. apply pt_eq; apply fdiv_val; try ring.
  - replace (1 + d * x * 0 * y * - (1)) with (1 : F) by ring. exact F_1_neq_0.
  - replace (1 - d * x * 0 * y * - (1)) with (1 : F) by ring. exact F_1_neq_0.
Qed.
Lemma tw_torque_ok : forall P Q, tw_rep P Q -> okp (tw_torque B P) (fun R => tw_rep R (padd_t Q (0, - (1)))).
Proof.
  intros P Q ((TX & TY & TZ & TT) & HQ & NZ & EX & EY & ET). unfold tw_torque. fsteps. apply okp_ret. destruct Q as [x y].
  rewrite padd_N. unfold tw_rep. cbn [twX twY twZ twT]. split; [repeat split; assumption|]. split; [apply even_torque; exact HQ|].
  split; [exact NZ|]. cbn [fst snd] in *. fvals. repeat split; ring.
Qed.
Lemma cross_eq : forall x z x' z', z <> 0 -> z' <> 0 -> (x * z * z' = z * (x' * z') <-> x = x').
Proof.
  intros x z x' z' N N'. split; intro H.
  - apply (fmul_cancel_l (z * z')); [apply fmul_nonzero; assumption|]. transitivity (x * z * z'); [ring|]. rewrite H. ring.
  - rewrite H. ring.
Qed.
Definition peqb (P Q : point) : bool := feqb (fst P) (fst Q) && feqb (snd P) (snd Q).
Lemma peqb_eq : forall P Q, peqb P Q = true <-> P = Q.
Proof.
  intros [x y] [x' y']. unfold peqb. cbn [fst snd]. rewrite andb_true_iff, !feqb_eq. split; [intros [-> ->]; reflexivity|].
  intro H. injection H as -> ->. auto.
Qed.
Lemma eqb_cross : forall x z x' z', z <> 0 -> z' <> 0 -> feqb (x * z * z') (z * (x' * z')) = feqb x x'.
Proof.
  intros x z x' z' N N'. destruct (feqb x x') eqn:E.
  - apply feqb_eq in E. apply feqb_eq. apply cross_eq; assumption.
  - destruct (feqb (x * z * z') (z * (x' * z'))) eqn:E'; [|reflexivity]. apply feqb_eq in E'. apply cross_eq in E'; try assumption.
    apply feqb_eq in E'. rewrite E' in E. discriminate.
Qed.
Lemma tw_ct_eq_ok : forall P Q P' Q', tw_rep P Q -> tw_rep P' Q' -> tw_ct_eq B P P' = Ok (peqb Q Q').
Proof.
  intros P Q P' Q' ((TX & TY & TZ & TT) & HQ & NZ & EX & EY & ET) ((TX' & TY' & TZ' & TT') & HQ' & NZ' & EX' & EY' & ET').
  assert (K : okp (tw_ct_eq B P P') (fun b => b = peqb Q Q')).
  { unfold tw_ct_eq. fsteps. apply okp_ret. fvals. rewrite !eqb_cross by assumption. reflexivity. }
  destruct K as (b & -> & ->). reflexivity.
Qed.
Lemma tw_to_affine_ok : forall P Q, tw_rep P Q ->
  okp (tw_to_affine B P) (fun R => is_val B (twAx R) (fst Q) /\ is_val B (twAy R) (snd Q)).
Proof.
  intros P Q ((TX & TY & TZ & TT) & HQ & NZ & EX & EY & ET). unfold tw_to_affine. fsteps. apply okp_ret. cbn [twAx twAy].
  split; (split; [assumption|]); fvals; field; exact NZ.
Qed.

Lemma isogeny_ok : forall a x y (A X Y : F), fe_loose B a -> fv a = A -> is_val B x X -> is_val B y Y ->
  okp (edwards_isogeny B a x y) (fun r => let '(nx, ny, t) := r in
    is_val B nx (of_Z 2 * X * Y / (Y * Y - A * (X * X))) /\ is_val B ny ((Y * Y + A * (X * X)) / (of_Z 2 - (Y * Y + A * (X * X)))) /\
    is_val B t (fv nx * fv ny)).
Proof.
  intros a x y A X Y Ha Va [Tx Vx] [Ty Vy]. unfold edwards_isogeny. fsteps. apply okp_ret.
  split; [|split]; (split; [assumption|]).
  - fvals. rewrite (Fdiv_def F_field). f_equal; ring.
  - fvals. fconsts. rewrite (Fdiv_def F_field). replace (1 + 1 - Y * Y - A * (X * X)) with (of_Z 2 - (Y * Y + A * (X * X))) by ring. reflexivity.
  - exact Vr19.
Qed.
End Twisted.
