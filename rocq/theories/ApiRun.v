(** Every program over the public API runs without panicking, and what it returns does not depend on the backend. *)
Require Import ZArith List Bool Lia Ring Field.
From Verif Require Import Base BaseProofs SpecParams SpecField SpecCurve SpecEncoding SpecDecaf FieldTheory FieldBackend FieldModel Backends BackendLaws FieldProofs FieldMain Wp
  ScalarModel ScalarProofs ScalarProofs2 ScalarMain EdwardsTheory CurveTheory TwistedModel ScalarMulModel EdwardsModel MontgomeryModel DecafModel PointSpec EdSigns TwistedProofs
  ScalarMulProofs EdwardsProofs EdwardsExpr EdwardsRun Order GroupOrder PhiHat EdwardsMain TwistedMain MontTheory Ladder MontgomeryProofs MontgomeryMain DecafTheory DecafGroup DecafProofs
  DecafRun DecafMain ApiExpr SpecApi.
Import ListNotations.
Open Scope F_scope.
Open Scope res_scope.
Local Opaque fadd fsub fmul fopp fdiv finv fpow of_Z padd pmul pzero fsqrt SpecCurve.G D ell ed_decode ed_encode decaf_decode decaf_encode
  ed_add ed_sub ed_negate ed_double ed_torque ed_scalar_mul ed_scalar_mod_four ed_select ed_sum ed_to_affine ed_compress ed_ct_eq ed_is_torsion_free ed_to_montgomery
  ed_decompress eda_to_extended ed_to_twisted tw_to_untwisted tw_negate tw_torque tw_select tw_ct_eq xt_to_extended pn_to_extended xt_double xt_add_extensible xt_add_extended
  xt_sub_extended xt_add_projective_niels xt_ct_eq pn_identity xt_to_projective_niels pn_select pn_cond_negate pn_eq mp_mul mp_to_projective pm_select pm_to_affine
  dc_add dc_sub dc_neg dc_mul dc_equals dc_compress dc_decompress rs_equals even_tw tw_affine le_bytes lloop scalar_bits
  scalar_add scalar_sub scalar_mul scalar_invert scalar_halve scalar_from_canonical_bytes scalar_from_bytes_mod_order_wide.
Local Notation padd_e := (padd ed_a ed_d).
Local Notation padd_t := (padd tw_a tw_d).

(** ** Meaning *)
Definition of_res {A} (r : res A) : option A := match r with Ok a => Some a | Panic => None end.
Fixpoint api_val {s} (e : api s) : option (aval s) :=
  match e in api s return option (aval s) with
  | ARet d v => Some v
  | ABind d s x k => ob (api_val x) (fun v => api_val (k v))
  | AIsSome s x => Some (match api_val x with Some _ => true | None => false end)
  | AScAdd a b => of_res (scalar_add a b)
  | AScSub a b => of_res (scalar_sub a b)
  | AScMul a b => of_res (scalar_mul a b)
  | AScInvert a => of_res (scalar_invert a)
  | AScHalve a => of_res (scalar_halve a)
  | AScCanonical b => match scalar_from_canonical_bytes b with Ok o => o | Panic => None end
  | AScWide b => of_res (scalar_from_bytes_mod_order_wide b)
  | AEdIdentity => Some pzero
  | AEdGenerator => Some SpecCurve.G
  | AEdDecompress b => ed_decode b
  | AEdAdd x y => ob (api_val x) (fun P => ob (api_val y) (fun Q => Some (padd_e P Q)))
  | AEdSub x y => ob (api_val x) (fun P => ob (api_val y) (fun Q => Some (padd_e P (pneg Q))))
  | AEdNeg x => ob (api_val x) (fun P => Some (pneg P))
  | AEdDouble x => ob (api_val x) (fun P => Some (padd_e P P))
  | AEdTorque x => ob (api_val x) (fun P => Some (padd_e P (0, - (1))))
  | AEdMul x t => ob (api_val x) (fun P => Some (pmul ed_a ed_d (sval t) P))
  | AEdModFour x t => ob (api_val x) (fun P => Some (pmul ed_a ed_d (sval t mod 4)%Z P))
  | AEdSelect x y c => ob (api_val x) (fun P => ob (api_val y) (fun Q => Some (if c then Q else P)))
  | ANil => Some []
  | ACons x l => ob (api_val x) (fun P => ob (api_val l) (fun ps => Some (P :: ps)))
  | AEdSum l => ob (api_val l) (fun ps => Some (psum ps))
  | AEdUntwist x => ob (api_val x) (fun P => Some (phihat P))
  | AEdOfAffine x => ob (api_val x) (fun P => Some P)
  | AEdAffineIdentity => Some pzero
  | AEdToAffine x => ob (api_val x) (fun P => Some P)
  | AEdCompress x => ob (api_val x) (fun P => Some (ed_encode P))
  | AEdEq x y => ob (api_val x) (fun P => ob (api_val y) (fun Q => Some (peqb P Q)))
  | AEdTorsionFree x => ob (api_val x) (fun P => Some (peqb (pmul ed_a ed_d ell P) pzero))
  | AEdToMontgomery x => ob (api_val x) (fun Q => Some (le_bytes 56 (fval (snd Q * snd Q * finv (fst Q * fst Q)))))
  | ATwIdentity => Some pzero
  | ATwGenerator => Some D
  | ATwist x => ob (api_val x) (fun P => Some (phi P))
  | ATwNeg x => ob (api_val x) (fun P => Some (pneg P))
  | ATwTorque x => ob (api_val x) (fun P => Some (padd_t P (0, - (1))))
  | ATwSelect x y c => ob (api_val x) (fun P => ob (api_val y) (fun Q => Some (if c then Q else P)))
  | ATwOfXt x => ob (api_val x) (fun P => Some P)
  | ATwOfPn x => ob (api_val x) (fun P => Some P)
  | ATwEq x y => ob (api_val x) (fun P => ob (api_val y) (fun Q => Some (peqb P Q)))
  | AXtIdentity => Some pzero
  | AXtOfTw x => ob (api_val x) (fun P => Some P)
  | AXtDouble x => ob (api_val x) (fun P => Some (padd_t P P))
  | AXtAddXt x y => ob (api_val x) (fun P => ob (api_val y) (fun Q => Some (padd_t P Q)))
  | AXtAddTw x y => ob (api_val x) (fun P => ob (api_val y) (fun Q => Some (padd_t P Q)))
  | AXtSubTw x y => ob (api_val x) (fun P => ob (api_val y) (fun Q => Some (padd_t P (pneg Q))))
  | AXtAddPn x y => ob (api_val x) (fun P => ob (api_val y) (fun Q => Some (padd_t P Q)))
  | AXtEq x y => ob (api_val x) (fun P => ob (api_val y) (fun Q => Some (peqb P Q)))
  | APnIdentity => Some pzero
  | APnOfXt x => ob (api_val x) (fun P => Some P)
  | APnSelect x y c => ob (api_val x) (fun P => ob (api_val y) (fun Q => Some (if c then Q else P)))
  | APnNegate x c => ob (api_val x) (fun P => Some (if c then pneg P else P))
  | APnEq x y => ob (api_val x) (fun P => ob (api_val y) (fun Q => Some (peqb P Q)))
  | AMpMul b t => let u := of_Z (le_val b) in Some (le_bytes 56 (fval (lval (lloop u (rev (scalar_bits t)) false ((1, 0), (u, 1))))))
  | APmOf b => Some (of_Z (le_val b), 1)
  | APmIdentity => Some (1, 0)
  | APmSelect x y c => ob (api_val x) (fun P => ob (api_val y) (fun Q => Some (if c then Q else P)))
  | APmToAffine x => ob (api_val x) (fun P => Some (le_bytes 56 (fval (fst P * finv (snd P)))))
  | ADcIdentity => Some pzero
  | ADcGenerator => Some D
  | ADcDecompress b => decaf_decode b
  | ADcAdd x y => ob (api_val x) (fun P => ob (api_val y) (fun Q => Some (padd_t P Q)))
  | ADcSub x y => ob (api_val x) (fun P => ob (api_val y) (fun Q => Some (padd_t P (pneg Q))))
  | ADcNeg x => ob (api_val x) (fun P => Some (pneg P))
  | ADcMul x t => ob (api_val x) (fun P => Some (pmul tw_a tw_d (sval t) P))
  | ADcCompress x => ob (api_val x) (fun P => Some (decaf_encode P))
  | ADcEq x y => ob (api_val x) (fun P => ob (api_val y) (fun Q => Some (ceqb P Q)))
  | ARsIdentity => Some pzero
  | ARsEq x y => ob (api_val x) (fun P => ob (api_val y) (fun Q => Some (ceqb P Q)))
  end.

Section Api.
Variable B : backend.
Hypothesis S : shipped B.
Let L := shipped_laws B S.

(** ** Calls not treated elsewhere *)
Local Transparent xt_ct_eq pn_eq pm_select mp_to_projective pm_to_affine xt_add_extensible.
Lemma xt_ct_eq_ok : forall P Q P' Q', xt_rep B P Q -> xt_rep B P' Q' -> xt_ct_eq B P P' = Ok (peqb Q Q').
Proof.
  intros P Q P' Q' ((TX & TY & TZ & TT) & HQ & NZ & EX & EY & ET) ((TX' & TY' & TZ' & TT') & HQ' & NZ' & EX' & EY' & ET').
  apply okp_eq. unfold xt_ct_eq. fsteps. apply okp_ret. fvals. rewrite !eqb_cross by assumption. reflexivity.
Qed.
Lemma pn_eq_ok : forall N Q N' Q', pn_rep B N Q -> pn_rep B N' Q' -> pn_eq B N N' = Ok (peqb Q Q').
Proof.
  intros N Q N' Q' H H'. apply okp_eq. unfold pn_eq. eapply okp_bind; [exact (pn_to_extended_ok B L _ _ H)|]. intros P HP.
  eapply okp_bind; [exact (pn_to_extended_ok B L _ _ H')|]. intros P' HP'. rewrite (tw_ct_eq_ok B L _ _ _ _ HP HP'). apply okp_ret. reflexivity.
Qed.
Lemma xt_add_xt_ok : forall P Q P' Q', xt_rep B P Q -> xt_rep B P' Q' -> okp (xt_add_extensible B P P') (fun R => xt_rep B R (padd_t Q Q')).
Proof.
  intros P Q P' Q' H H'. unfold xt_add_extensible. eapply okp_bind; [exact (xt_to_extended_ok B L _ _ H')|]. intros T HT.
  exact (xt_add_extended_ok B L _ _ _ _ H HT).
Qed.
Lemma pm_select_ok : forall P x Q y (c : bool), pm_rep B P x -> pm_rep B Q y -> okp (pm_select B P Q c) (fun R => pm_rep B R (if c then y else x)).
Proof.
  intros P x Q y c (T1 & T2 & V1 & V2) (T3 & T4 & V3 & V4). unfold pm_select. rewrite !(l_select B L) by assumption. cbn [bind]. apply okp_ret.
  destruct c; unfold pm_rep; cbn [pmU pmW]; auto.
Qed.
Lemma pm_of_ok : forall b, bytes 56 b -> okp (mp_to_projective B b) (fun R => pm_rep B R (of_Z (le_val b), 1)).
Proof.
  intros b Hb. unfold mp_to_projective. destruct (l_from B L b Hb) as (u & -> & Tu & Vu). cbn [bind]. apply okp_ret. unfold pm_rep. cbn [pmU pmW fst snd].
  split; [exact Tu|]. split; [exact (proj1 (l_one B L))|]. split; [exact Vu|exact (proj2 (l_one B L))].
Qed.
Lemma pm_identity_rep : pm_rep B (pm_identity B) (1, 0).
Proof.
  unfold pm_rep, pm_identity. cbn [pmU pmW fst snd]. split; [exact (proj1 (l_one B L))|]. split; [exact (proj1 (l_zero B L))|].
  split; [exact (proj2 (l_one B L))|exact (proj2 (l_zero B L))].
Qed.
Lemma pm_to_affine_ok : forall P x, pm_rep B P x -> pm_to_affine B P = Ok (le_bytes 56 (fval (fst x * finv (snd x)))).
Proof.
  intros P x (T1 & T2 & V1 & V2). apply okp_eq. unfold pm_to_affine. fsteps. rewrite (l_to B L) by assumption. eexists. split; [reflexivity|].
  apply (f_equal (fun z => le_bytes 56 (fval z))). fvals. rewrite ?V1, ?V2. reflexivity.
Qed.
Local Opaque xt_ct_eq pn_eq pm_select mp_to_projective pm_to_affine xt_add_extensible.
Lemma ceqb_c : forall P Q P' Q', crep B P Q -> crep B P' Q' -> dc_equals B P P' = Ok (ceqb Q Q').
Proof.
  intros P q P' q' (E & Q & H & C) (E' & Q' & H' & C'). rewrite (dc_equals_ok B L _ _ _ _ H H'). apply (f_equal (@Ok bool)).
  pose proof (tw_rep_even B _ _ H) as EQ. pose proof (tw_rep_even B _ _ H') as EQ'.
  assert (K : ceqb Q Q' = true <-> ceqb q q' = true).
  { rewrite (ceqb_class Q Q' EQ EQ'), (ceqb_class q q' E E'). split; intro K.
    - exact (class_trans _ _ _ E EQ E' (class_sym _ _ EQ E C) (class_trans _ _ _ EQ EQ' E' K C')).
    - exact (class_trans _ _ _ EQ E EQ' C (class_trans _ _ _ E E' EQ' K (class_sym _ _ EQ' E' C'))). }
  destruct (ceqb Q Q'), (ceqb q q'); try reflexivity; [symmetry; apply K; reflexivity|apply K; reflexivity].
Qed.
Lemma compress_c : forall P Q, crep B P Q -> dc_compress B P = Ok (decaf_encode Q).
Proof.
  intros P q (E & Q & H & C). rewrite (dc_compress_ok B L _ _ H). apply (f_equal (@Ok _)). apply encode_class; [exact (tw_rep_even B _ _ H)|exact E|exact C].
Qed.

(** ** The relation between a run and its meaning *)
Definition arep (s : sort) : val B s -> aval s -> Prop :=
  match s return val B s -> aval s -> Prop with
  | TData d => fun v a => v = a /\ dok d a
  | TEd => ed_rep B
  | TEdAffine => fun A Q => is_val B (edAx A) (fst Q) /\ is_val B (edAy A) (snd Q) /\ on_ed Q
  | TEdList => Forall2 (ed_rep B)
  | TTw => tw_rep B
  | TXt => xt_rep B
  | TPn => pn_rep B
  | TPm => pm_rep B
  | TDc => crep B
  | TRs => crep B
  end.
Definition oarep (s : sort) (o : option (val B s)) (q : option (aval s)) : Prop :=
  match o, q with Some v, Some a => arep s v a | None, None => True | _, _ => False end.

Lemma bstep : forall s t (x : res (option (val B s))) q (f : val B s -> res (option (val B t))) (g : aval s -> option (aval t)),
  okp x (fun o => oarep s o q) -> (forall v a, arep s v a -> okp (f v) (fun o => oarep t o (g a))) ->
  okp (obind x f) (fun o => oarep t o (ob q g)).
Proof.
  intros s t x q f g (o & -> & H) K. unfold obind, ob. destruct o as [v|], q as [a|]; cbn [oarep] in H; try contradiction.
  - exact (K v a H).
  - exists None. split; [reflexivity|exact I].
Qed.
Lemma sret : forall s (x : res (val B s)) a, okp x (fun v => arep s v a) -> okp (osome x) (fun o => oarep s o (Some a)).
Proof. intros s x a H. unfold osome. eapply okp_bind; [exact H|]. intros v Hv. apply okp_ret. exact Hv. Qed.
Lemma sdata : forall d (x : res (dval d)) a, x = Ok a -> dok d a -> okp (osome x) (fun o => oarep (TData d) o (Some a)).
Proof. intros d x a -> H. apply okp_ret. split; [reflexivity|exact H]. Qed.
Lemma sscal : forall (x : res scalar), (exists r, x = Ok r /\ is_scalar r) -> okp (osome x) (fun o => oarep (TData DScalar) o (of_res x)).
Proof. intros x (r & -> & H). apply okp_ret. split; [reflexivity|exact H]. Qed.

Definition sound {s} (e : api s) : Prop := api_ok e -> okp (api_run B e) (fun o => oarep s o (api_val e)).
Ltac un H := match goal with |- okp _ (fun o => oarep ?t o _) => refine (bstep _ t _ _ _ _ H _) end; let P := fresh "P" in let Q := fresh "Q" in let R := fresh "R" in intros P Q R.
Ltac go := cbn [api_ok api_run api_val].
Ltac u1 := match goal with Hx : sound ?x |- sound _ => let Ox := fresh "Ox" in intro Ox; go; un (Hx Ox) end.
Ltac u1s := match goal with Hx : sound ?x |- sound _ => let Ox := fresh "Ox" in intros [Ox Os]; go; un (Hx Ox) end.
Ltac u2 := match goal with Hx : sound ?x, Hy : sound ?y |- sound _ => let Ox := fresh in let Oy := fresh in intros [Ox Oy]; go; un (Hx Ox); un (Hy Oy) end.
Ltac sr := match goal with |- okp _ (fun o => oarep ?t o _) => refine (sret t _ _ _) end.
Ltac sd := match goal with |- okp _ (fun o => oarep (TData ?t) o _) => refine (sdata t _ _ _ _) end.

Theorem api_run_ok : forall s (e : api s), sound e.
Proof.
  induction e.
  - (* ret *) intro H. go. apply okp_ret. split; [reflexivity|exact H].
  - (* bind *) intros [Ox Ok_]. go. un (IHe Ox). destruct R as [-> Dv]. exact (H Q (Ok_ Q Dv)).
  - (* is_some *) intro Ox. go. destruct (IHe Ox) as (o & -> & R). cbn [bind]. apply okp_ret.
    destruct o as [v|], (api_val e) as [a|]; cbn [oarep] in R; try contradiction; split; reflexivity || exact I.
  - intros [Ha Hb]. go. apply sscal. destruct (scalar_add_total a b Ha Hb) as (r & E & H). exists r. split; [exact E|apply H].
  - intros [Ha Hb]. go. apply sscal. destruct (scalar_sub_total a b Ha Hb) as (r & E & H). exists r. split; [exact E|apply H].
  - intros [Ha Hb]. go. apply sscal. destruct (scalar_mul_ok a b Ha Hb) as (r & E & H). exists r. split; [exact E|apply H].
  - intros Ha. go. apply sscal. destruct (scalar_invert_pow a Ha) as (r & E & H). exists r. split; [exact E|apply H].
  - intros Ha. go. apply sscal. destruct (scalar_halve_ok a Ha) as (r & E & H). exists r. split; [exact E|apply H].
  - intros Hb. go. destruct (from_canonical_ok b Hb) as [H1 H2]. destruct (Z_lt_le_dec (le_val b) ell) as [Lt|Ge].
    + destruct (H1 Lt) as (r & -> & Hr & _). apply okp_ret. split; [reflexivity|exact Hr].
    + rewrite (H2 Ge). apply okp_ret. exact I.
  - intros Hb. go. apply sscal. destruct (from_bytes_wide_ok b Hb) as (r & E & H). exists r. split; [exact E|apply H].
  - (* edwards *) intros _. apply okp_ret. exact (ed_identity_rep B L).
  - intros _. apply okp_ret. exact (ed_generator_rep B L).
  - intro Hb. go. exact (edexp_run_ok B L (EDecompress b) Hb).
  - u2. sr. exact (ed_add_ok B L _ _ _ _ R R0).
  - u2. sr. exact (ed_sub_ok B L _ _ _ _ R R0).
  - u1. sr. exact (ed_negate_ok B L _ _ R).
  - u1. sr. exact (ed_double_ok B L _ _ R).
  - u1. sr. exact (ed_torque_ok B L _ _ R).
  - u1s. sr. exact (ed_scalar_mul_ok B L _ _ _ R Os).
  - u1s. sr. exact (ed_mod_four_ok B L _ _ _ R Os).
  - u2. sr. eexists. split; [exact (ed_select_ok B L _ _ _ _ c R R0)|]. destruct c; assumption.
  - intros _. apply okp_ret. constructor.
  - u2. apply okp_ret. constructor; assumption.
  - u1. sr. exact (ed_sum_ok B L _ _ R).
  - u1. sr. exact (tw_to_untwisted_ok B L _ _ R).
  - u1. sr. destruct R as (V1 & V2 & O). destruct P as [px py], Q as [qx qy]. exact (eda_to_extended_ok B L _ _ _ _ V1 V2 O).
  - intros _. apply okp_ret. cbn [arep oarep]. unfold eda_identity. cbn [edAx edAy].
    split; [exact (l_zero B L)|]. split; [exact (l_one B L)|]. apply on_curve_zero.
  - u1. sr. eapply okp_weaken; [exact (ed_to_affine_ok B L _ _ R)|]. intros A [V1 V2]. split; [exact V1|]. split; [exact V2|exact (ed_rep_on B _ _ R)].
  - u1. sd; [exact (ed_compress_ok B L _ _ R)|]. exact (proj1 (encode_bytes Q)).
  - u2. sd; [exact (ed_ct_eq_ok B L _ _ _ _ R R0)|exact I].
  - u1. sd; [|exact I]. apply ed_rep_iff in R. destruct R as [V <-]. exact (torsion_free_eq B S _ V).
  - u1. sd; [exact (ed_to_montgomery_ok B L _ _ R)|]. apply le_bytes_bytes.
  - (* twisted *) intros _. apply okp_ret. exact (tw_identity_rep B L).
  - intros _. apply okp_ret. exact (tw_generator_rep B S).
  - u1. sr. exact (ed_to_twisted_ok B L _ _ R).
  - u1. sr. exact (tw_negate_ok B L _ _ R).
  - u1. sr. exact (tw_torque_ok B L _ _ R).
  - u2. sr. eexists. split; [exact (tw_select_ok B L _ _ _ _ c R R0)|]. destruct c; assumption.
  - u1. sr. exact (xt_to_extended_ok B L _ _ R).
  - u1. sr. exact (pn_to_extended_ok B L _ _ R).
  - u2. sd; [exact (tw_ct_eq_ok B L _ _ _ _ R R0)|exact I].
  - intros _. apply okp_ret. exact (xt_identity_rep B L).
  - u1. apply okp_ret. exact (tw_to_extensible_ok B L _ _ R).
  - u1. sr. exact (xt_double_ok B L _ _ R).
  - u2. sr. exact (xt_add_xt_ok _ _ _ _ R R0).
  - u2. sr. exact (xt_add_extended_ok B L _ _ _ _ R R0).
  - u2. sr. exact (xt_sub_extended_ok B L _ _ _ _ R R0).
  - u2. sr. exact (xt_add_projective_niels_ok B L _ _ _ _ R R0).
  - u2. sd; [exact (xt_ct_eq_ok _ _ _ _ R R0)|exact I].
  - intros _. go. sr. exact (pn_identity_ok B L).
  - u1. sr. exact (xt_to_projective_niels_ok B L _ _ R).
  - u2. sr. eexists. split; [exact (pn_select_ok B L _ _ c (proj1 R) (proj1 R0))|]. destruct c; assumption.
  - u1. sr. exact (pn_cond_negate_ok B L _ _ c R).
  - u2. sd; [exact (pn_eq_ok _ _ _ _ R R0)|exact I].
  - (* montgomery *) intros [Hb Ht]. go. sd; [exact (mp_mul_ok B L b s Hb)|apply le_bytes_bytes].
  - intro Hb. go. sr. exact (pm_of_ok b Hb).
  - intros _. apply okp_ret. exact pm_identity_rep.
  - u2. sr. exact (pm_select_ok _ _ _ _ c R R0).
  - u1. sd; [exact (pm_to_affine_ok _ _ R)|apply le_bytes_bytes].
  - (* decaf *) intros _. apply okp_ret. apply rep_crep. exact (id_rep B S).
  - intros _. apply okp_ret. apply rep_crep. exact (gen_rep B S).
  - intro Hb. go. eapply okp_weaken; [exact (dc_decode_ok B L b Hb)|]. intros o H. cbv beta in H. destruct o as [P|], (decaf_decode b) as [q|]; cbn [oarep arep]; try exact H; [|exact I].
    destruct H as (_ & Ev & Q & HQ & C & _). split; [exact Ev|]. exists Q. auto.
  - u2. sr. exact (dc_add_c B L _ _ _ _ R R0).
  - u2. sr. exact (dc_sub_c B L _ _ _ _ R R0).
  - u1. sr. exact (dc_neg_c B L _ _ R).
  - u1s. sr. exact (dc_mul_c B L _ _ _ R Os).
  - u1. sd; [exact (compress_c _ _ R)|apply decaf_encode_bytes].
  - u2. sd; [exact (ceqb_c _ _ _ _ R R0)|exact I].
  - intros _. apply okp_ret. apply rep_crep. exact (id_rep B S).
  - u2. sd; [|exact I]. exact (ceqb_c _ _ _ _ R R0).
Qed.

Theorem api_no_panic : forall s (e : api s), api_ok e -> exists o, api_run B e = Ok o.
Proof. intros s e H. destruct (api_run_ok s e H) as (o & E & _). exists o. exact E. Qed.
Theorem api_data : forall d (e : api (TData d)), api_ok e -> api_run B e = Ok (api_val e) /\ (forall v, api_val e = Some v -> dok d v).
Proof.
  intros d e H. destruct (api_run_ok _ e H) as (o & -> & R). destruct o as [v|], (api_val e) as [a|]; cbn [oarep arep] in R; try contradiction.
  - destruct R as [-> Dv]. split; [reflexivity|]. intros v' E. apply some_inj in E. subst v'. exact Dv.
  - split; [reflexivity|]. intros v' E. discriminate E.
Qed.
End Api.

Theorem api_backends : forall B1 B2, shipped B1 -> shipped B2 -> forall d (e : api (TData d)), api_ok e ->
  exists o, api_run B1 e = Ok o /\ api_run B2 e = Ok o.
Proof.
  intros B1 B2 S1 S2 d e H. exists (api_val e). split; [exact (proj1 (api_data B1 S1 d e H))|exact (proj1 (api_data B2 S2 d e H))].
Qed.
Theorem api_typed : forall B, shipped B -> forall d (e : api (TData d)), api_ok e -> forall v, api_run B e = Ok (Some v) -> dok d v.
Proof.
  intros B S d e H v E. destruct (api_data B S d e H) as [E' V]. apply V. exact (ok_inj _ _ _ (eq_trans (eq_sym E') E)).
Qed.
