(** Counting: a run does what a run over field elements that carry nothing does, and that one can be carried out. *)
Require Import ZArith List Bool Lia.
From Verif Require Import Base BaseProofs SpecParams SpecField FieldBackend FieldU32Model Backends BackendLaws FieldModel FieldProofs ScalarModel TwistedModel ScalarMulModel EdwardsModel MontgomeryModel DecafModel ApiExpr ApiRun
  PointSpec EdwardsProofs TwistedProofs EdwardsMain TwistedMain MontgomeryProofs DecafMain ScalarMain
  Steps StepU32 StepScalar StepCurve StepPlain StepRelWords StepRelCurve TraceSpec TraceLogic TraceLogicWords TraceFacts TraceMain TraceWords CostSpec.
Import ListNotations.
Open Scope Z_scope.

(** Operations deliver [false], constants are [c]; so comparing a result with a constant says whether c is [false].  Elements are even if not [n]. *)
Definition blank (c n : bool) : backend := {|
  fe := bool; fe_zero := c; fe_one := c; fe_minus_one := c;
  fe_add _ _ := Ok false; fe_sub _ _ := Ok false; fe_mul _ _ := Ok false; fe_square _ := Ok false; fe_negate _ := Ok false; fe_strong_reduce _ := Ok false;
  fe_select _ _ _ := Ok false; fe_cond_negate _ _ := Ok false; fe_is_negative _ := Ok n; fe_from_bytes _ := Ok false; fe_to_bytes a := Ok (repeat (Z.b2z a) 56);
  NEG_FOUR_TIMES_TWISTED_D := c; EDWARDS_D := c; NEG_EDWARDS_D := c; TWISTED_D := c; TWO_TIMES_TWISTED_D := c; DECAF_FACTOR := c; A_PLUS_TWO_OVER_FOUR := c;
  BASE_X := c; BASE_Y := c; BASE_Z := c; BASE_T := c; TWBASE_X := c; TWBASE_Y := c; TWBASE_Z := c; TWBASE_T := c;
  fe_val _ := 0; fe_tight _ := True; fe_loose _ := True |}.
Definition returned {A} (x : res A) : bool := match x with Ok _ => true | Panic => false end.
Notation T := (tracing operation).
Lemma cost_of : forall A A' A'' (x : run T A) (y : run T A') (Q : A -> A'' -> Prop) z (R : A -> A' -> Prop) d c,
  follows d Q x z -> (exists v, z = Ok v) -> rl (two operation) R x y -> returned (snd y) = true -> branches (fst y) = d -> field_cost (fst y) = c ->
  (exists r, snd x = Ok r) /\ branches (fst x) = d /\ field_cost (fst x) = c.
Proof.
  intros A A' A'' x y Q z R d c (Bx & Ax) (v & Ez) H Ry By Cy. rewrite Ez in Ax. destruct (snd x) as [r|] eqn:Ex; [|contradiction Ax]. destruct (snd y) as [r'|] eqn:Ey; [|discriminate Ry].
  destruct (H r r' Ex Ey [] []) as (Et & _); [rewrite Bx, By; reflexivity|]. split; [exists r; reflexivity|]. split; [exact Bx|]. rewrite Et. exact Cy.
Qed.
Definition zeros : scalar := repeat 0 14.
Lemma zeros_sc : is_scalar zeros. Proof. split; [reflexivity|]. repeat constructor; vm_compute; congruence. Qed.
Section Costs.
Variable B : backend.
Variable S : shipped B.
Let L := shipped_laws B S.
Notation O := (tagged B).
Notation K := (field_machine B).
Notation B0 := (blank false false).
Notation p2 f := (f _ _ (two operation) O (tagged B0) K (field_machine B0) Rshape (fun _ _ => True) (field_two B B0)).
Notation pq f := (f _ _ (quiet operation) O B K (plain_machine B) Rplain eq (field_quiet B)).
Definition ed0 (P : EdPoint O) : EdPoint (tagged B0) := @mkEd (tagged B0) (false, snd (edX P)) (false, snd (edY P)) (false, snd (edZ P)) (false, snd (edT P)).
Definition tw0 (P : TwPoint O) : TwPoint (tagged B0) := @mkTw (tagged B0) (false, snd (twX P)) (false, snd (twY P)) (false, snd (twZ P)) (false, snd (twT P)).
Lemma ed0_rel : forall P, Red O (tagged B0) Rshape P (ed0 P). Proof. intro P. repeat split. Qed.
Lemma tw0_rel : forall P, Rtw O (tagged B0) Rshape P (tw0 P). Proof. intro P. repeat split. Qed.
Ltac vm := vm_compute; reflexivity.
Ltac count := refine (cost_of _ _ _ _ _ _ _ _ [] _ _ _ _ _ _ _); [| | |vm|vm|vm].
Definition ev (P : EdPoint O) : EdPoint B := field_values (s := TEd) P.
Definition tv (P : TwPoint O) : TwPoint B := field_values (s := TTw) P.

Theorem cost_invert : forall a : fe O, fe_tight B (fst a) -> costs (fe_invertS T O K a) (mkCost 13 447 0 0 0 0 0).
Proof.
  intros. eapply (cost_of _ _ _ _ (fe_invertS T (tagged B0) (field_machine B0) (false, snd a))); [exact (pq p_invert a _ eq_refl)| |exact (p2 p_invert a (false, snd a) eq_refl)|vm|vm|vm]. change (exists v, fe_invert B (fst a) = Ok v). destruct (invert_ok B L (fst a)) as (r & E & _); [assumption|]. exists r. exact E.
Qed.
Theorem cost_isr : forall a : fe O, fe_tight B (fst a) -> costs (fe_inverse_square_rootS T O K a) (mkCost 14 445 0 0 0 0 0).
Proof.
  intros. eapply (cost_of _ _ _ _ (fe_inverse_square_rootS T (tagged B0) (field_machine B0) (false, snd a))); [exact (pq p_isr a _ eq_refl)| |exact (p2 p_isr a (false, snd a) eq_refl)|vm|vm|vm]. change (exists v, fe_inverse_square_root B (fst a) = Ok v). destruct (inverse_square_root_ok B L (fst a)) as (r & E & _); [assumption|]. exists r. exact E.
Qed.
Theorem cost_ed_add : forall P Q, ed_valid B (ev P) -> ed_valid B (ev Q) -> costs (ed_addS T O K P Q) (mkCost 13 0 4 4 0 0 0).
Proof.
  intros. eapply (cost_of _ _ _ _ (ed_addS T (tagged B0) (field_machine B0) (ed0 P) (ed0 Q))); [exact (pq p_ed_add P _ Q _ (Red_q B P) (Red_q B Q))| |exact (p2 p_ed_add P _ Q _ (ed0_rel P) (ed0_rel Q))|vm|vm|vm]. change (exists v, ed_add B (ev P) (ev Q) = Ok v). destruct (ed_add_law B S (ev P) (ev Q)) as (R & E & _); [assumption|assumption|]. exists R. exact E.
Qed.
Theorem cost_tw_add : forall P Q, tw_valid B (tv P) -> tw_valid B (tv Q) -> costs (tw_addS T O K P Q) (mkCost 11 0 4 3 0 0 0).
Proof.
  intros. eapply (cost_of _ _ _ _ (tw_addS T (tagged B0) (field_machine B0) (tw0 P) (tw0 Q))); [exact (pq p_tw_add P _ Q _ (Rtw_q B P) (Rtw_q B Q))| |exact (p2 p_tw_add P _ Q _ (tw0_rel P) (tw0_rel Q))|vm|vm|vm]. change (exists v, tw_add B (tv P) (tv Q) = Ok v). destruct (tw_add_ok B L (tv P) _ (tv Q) _ (tw_rep_of B _ H) (tw_rep_of B _ H0)) as (R & E & _). exists R. exact E.
Qed.
Theorem cost_tw_double : forall P, tw_valid B (tv P) -> costs (tw_doubleS T O K P) (mkCost 4 5 3 4 1 0 0).
Proof.
  intros. eapply (cost_of _ _ _ _ (tw_doubleS T (tagged B0) (field_machine B0) (tw0 P))); [exact (pq p_tw_double P _ (Rtw_q B P))| |exact (p2 p_tw_double P _ (tw0_rel P))|vm|vm|vm]. change (exists v, tw_double B (tv P) = Ok v). destruct (tw_double_ok B L (tv P) _ (tw_rep_of B _ H)) as (R & E & _). exists R. exact E.
Qed.
Theorem cost_ed_mul : forall P t, ed_valid B (ev P) -> is_scalar t -> costs (ed_scalar_mulS T O K P t) (mkCost 2694 4954 1976 2307 452 3971 4).
Proof.
  intros. eapply (cost_of _ _ _ _ (ed_scalar_mulS T (tagged B0) (field_machine B0) (ed0 P) zeros)); [exact (pq p_ed_scalar_mul P _ t t (Red_q B P) (scq t H0))| |exact (p2 p_ed_scalar_mul P _ t zeros (ed0_rel P) (sc2 t zeros H0 zeros_sc))|vm|vm|vm]. rewrite e_ed_scalar_mul. destruct (ed_scalar_mul_law B S (ev P) t H H0) as (R & E & _). exists R. exact E.
Qed.
Theorem cost_window : forall P t, tw_valid B (tv P) -> is_scalar t -> costs (variable_baseS T O K P t) (mkCost 2559 2260 1958 2289 452 3955 0).
Proof.
  intros. eapply (cost_of _ _ _ _ (variable_baseS T (tagged B0) (field_machine B0) (tw0 P) zeros)); [exact (pq p_variable_base P _ t t (Rtw_q B P) (scq t H0))| |exact (p2 p_variable_base P _ t zeros (tw0_rel P) (sc2 t zeros H0 zeros_sc))|vm|vm|vm]. rewrite e_variable_base. destruct (window_bitwise B S (tv P) t H H0) as ((R & E & _) & _). exists R. exact E.
Qed.
Theorem cost_bitwise : forall P t, tw_valid B (tv P) -> is_scalar t -> costs (double_and_addS T O K P t) (mkCost 6720 2240 3136 3136 448 1792 0).
Proof.
  intros. eapply (cost_of _ _ _ _ (double_and_addS T (tagged B0) (field_machine B0) (tw0 P) zeros)); [exact (pq p_double_and_add P _ t t (Rtw_q B P) (scq t H0))| |exact (p2 p_double_and_add P _ t zeros (tw0_rel P) (sc2 t zeros H0 zeros_sc))|vm|vm|vm]. change (exists v, double_and_add B (tv P) t = Ok v). destruct (window_bitwise B S (tv P) t H H0) as (_ & (R & E & _) & _). exists R. exact E.
Qed.
Theorem cost_double_base : forall P t u, tw_valid B (tv P) -> is_scalar t -> is_scalar u -> costs (double_base_scalar_mulS T O K t P u) (mkCost 13451 4480 6276 6275 896 3584 0).
Proof.
  intros. eapply (cost_of _ _ _ _ (double_base_scalar_mulS T (tagged B0) (field_machine B0) zeros (tw0 P) zeros)); [exact (pq p_double_base P _ t t u u (Rtw_q B P) (scq t H0) (scq u H1))| |exact (p2 p_double_base P _ t zeros u zeros (tw0_rel P) (sc2 t zeros H0 zeros_sc) (sc2 u zeros H1 zeros_sc))|vm|vm|vm]. change (exists v, double_base_scalar_mul B t (tv P) u = Ok v). destruct (double_base_law B S t (tv P) u H0 H H1) as (R & E & _). exists R. exact E.
Qed.
Theorem cost_ladder : forall b t, bytes 56 b -> is_scalar t -> costs (mp_mulS T O K b t) (mkCost 2702 2239 1792 1792 0 1792 0).
Proof.
  intros. eapply (cost_of _ _ _ _ (mp_mulS T (tagged B0) (field_machine B0) (repeat 0 56) zeros)); [exact (pq p_mp_mul b b t t (conj eq_refl (conj (proj1 H) (proj1 H))) (scq t H0))| |exact (p2 p_mp_mul b (repeat 0 56) t zeros (conj I (conj (proj1 H) eq_refl)) (sc2 t zeros H0 zeros_sc))|vm|vm|vm]. change (exists v, mp_mul B b t = Ok v). eexists. exact (mp_mul_ok B L b t H).
Qed.
Theorem cost_ed_compress : forall P, ed_valid B (ev P) -> costs (ed_compressS T O K P) (mkCost 15 447 0 0 0 0 2).
Proof.
  intros. eapply (cost_of _ _ _ _ (ed_compressS T (tagged B0) (field_machine B0) (ed0 P))); [exact (pq p_ed_compress P _ (Red_q B P))| |exact (p2 p_ed_compress P _ (ed0_rel P))|vm|vm|vm]. change (exists v, ed_compress B (ev P) = Ok v). eexists. exact (ed_compress_ok B L _ _ (ed_rep_valid B _ H)).
Qed.
Theorem cost_dc_compress : forall P, tw_valid B (tv P) -> costs (dc_compressS T O K P) (mkCost 23 446 1 2 0 2 0).
Proof.
  intros. eapply (cost_of _ _ _ _ (dc_compressS T (tagged B0) (field_machine B0) (tw0 P))); [exact (pq p_dc_compress P _ (Rtw_q B P))| |exact (p2 p_dc_compress P _ (tw0_rel P))|vm|vm|vm]. change (exists v, dc_compress B (tv P) = Ok v). eexists. exact (compress_exact B S (tv P) H).
Qed.
Theorem cost_torsion_free : forall P, ed_valid B (ev P) -> costs (ed_is_torsion_freeS T O K P) (mkCost 2698 4954 1976 2307 452 3971 4).
Proof.
  intros. eapply (cost_of _ _ _ _ (ed_is_torsion_freeS T (tagged B0) (field_machine B0) (ed0 P))); [exact (pq p_torsion_free P _ (Red_q B P))| |exact (p2 p_torsion_free P _ (ed0_rel P))|vm|vm|vm]. rewrite e_torsion_free. eexists. exact (torsion_free_eq B S (ev P) H).
Qed.
Theorem cost_to_montgomery : forall P, ed_valid B (ev P) -> costs (ed_to_montgomeryS T O K P) (mkCost 31 895 0 2 0 0 2).
Proof.
  intros. eapply (cost_of _ _ _ _ (ed_to_montgomeryS T (tagged B0) (field_machine B0) (ed0 P))); [exact (pq p_ed_to_montgomery P _ (Red_q B P))| |exact (p2 p_ed_to_montgomery P _ (ed0_rel P))|vm|vm|vm]. change (exists v, ed_to_montgomery B (ev P) = Ok v). eexists. exact (ed_to_montgomery_ok B L _ _ (ed_rep_valid B _ H)).
Qed.

(** ** Decoding *)
Local Notation inst f := (f operation B S O K Rplain eq (field_quiet B) (fun c => eq_refl)).
Theorem cost_ed_decompress : forall b, bytes 57 b -> let x := ed_decompressS T O K b in
  (exists r, snd x = Ok r) /\ field_cost (fst x) = match ed_decompress B b with Ok (Some _) => mkCost 18 446 0 2 0 1 0 | _ => mkCost 17 446 0 2 0 0 0 end.
Proof.
  intros b Hb x. pose proof (inst f_ed_decompress b Hb) as F. unfold edwards_branches in F. destruct (api_no_panic B S _ (AEdDecompress b) Hb) as (o & Eo). cbn [api_run] in Eo.
  pose proof (fun c => p_ed_decompress _ _ (two operation) O (tagged (blank c false)) K (field_machine (blank c false)) Rshape (fun _ _ => True) (field_two B (blank c false)) (fun c c' _ => two_goes operation c c')
    b (repeat 0 57) (conj I (conj (proj1 Hb) eq_refl)) Hb (zero_bytes 57)) as G. rewrite Eo in F |- *.
  destruct o as [P|].
  - destruct (cost_of _ _ _ _ _ _ _ _ _ _ F (ex_intro _ _ eq_refl) (G false) eq_refl eq_refl eq_refl) as (H1 & _ & H2). split; [exact H1|]. refine (eq_trans H2 _). vm.
  - destruct (cost_of _ _ _ _ _ _ _ _ _ _ F (ex_intro _ _ eq_refl) (G true) eq_refl eq_refl eq_refl) as (H1 & _ & H2). split; [exact H1|]. refine (eq_trans H2 _). vm.
Qed.
Theorem cost_dc_decompress : forall b, bytes 56 b -> let x := dc_decompressS T O K b in
  (exists r, snd x = Ok r) /\
  field_cost (fst x) = match dc_verdict B b with Accepted => mkCost 23 447 3 1 0 1 0 | NoPoint => mkCost 16 447 2 1 0 0 0 | TooLarge | IsOdd => mkCost 0 0 0 0 0 0 0 end.
Proof.
  intros b Hb x. pose proof (inst f_dc_decompress b Hb) as F. unfold decaf_branches in F. destruct (api_no_panic B S _ (ADcDecompress b) Hb) as (o & Eo). cbn [api_run] in Eo.
  pose proof (fun c n k (Hk : 0 <= k < 2 ^ 8) => p_dc_decompress _ _ (two operation) O (tagged (blank c n)) K (field_machine (blank c n)) Rshape (fun _ _ => True) (field_two B (blank c n)) (fun c c' _ => two_goes operation c c')
    b (repeat k 56) (conj I (conj (proj1 Hb) eq_refl)) Hb (const_bytes k 56 Hk)) as G. 
  destruct (dc_verdict B b).
  - destruct (cost_of _ _ _ _ _ _ _ _ _ _ F (ex_intro _ _ Eo) (G false false 1 ltac:(lia)) eq_refl eq_refl eq_refl) as (H1 & _ & H2). split; [exact H1|]. refine (eq_trans H2 _). vm.
  - destruct (cost_of _ _ _ _ _ _ _ _ _ _ F (ex_intro _ _ Eo) (G false true 0 ltac:(lia)) eq_refl eq_refl eq_refl) as (H1 & _ & H2). split; [exact H1|]. refine (eq_trans H2 _). vm.
  - destruct (cost_of _ _ _ _ _ _ _ _ _ _ F (ex_intro _ _ Eo) (G true false 0 ltac:(lia)) eq_refl eq_refl eq_refl) as (H1 & _ & H2). split; [exact H1|]. refine (eq_trans H2 _). vm.
  - destruct (cost_of _ _ _ _ _ _ _ _ _ _ F (ex_intro _ _ Eo) (G false false 0 ltac:(lia)) eq_refl eq_refl eq_refl) as (H1 & _ & H2). split; [exact H1|]. refine (eq_trans H2 _). vm.
Qed.
End Costs.

(** ** Words *)
Lemma word_cost_of : forall A A' A'' (x : run (tracing word_op) A) (y : run (tracing word_op) A') (Q : A -> A'' -> Prop) z (R : A -> A' -> Prop) n m,
  rl (quiet word_op) Q x z -> (exists v, z = Ok v) -> rl (two word_op) R x y -> returned (snd y) = true -> branches (fst y) = [] ->
  N.of_nat (length (fst y)) = n -> word_multiplications (fst y) = m -> word_costs x n m.
Proof.
  intros A A' A'' x y Q z R n m (Bx & Ax) (v & Ez) H Ry By Cn Cm. rewrite Ez in Ax. destruct (snd x) as [r|] eqn:Ex; [|contradiction Ax]. destruct (snd y) as [r'|] eqn:Ey; [|discriminate Ry].
  destruct (H r r' Ex Ey [] []) as (Et & _); [rewrite Bx, By; reflexivity|]. split; [exists r; exact Ex|]. split; [exact Bx|]. rewrite Et. split; assumption.
Qed.
Lemma not_panic : forall A (r : res A), r <> Panic -> exists v, r = Ok v.
Proof. intros A [v|] H; [exists v; reflexivity|elim H; reflexivity]. Qed.
Definition void (a : list (Z * wshape)) : list (Z * wshape) := map (fun x => (0, snd x)) a.
Lemma void_shape : forall a, Forall2 Wshape a (void a).
Proof. induction a; constructor; [reflexivity|assumption]. Qed.
Lemma vals_length : forall a, length a = length (vals a). Proof. intro a. symmetry. apply map_length. Qed.
Ltac spread a H := repeat (destruct a as [|? a]; [discriminate H|]); destruct a; [clear H|discriminate H].
Notation p2 f := (f _ _ (two word_op) watched watched Wshape watched_two).
Notation pq f := (f _ _ (quiet word_op) watched plain Wplain watched_quiet).
Ltac vm := vm_compute; reflexivity.
Lemma wcost_add28 : forall a b, wf28 (vals a) -> wf28 (vals b) -> word_costs (add28S (tracing word_op) watched a b) 65 0.
Proof.
  intros a b Ha Hb. pose proof (eq_trans (vals_length a) (proj1 Ha)) as La. pose proof (eq_trans (vals_length b) (proj1 Hb)) as Lb.
  eapply word_cost_of; [exact (pq p_add28 a _ b _ (vals_plain a) (vals_plain b))| |exact (p2 p_add28 a _ b _ (void_shape a) (void_shape b))| | | |].
  - destruct (l_add _ (shipped_laws _ shipped_u32) (vals a) (vals b) Ha Hb) as (r & E & _). exists r. exact E.
  - clear Ha Hb. spread a La. spread b Lb. vm.
  - clear Ha Hb. spread a La. spread b Lb. vm.
  - clear Ha Hb. spread a La. spread b Lb. vm.
  - clear Ha Hb. spread a La. spread b Lb. vm.
Qed.
Lemma wcost_sub28 : forall a b, wf28 (vals a) -> wf28 (vals b) -> word_costs (sub28S (tracing word_op) watched a b) 83 1.
Proof.
  intros a b Ha Hb. pose proof (eq_trans (vals_length a) (proj1 Ha)) as La. pose proof (eq_trans (vals_length b) (proj1 Hb)) as Lb.
  eapply word_cost_of; [exact (pq p_sub28 a _ b _ (vals_plain a) (vals_plain b))| |exact (p2 p_sub28 a _ b _ (void_shape a) (void_shape b))| | | |].
  - destruct (l_sub _ (shipped_laws _ shipped_u32) (vals a) (vals b) Ha Hb) as (r & E & _). exists r. exact E.
  - clear Ha Hb. spread a La. spread b Lb. vm.
  - clear Ha Hb. spread a La. spread b Lb. vm.
  - clear Ha Hb. spread a La. spread b Lb. vm.
  - clear Ha Hb. spread a La. spread b Lb. vm.
Qed.
Lemma wcost_mul28 : forall a b, wf28 (vals a) -> wf28 (vals b) -> word_costs (mul28S (tracing word_op) watched a b) 479 192.
Proof.
  intros a b Ha Hb. pose proof (eq_trans (vals_length a) (proj1 Ha)) as La. pose proof (eq_trans (vals_length b) (proj1 Hb)) as Lb.
  eapply word_cost_of; [exact (pq p_mul28 a _ b _ (vals_plain a) (vals_plain b))| |exact (p2 p_mul28 a _ b _ (void_shape a) (void_shape b))| | | |].
  - rewrite e_mul28. destruct (l_mul _ (shipped_laws _ shipped_u32) (vals a) (vals b) Ha Hb) as (r & E & _). exists r. exact E.
  - clear Ha Hb. spread a La. spread b Lb. vm.
  - clear Ha Hb. spread a La. spread b Lb. vm.
  - clear Ha Hb. spread a La. spread b Lb. vm.
  - clear Ha Hb. spread a La. spread b Lb. vm.
Qed.
Lemma wcost_square28 : forall a, wf28 (vals a) -> word_costs (square28S (tracing word_op) watched a) 399 108.
Proof.
  intros a Ha. pose proof (eq_trans (vals_length a) (proj1 Ha)) as La.
  eapply word_cost_of; [exact (pq p_square28 a _ (vals_plain a))| |exact (p2 p_square28 a _ (void_shape a))| | | |].
  - rewrite e_square28. destruct (l_square _ (shipped_laws _ shipped_u32) (vals a) Ha) as (r & E & _). exists r. exact E.
  - clear Ha. spread a La. vm.
  - clear Ha. spread a La. vm.
  - clear Ha. spread a La. vm.
  - clear Ha. spread a La. vm.
Qed.
Lemma wcost_negate28 : forall a, wf28 (vals a) -> word_costs (negate28S (tracing word_op) watched a) 83 1.
Proof.
  intros a Ha. pose proof (eq_trans (vals_length a) (proj1 Ha)) as La.
  eapply word_cost_of; [exact (pq p_negate28 a _ (vals_plain a))| |exact (p2 p_negate28 a _ (void_shape a))| | | |].
  - destruct (l_negate _ (shipped_laws _ shipped_u32) (vals a) Ha) as (r & E & _). exists r. exact E.
  - clear Ha. spread a La. vm.
  - clear Ha. spread a La. vm.
  - clear Ha. spread a La. vm.
  - clear Ha. spread a La. vm.
Qed.
Lemma wcost_strong_reduce28 : forall a, wf28 (vals a) -> word_costs (strong_reduce28S (tracing word_op) watched a) 215 0.
Proof.
  intros a Ha. pose proof (eq_trans (vals_length a) (proj1 Ha)) as La.
  eapply word_cost_of; [exact (pq p_strong_reduce28 a _ (vals_plain a))| |exact (p2 p_strong_reduce28 a _ (void_shape a))| | | |].
  - rewrite e_strong_reduce28. destruct (l_strong _ (shipped_laws _ shipped_u32) (vals a) Ha) as (r & E & _). exists r. exact E.
  - clear Ha. spread a La. vm.
  - clear Ha. spread a La. vm.
  - clear Ha. spread a La. vm.
  - clear Ha. spread a La. vm.
Qed.
Lemma wcost_select28 : forall a b c, wf28 (vals a) -> wf28 (vals b) -> word_costs (conditional_select28S (tracing word_op) watched a b c) 80 0.
Proof.
  intros a b c Ha Hb. pose proof (eq_trans (vals_length a) (proj1 Ha)) as La. pose proof (eq_trans (vals_length b) (proj1 Hb)) as Lb.
  eapply word_cost_of; [exact (pq p_select28 a _ (vals_plain a) b _ c c (vals_plain b) eq_refl)| |exact (p2 p_select28 a _ (void_shape a) b _ c c (void_shape b) I)| | | |].
  - rewrite e_select28. eexists. reflexivity.
  - clear Ha Hb. spread a La. spread b Lb. vm.
  - clear Ha Hb. spread a La. spread b Lb. vm.
  - clear Ha Hb. spread a La. spread b Lb. vm.
  - clear Ha Hb. spread a La. spread b Lb. vm.
Qed.
Lemma wcost_cond_negate28 : forall a c, wf28 (vals a) -> word_costs (conditional_negate28S (tracing word_op) watched a c) 163 1.
Proof.
  intros a c Ha. pose proof (eq_trans (vals_length a) (proj1 Ha)) as La.
  eapply word_cost_of; [exact (pq p_cneg28 a _ c c (vals_plain a) eq_refl)| |exact (p2 p_cneg28 a _ c c (void_shape a) I)| | | |].
  - rewrite e_cond_negate28. destruct (l_cneg _ (shipped_laws _ shipped_u32) (vals a) c Ha) as (r & E & _). exists r. exact E.
  - clear Ha. spread a La. vm.
  - clear Ha. spread a La. vm.
  - clear Ha. spread a La. vm.
  - clear Ha. spread a La. vm.
Qed.
Lemma wcost_is_negative28 : forall a, wf28 (vals a) -> word_costs (is_negative28S (tracing word_op) watched a) 345 0.
Proof.
  intros a Ha. pose proof (eq_trans (vals_length a) (proj1 Ha)) as La.
  eapply word_cost_of; [exact (pq p_is_negative28 a _ (vals_plain a))| |exact (p2 p_is_negative28 a _ (void_shape a))| | | |].
  - rewrite e_is_negative28. eexists. exact (l_isneg _ (shipped_laws _ shipped_u32) (vals a) Ha).
  - clear Ha. spread a La. vm.
  - clear Ha. spread a La. vm.
  - clear Ha. spread a La. vm.
  - clear Ha. spread a La. vm.
Qed.
Lemma wcost_from_bytes28 : forall a, bytes 56 (vals a) -> word_costs (from_bytes28S (tracing word_op) watched a) 128 0.
Proof.
  intros a Ha. pose proof (eq_trans (vals_length a) (proj1 Ha)) as La.
  eapply word_cost_of; [exact (pq p_from_bytes28 a _ (vals_plain a))| |exact (p2 p_from_bytes28 a _ (void_shape a))| | | |].
  - destruct (l_from _ (shipped_laws _ shipped_u32) (vals a) Ha) as (r & E & _). exists r. exact E.
  - clear Ha. spread a La. vm.
  - clear Ha. spread a La. vm.
  - clear Ha. spread a La. vm.
  - clear Ha. spread a La. vm.
Qed.
Lemma wcost_to_bytes28 : forall a, wf28 (vals a) -> word_costs (to_bytes28S (tracing word_op) watched a) 343 0.
Proof.
  intros a Ha. pose proof (eq_trans (vals_length a) (proj1 Ha)) as La.
  eapply word_cost_of; [exact (pq p_to_bytes28 a _ (vals_plain a))| |exact (p2 p_to_bytes28 a _ (void_shape a))| | | |].
  - rewrite e_to_bytes28. eexists. exact (l_to _ (shipped_laws _ shipped_u32) (vals a) Ha).
  - clear Ha. spread a La. vm.
  - clear Ha. spread a La. vm.
  - clear Ha. spread a La. vm.
  - clear Ha. spread a La. vm.
Qed.
Lemma wcost_scalar_add : forall a b, is_scalar (vals a) -> is_scalar (vals b) -> word_costs (scalar_addS (tracing word_op) watched a b) 184 0.
Proof.
  intros a b Ha Hb. pose proof (eq_trans (vals_length a) (proj1 Ha)) as La. pose proof (eq_trans (vals_length b) (proj1 Hb)) as Lb.
  eapply word_cost_of; [exact (pq p_scalar_add a _ b _ (vals_plain a) (vals_plain b))| |exact (p2 p_scalar_add a _ b _ (void_shape a) (void_shape b))| | | |].
  - destruct (proj1 scalar_no_panic (vals a) (vals b) Ha Hb) as (H1 & _). exact (not_panic _ _ H1).
  - clear Ha Hb. spread a La. spread b Lb. vm.
  - clear Ha Hb. spread a La. spread b Lb. vm.
  - clear Ha Hb. spread a La. spread b Lb. vm.
  - clear Ha Hb. spread a La. spread b Lb. vm.
Qed.
Lemma wcost_scalar_sub : forall a b, is_scalar (vals a) -> is_scalar (vals b) -> word_costs (scalar_subS (tracing word_op) watched a b) 127 0.
Proof.
  intros a b Ha Hb. pose proof (eq_trans (vals_length a) (proj1 Ha)) as La. pose proof (eq_trans (vals_length b) (proj1 Hb)) as Lb.
  eapply word_cost_of; [exact (pq p_scalar_sub a _ b _ (vals_plain a) (vals_plain b))| |exact (p2 p_scalar_sub a _ b _ (void_shape a) (void_shape b))| | | |].
  - destruct (proj1 scalar_no_panic (vals a) (vals b) Ha Hb) as (_ & H1 & _). exact (not_panic _ _ H1).
  - clear Ha Hb. spread a La. spread b Lb. vm.
  - clear Ha Hb. spread a La. spread b Lb. vm.
  - clear Ha Hb. spread a La. spread b Lb. vm.
  - clear Ha Hb. spread a La. spread b Lb. vm.
Qed.
Lemma wcost_scalar_mul : forall a b, is_scalar (vals a) -> is_scalar (vals b) -> word_costs (scalar_mulS (tracing word_op) watched a b) 4370 812.
Proof.
  intros a b Ha Hb. pose proof (eq_trans (vals_length a) (proj1 Ha)) as La. pose proof (eq_trans (vals_length b) (proj1 Hb)) as Lb.
  eapply word_cost_of; [exact (pq p_scalar_mul a _ b _ (vals_plain a) (vals_plain b))| |exact (p2 p_scalar_mul a _ b _ (void_shape a) (void_shape b))| | | |].
  - destruct (proj1 scalar_no_panic (vals a) (vals b) Ha Hb) as (_ & _ & H1 & _). exact (not_panic _ _ H1).
  - clear Ha Hb. spread a La. spread b Lb. vm.
  - clear Ha Hb. spread a La. spread b Lb. vm.
  - clear Ha Hb. spread a La. spread b Lb. vm.
  - clear Ha Hb. spread a La. spread b Lb. vm.
Qed.
Lemma wcost_scalar_halve : forall a, is_scalar (vals a) -> word_costs (scalar_halveS (tracing word_op) watched a) 114 0.
Proof.
  intros a Ha. pose proof (eq_trans (vals_length a) (proj1 Ha)) as La.
  eapply word_cost_of; [exact (pq p_scalar_halve a _ (vals_plain a))| |exact (p2 p_scalar_halve a _ (void_shape a))| | | |].
  - rewrite e_scalar_halve. destruct (proj1 scalar_no_panic (vals a) (vals a) Ha Ha) as (_ & _ & _ & _ & H1). exact (not_panic _ _ H1).
  - clear Ha. spread a La. vm.
  - clear Ha. spread a La. vm.
  - clear Ha. spread a La. vm.
  - clear Ha. spread a La. vm.
Qed.
Lemma wcost_wide : forall a, bytes 114 (vals a) -> word_costs (scalar_from_bytes_mod_order_wideS (tracing word_op) watched a) 9402 1624.
Proof.
  intros a Ha. pose proof (eq_trans (vals_length a) (proj1 Ha)) as La.
  eapply word_cost_of; [exact (pq p_scalar_wide a _ (vals_plain a))| |exact (p2 p_scalar_wide a _ (void_shape a))| | | |].
  - rewrite e_scalar_wide. destruct (proj1 (proj2 (proj2 scalar_no_panic)) (vals a) Ha) as (H1 & _). exact (not_panic _ _ H1).
  - clear Ha. spread a La. vm.
  - clear Ha. spread a La. vm.
  - clear Ha. spread a La. vm.
  - clear Ha. spread a La. vm.
Qed.
Lemma wcost_radix_16 : forall a, is_scalar (vals a) -> word_costs (to_radix_16S (tracing word_op) watched a) 896 0.
Proof.
  intros a Ha. pose proof (eq_trans (vals_length a) (proj1 Ha)) as La.
  eapply word_cost_of; [exact (pq p_to_radix_16 a _ (vals_plain a))| |exact (p2 p_to_radix_16 a _ (void_shape a))| | | |].
  - rewrite e_to_radix_16. exact (not_panic _ _ (proj2 (proj2 (proj2 scalar_no_panic)) (vals a) Ha)).
  - clear Ha. spread a La. vm.
  - clear Ha. spread a La. vm.
  - clear Ha. spread a La. vm.
  - clear Ha. spread a La. vm.
Qed.
Lemma wcost_bits : forall a, is_scalar (vals a) -> word_costs (scalar_bitsS (tracing word_op) watched a) 896 0.
Proof.
  intros a Ha. pose proof (eq_trans (vals_length a) (proj1 Ha)) as La.
  eapply word_cost_of; [exact (pq p_scalar_bits a _ (vals_plain a))| |exact (p2 p_scalar_bits a _ (void_shape a))| | | |].
  - rewrite e_scalar_bits. eexists. reflexivity.
  - clear Ha. spread a La. vm.
  - clear Ha. spread a La. vm.
  - clear Ha. spread a La. vm.
  - clear Ha. spread a La. vm.
Qed.
