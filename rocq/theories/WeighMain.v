(** Counting operations on words of whole functions: proofs for C78. *)
Require Import ZArith List Bool Lia.
From Verif Require Import Base BaseProofs SpecParams SpecField FieldBackend FieldU32Model FieldFiatModel FiatCode FiatMain Backends BackendLaws FieldModel FieldProofs ScalarModel TwistedModel ScalarMulModel EdwardsModel MontgomeryModel DecafModel ApiExpr ApiRun
  PointSpec EdwardsProofs TwistedProofs EdwardsMain TwistedMain MontgomeryProofs DecafMain ScalarMain ScalarProofs
  Steps StepU32 StepScalar StepCurve StepPlain StepRelWords StepRelCurve TraceSpec TraceSpec64 TraceLogic TraceLogicWords TraceFacts TraceMain TraceWords TraceFiat CostSpec CostMain DocsCost WeighLogic WeighLogic64.
Import ListNotations.
Open Scope N_scope.

(** What a counted run spends when branches go this way. *)
Definition spent {A} (y : run counter A) (d : list bool) : option (N * N) := match y d with Ok (_, [], c) => Some c | _ => None end.
Lemma weighed : forall A A' A'' (x : run (tracing word_op) A) (y : run counter A') (Q : A -> A'' -> Prop) z (R : A -> A' -> Prop) d c,
  follows d Q x z -> (exists v, z = Ok v) -> rl tally R x y -> spent y d = Some c ->
  (exists r, snd x = Ok r) /\ branches (fst x) = d /\ N.of_nat (length (fst x)) = fst c /\ word_multiplications (fst x) = snd c.
Proof.
  intros A A' A'' x y Q z R d c (Bx & Ax) (v & Ez) H Hy. rewrite Ez in Ax. destruct (snd x) as [r|] eqn:Ex; [|contradiction Ax]. specialize (H r [] Ex). rewrite Bx, app_nil_r in H.
  unfold spent in Hy. destruct (y d) as [[[a' [|b l]] [n k]]|]; try discriminate Hy. injection Hy as <-. destruct H as (_ & Hn & Hk & _). split; [exists r; reflexivity|]. auto.
Qed.
Lemma ends : forall A A' (x : run (tracing operation) A) c (R : A -> A' -> Prop) z, costs x c -> follows [] R x z -> exists v, z = Ok v.
Proof. intros A A' x c R z ((r & Er) & _) (_ & H). rewrite Er in H. destruct z as [v|]; [exists v; reflexivity|contradiction H]. Qed.

Section Weigh.
Variable B : backend.
Variable S : shipped B.
Variable O : backend.
Variable K : machine (tracing word_op) O.
Variable value : fe O -> fe B.
Variable Rp : fe O -> fe B -> Prop.
Variable Rd : digit K -> digit (plain_machine B) -> Prop.
Variable Q : mcompat _ _ (quiet word_op) _ _ K (plain_machine B) Rp Rd.
Variable HB : forall c, m_branch K c = goes c.
Hypothesis HP : forall a, Rp a (value a).
Variable w : weights.
Variable Rt : fe O -> unit -> Prop.
Variable Rt' : digit K -> unit -> Prop.
Variable C : mcompat _ _ tally _ _ K (weigh w) Rt Rt'.
Hypothesis HL : forall a u, fe_tight B (value a) -> Rt a u.
Notation T := (tracing word_op).
Notation U := units.
Notation N' := (weigh w).
Notation pq f := (f _ _ (quiet word_op) O B K (plain_machine B) Rp Rd Q).
Notation pf f := (f _ _ (quiet operation) (tagged B) B (field_machine B) (plain_machine B) Rplain eq (field_quiet B)).
Notation pc f := (f _ _ tally O U K N' Rt Rt' C).

Definition edv (P : EdPoint O) : EdPoint B := map_val value TEd P.
Definition twv (P : TwPoint O) : TwPoint B := map_val value TTw P.
Lemma edq : forall P, Red O B Rp P (edv P). Proof. intro P. repeat split; apply HP. Qed.
Lemma twq : forall P, Rtw O B Rp P (twv P). Proof. intro P. repeat split; apply HP. Qed.
Definition edu : EdPoint U := @mkEd U tt tt tt tt.
Definition twu : TwPoint U := @mkTw U tt tt tt tt.
Lemma edc : forall P, ed_valid B (edv P) -> Red O U Rt P edu.
Proof. intros P ((H1 & H2 & H3 & H4) & _). repeat split; apply HL; assumption. Qed.
Lemma twc : forall P, tw_valid B (twv P) -> Rtw O U Rt P twu.
Proof. intros P ((H1 & H2 & H3 & H4) & _). repeat split; apply HL; assumption. Qed.
(** Values with empty tags. *)
Definition tag (a : fe B) : fe (tagged B) := (a, SIn 0%Z).
Definition edt (P : EdPoint O) : EdPoint (tagged B) := map_val (O := O) (B := tagged B) (fun a => tag (value a)) TEd P.
Definition twt (P : TwPoint O) : TwPoint (tagged B) := map_val (O := O) (B := tagged B) (fun a => tag (value a)) TTw P.
Lemma edf : forall P, Red (tagged B) B Rplain (edt P) (edv P). Proof. intro P. repeat split. Qed.
Lemma twf : forall P, Rtw (tagged B) B Rplain (twt P) (twv P). Proof. intro P. repeat split. Qed.
Lemma scc : forall t, is_scalar t -> Rby _ _ tally 14 t zeros. Proof. intros t (H & _). exact (conj I (conj H eq_refl)). Qed.
Lemma scp : forall t, is_scalar t -> Rby _ _ (quiet word_op) 14 t t. Proof. intros t (H & _). exact (conj eq_refl (conj H H)). Qed.
Lemma byc : forall n b, bytes n b -> Rby _ _ tally n b (repeat 0%Z n). Proof. intros n b (H & _). exact (conj I (conj H (repeat_length _ _))). Qed.
Lemma byp : forall n b, bytes n b -> Rby _ _ (quiet word_op) n b b. Proof. intros n b (H & _). exact (conj eq_refl (conj H H)). Qed.
Lemma byf : forall n b, bytes n b -> Rby _ _ (quiet operation) n b b. Proof. intros n b (H & _). exact (conj eq_refl (conj H H)). Qed.

Theorem weigh_invert : forall (a : fe O) c, fe_tight B (value a) -> spent (fe_invertS _ _ N' tt) [] = Some c -> word_costs (fe_invertS T O K a) (fst c) (snd c).
Proof. intros a c H Hc. refine (weighed _ _ _ _ _ _ _ _ _ _ (pq p_invert a _ (HP a)) _ (pc p_invert a tt (HL a tt H)) Hc). exact (ends _ _ _ _ _ _ (cost_invert B S (tag (value a)) H) (pf p_invert (tag (value a)) (value a) eq_refl)). Qed.
Theorem weigh_isr : forall (a : fe O) c, fe_tight B (value a) -> spent (fe_inverse_square_rootS _ _ N' tt) [] = Some c -> word_costs (fe_inverse_square_rootS T O K a) (fst c) (snd c).
Proof. intros a c H Hc. refine (weighed _ _ _ _ _ _ _ _ _ _ (pq p_isr a _ (HP a)) _ (pc p_isr a tt (HL a tt H)) Hc). exact (ends _ _ _ _ _ _ (cost_isr B S (tag (value a)) H) (pf p_isr (tag (value a)) (value a) eq_refl)). Qed.
Theorem weigh_ed_add : forall P R c, ed_valid B (edv P) -> ed_valid B (edv R) -> spent (ed_addS _ _ N' edu edu) [] = Some c -> word_costs (ed_addS T O K P R) (fst c) (snd c).
Proof.
  intros P R c H H' Hc. refine (weighed _ _ _ _ _ _ _ _ _ _ (pq p_ed_add P _ R _ (edq P) (edq R)) _ (pc p_ed_add P _ R _ (edc P H) (edc R H')) Hc).
  exact (ends _ _ _ _ _ _ (cost_ed_add B S (edt P) (edt R) H H') (pf p_ed_add (edt P) _ (edt R) _ (edf P) (edf R))).
Qed.
Theorem weigh_tw_add : forall P R c, tw_valid B (twv P) -> tw_valid B (twv R) -> spent (tw_addS _ _ N' twu twu) [] = Some c -> word_costs (tw_addS T O K P R) (fst c) (snd c).
Proof.
  intros P R c H H' Hc. refine (weighed _ _ _ _ _ _ _ _ _ _ (pq p_tw_add P _ R _ (twq P) (twq R)) _ (pc p_tw_add P _ R _ (twc P H) (twc R H')) Hc).
  exact (ends _ _ _ _ _ _ (cost_tw_add B S (twt P) (twt R) H H') (pf p_tw_add (twt P) _ (twt R) _ (twf P) (twf R))).
Qed.
Theorem weigh_tw_double : forall P c, tw_valid B (twv P) -> spent (tw_doubleS _ _ N' twu) [] = Some c -> word_costs (tw_doubleS T O K P) (fst c) (snd c).
Proof.
  intros P c H Hc. refine (weighed _ _ _ _ _ _ _ _ _ _ (pq p_tw_double P _ (twq P)) _ (pc p_tw_double P _ (twc P H)) Hc).
  exact (ends _ _ _ _ _ _ (cost_tw_double B S (twt P) H) (pf p_tw_double (twt P) _ (twf P))).
Qed.
Theorem weigh_ed_mul : forall P t c, ed_valid B (edv P) -> is_scalar t -> spent (ed_scalar_mulS _ _ N' edu zeros) [] = Some c -> word_costs (ed_scalar_mulS T O K P t) (fst c) (snd c).
Proof.
  intros P t c H H' Hc. refine (weighed _ _ _ _ _ _ _ _ _ _ (pq p_ed_scalar_mul P _ t t (edq P) (scp t H')) _ (pc p_ed_scalar_mul P _ t zeros (edc P H) (scc t H')) Hc).
  exact (ends _ _ _ _ _ _ (cost_ed_mul B S (edt P) t H H') (pf p_ed_scalar_mul (edt P) _ t t (edf P) (scq t H'))).
Qed.
Theorem weigh_window : forall P t c, tw_valid B (twv P) -> is_scalar t -> spent (variable_baseS _ _ N' twu zeros) [] = Some c -> word_costs (variable_baseS T O K P t) (fst c) (snd c).
Proof.
  intros P t c H H' Hc. refine (weighed _ _ _ _ _ _ _ _ _ _ (pq p_variable_base P _ t t (twq P) (scp t H')) _ (pc p_variable_base P _ t zeros (twc P H) (scc t H')) Hc).
  exact (ends _ _ _ _ _ _ (cost_window B S (twt P) t H H') (pf p_variable_base (twt P) _ t t (twf P) (scq t H'))).
Qed.
Theorem weigh_bitwise : forall P t c, tw_valid B (twv P) -> is_scalar t -> spent (double_and_addS _ _ N' twu zeros) [] = Some c -> word_costs (double_and_addS T O K P t) (fst c) (snd c).
Proof.
  intros P t c H H' Hc. refine (weighed _ _ _ _ _ _ _ _ _ _ (pq p_double_and_add P _ t t (twq P) (scp t H')) _ (pc p_double_and_add P _ t zeros (twc P H) (scc t H')) Hc).
  exact (ends _ _ _ _ _ _ (cost_bitwise B S (twt P) t H H') (pf p_double_and_add (twt P) _ t t (twf P) (scq t H'))).
Qed.
Theorem weigh_double_base : forall P t u c, tw_valid B (twv P) -> is_scalar t -> is_scalar u -> spent (double_base_scalar_mulS _ _ N' zeros twu zeros) [] = Some c -> word_costs (double_base_scalar_mulS T O K t P u) (fst c) (snd c).
Proof.
  intros P t u c H H' H'' Hc. refine (weighed _ _ _ _ _ _ _ _ _ _ (pq p_double_base P _ t t u u (twq P) (scp t H') (scp u H'')) _ (pc p_double_base P _ t zeros u zeros (twc P H) (scc t H') (scc u H'')) Hc).
  exact (ends _ _ _ _ _ _ (cost_double_base B S (twt P) t u H H' H'') (pf p_double_base (twt P) _ t t u u (twf P) (scq t H') (scq u H''))).
Qed.
Theorem weigh_ladder : forall b t c, bytes 56 b -> is_scalar t -> spent (mp_mulS _ _ N' (repeat 0%Z 56) zeros) [] = Some c -> word_costs (mp_mulS T O K b t) (fst c) (snd c).
Proof.
  intros b t c H H' Hc. refine (weighed _ _ _ _ _ _ _ _ _ _ (pq p_mp_mul b b t t (byp _ _ H) (scp t H')) _ (pc p_mp_mul b _ t zeros (byc _ _ H) (scc t H')) Hc).
  exact (ends _ _ _ _ _ _ (cost_ladder B S b t H H') (pf p_mp_mul b b t t (byf _ _ H) (scq t H'))).
Qed.
Theorem weigh_ed_compress : forall P c, ed_valid B (edv P) -> spent (ed_compressS _ _ N' edu) [] = Some c -> word_costs (ed_compressS T O K P) (fst c) (snd c).
Proof.
  intros P c H Hc. refine (weighed _ _ _ _ _ _ _ _ _ _ (pq p_ed_compress P _ (edq P)) _ (pc p_ed_compress P _ (edc P H)) Hc).
  exact (ends _ _ _ _ _ _ (cost_ed_compress B S (edt P) H) (pf p_ed_compress (edt P) _ (edf P))).
Qed.
Theorem weigh_dc_compress : forall P c, tw_valid B (twv P) -> spent (dc_compressS _ _ N' twu) [] = Some c -> word_costs (dc_compressS T O K P) (fst c) (snd c).
Proof.
  intros P c H Hc. refine (weighed _ _ _ _ _ _ _ _ _ _ (pq p_dc_compress P _ (twq P)) _ (pc p_dc_compress P _ (twc P H)) Hc).
  exact (ends _ _ _ _ _ _ (cost_dc_compress B S (twt P) H) (pf p_dc_compress (twt P) _ (twf P))).
Qed.
Theorem weigh_torsion_free : forall P c, ed_valid B (edv P) -> spent (ed_is_torsion_freeS _ _ N' edu) [] = Some c -> word_costs (ed_is_torsion_freeS T O K P) (fst c) (snd c).
Proof.
  intros P c H Hc. refine (weighed _ _ _ _ _ _ _ _ _ _ (pq p_torsion_free P _ (edq P)) _ (pc p_torsion_free P _ (edc P H)) Hc).
  exact (ends _ _ _ _ _ _ (cost_torsion_free B S (edt P) H) (pf p_torsion_free (edt P) _ (edf P))).
Qed.
Theorem weigh_to_montgomery : forall P c, ed_valid B (edv P) -> spent (ed_to_montgomeryS _ _ N' edu) [] = Some c -> word_costs (ed_to_montgomeryS T O K P) (fst c) (snd c).
Proof.
  intros P c H Hc. refine (weighed _ _ _ _ _ _ _ _ _ _ (pq p_ed_to_montgomery P _ (edq P)) _ (pc p_ed_to_montgomery P _ (edc P H)) Hc).
  exact (ends _ _ _ _ _ _ (cost_to_montgomery B S (edt P) H) (pf p_ed_to_montgomery (edt P) _ (edf P))).
Qed.
Theorem weigh_mod_four : forall P t c, ed_valid B (edv P) -> is_scalar t -> spent (ed_scalar_mod_fourS _ _ N' edu zeros) [] = Some c -> word_costs (ed_scalar_mod_fourS T O K P t) (fst c) (snd c).
Proof.
  intros P t c H H' Hc. refine (weighed _ _ _ _ _ _ _ _ _ _ (pq p_ed_mod_four P _ t t (edq P) (scp t H')) _ (pc p_ed_mod_four P _ t zeros (edc P H) (scc t H')) Hc).
  exact (ends _ _ _ _ _ _ (cost_mod_four B S (edt P) t H H') (pf p_ed_mod_four (edt P) _ t t (edf P) (scq t H'))).
Qed.

(** ** Decoding *)
Local Notation inst f := (f word_op B S O K Rp Rd Q HB).
Lemma tally_branch : forall c c', Sec tally c c' -> rl tally eq (m_branch K c) (m_branch N' c').
Proof. intros c c' _. rewrite HB. apply tally_goes. Qed.
Theorem weigh_ed_decompress : forall b yes no, bytes 57 b ->
  spent (ed_decompressS _ _ N' (repeat 0%Z 57)) [false] = Some yes -> spent (ed_decompressS _ _ N' (repeat 0%Z 57)) [true] = Some no ->
  let c := match ed_decompress B b with Ok (Some _) => yes | _ => no end in word_spends (ed_decompressS T O K b) (fst c) (snd c).
Proof.
  intros b yes no Hb Hy Hn. pose proof (inst f_ed_decompress b Hb) as F. unfold edwards_branches in F. destruct (api_no_panic B S _ (AEdDecompress b) Hb) as (o & Eo). cbn [api_run] in Eo. rewrite Eo in *.
  destruct o as [P|].
  - destruct (weighed _ _ _ _ _ _ _ _ _ _ F (ex_intro _ _ eq_refl) (pc p_ed_decompress tally_branch b _ (byc _ _ Hb) Hb (zero_bytes _)) Hy) as (H1 & _ & H2). exact (conj H1 H2).
  - destruct (weighed _ _ _ _ _ _ _ _ _ _ F (ex_intro _ _ eq_refl) (pc p_ed_decompress tally_branch b _ (byc _ _ Hb) Hb (zero_bytes _)) Hn) as (H1 & _ & H2). exact (conj H1 H2).
Qed.
Theorem weigh_dc_decompress : forall b c1 c2 c3 c4, bytes 56 b -> let y := dc_decompressS _ _ N' (repeat 0%Z 56) in
  spent y [true] = Some c1 -> spent y [false; true] = Some c2 -> spent y [false; false; true] = Some c3 -> spent y [false; false; false] = Some c4 ->
  let c := match dc_verdict B b with TooLarge => c1 | IsOdd => c2 | NoPoint => c3 | Accepted => c4 end in word_spends (dc_decompressS T O K b) (fst c) (snd c).
Proof.
  intros b c1 c2 c3 c4 Hb y K1 K2 K3 K4. pose proof (inst f_dc_decompress b Hb) as F. unfold decaf_branches in F. destruct (api_no_panic B S _ (ADcDecompress b) Hb) as (o & Eo). cbn [api_run] in Eo.
  pose proof (pc p_dc_decompress tally_branch b _ (byc _ _ Hb) Hb (zero_bytes _)) as G. destruct (dc_verdict B b).
  - destruct (weighed _ _ _ _ _ _ _ _ _ _ F (ex_intro _ _ Eo) G K1) as (H1 & _ & H2). exact (conj H1 H2).
  - destruct (weighed _ _ _ _ _ _ _ _ _ _ F (ex_intro _ _ Eo) G K2) as (H1 & _ & H2). exact (conj H1 H2).
  - destruct (weighed _ _ _ _ _ _ _ _ _ _ F (ex_intro _ _ Eo) G K3) as (H1 & _ & H2). exact (conj H1 H2).
  - destruct (weighed _ _ _ _ _ _ _ _ _ _ F (ex_intro _ _ Eo) G K4) as (H1 & _ & H2). exact (conj H1 H2).
Qed.
End Weigh.
