(** What the 64-bit word machine satisfies, and the theorems about programs run on it (as TraceLogicWords.v, TraceMain.v and
    TraceWords.v for 32 bits). *)
Require Import ZArith List Bool Lia.
From Verif Require Import Base SpecParams FieldBackend FieldFiatModel FiatCode FiatMain Backends ScalarModel TwistedModel ScalarMulModel EdwardsModel MontgomeryModel DecafModel ApiExpr ApiRun
  Steps StepSubtle StepFiat StepScalar StepCurve StepPlain StepRelWords StepRelFiat StepRelCurve TraceSpec TraceSpec64 TraceLogic TraceLogicWords TraceScalar TraceFacts TraceMain TraceWords.
Import ListNotations.
Open Scope Z_scope.

Local Notation P := fiat_code.
Local Notation B := (fiat_backend fiat_code).
Local Notation pt f := (f _ _ (two word_op) watched watched Wshape watched_two).
Local Notation pq f := (f _ _ (quiet word_op) watched plain Wplain watched_quiet).

(** ** Against the plain code *)
Definition Rlimbs64 (a : fe words64) (b : fe B) : Prop := Forall2 Wplain a b.
Lemma words64_bytes : forall a a', Rlimbs64 a a' -> rl (quiet word_op) (fun x y => x = y /\ length x = 56%nat) (m_to_bytes words64_machine a) (m_to_bytes (plain_machine B) a').
Proof.
  intros a a' H. assert (G : rl (quiet word_op) (Sec (quiet word_op)) (m_to_bytes words64_machine a) (to_bytes56 P a')) by (rewrite <- e_to_bytes56, <- e_out; apply (pq p_out), (pq p_to_bytes56); assumption).
  change (m_to_bytes (plain_machine B) a') with (to_bytes56 P a'). destruct G as (G1 & G2). split; [exact G1|]. destruct (snd _) as [x|]; destruct (to_bytes56 P a') as [y|] eqn:E; try contradiction; [|exact I].
  cbn [agrees] in *. change (x = y) in G2. subst y. split; [reflexivity|]. exact (to_bytes56_length _ _ E).
Qed.
Lemma words64_eq : forall x y, length x = 56%nat -> length y = 56%nat -> rl (quiet word_op) (Sec (quiet word_op)) (m_bytes_eq words64_machine x y) (m_bytes_eq (plain_machine B) x y).
Proof.
  intros x y Hx Hy. change (m_bytes_eq (plain_machine B) x y) with (Ok (list_eqb x y)). rewrite <- e_ct_eq_slice. apply (pq p_ct_eq_slice); apply inputs_plain; assumption.
Qed.
Local Notation old c := (c _ _ _ _ _ _ _ _ _ words_quiet).
Local Notation old2 c := (c _ _ _ _ _ _ _ _ _ words_two).
Ltac same := match goal with H : Sec _ ?c ?d |- _ => change (c = d) in H; subst d end.
Theorem words64_quiet : mcompat _ _ (quiet word_op) _ _ words64_machine (plain_machine B) Rlimbs64 Wplain.
Proof.
  constructor; try exact (lits_plain _).
  - intros. change (m_add (plain_machine B) a' b') with (add56 P a' b'). rewrite <- e_add56. apply (pq p_add56); assumption.
  - intros. change (m_sub (plain_machine B) a' b') with (sub56 P a' b'). rewrite <- e_sub56. apply (pq p_sub56); assumption.
  - intros. change (m_mul (plain_machine B) a' b') with (mul56 P a' b'). rewrite <- e_mul56. apply (pq p_mul56); assumption.
  - intros. change (m_square (plain_machine B) a') with (square56 P a'). rewrite <- e_square56. apply (pq p_square56); assumption.
  - intros. change (m_negate (plain_machine B) a') with (negate56 P a'). rewrite <- e_negate56. apply (pq p_negate56); assumption.
  - intros. change (m_strong_reduce (plain_machine B) a') with (strong_reduce56 P a'). rewrite <- e_strong_reduce56. apply (pq p_fcarry); assumption.
  - intros. same. change (m_select (plain_machine B) a' b' c) with (conditional_select56 P a' b' c). rewrite <- e_select56. apply (pq p_select56); [assumption|assumption|reflexivity].
  - intros. same. change (m_cond_negate (plain_machine B) a' c) with (conditional_negate56 P a' c). rewrite <- e_cond_negate56. apply (pq p_cneg56); [assumption|reflexivity].
  - intros. change (m_is_negative (plain_machine B) a') with (is_negative56 P a'). rewrite <- e_is_negative56. apply (pq p_is_negative56); assumption.
  - intros b b' (H & Hb & Hb'). same. change (m_from_bytes (plain_machine B) b) with (from_bytes56 P b). rewrite <- e_from_bytes56. apply (pq p_from_bytes56). apply inputs_plain. exact Hb.
  - intros. change (m_to_bytes (plain_machine B) a') with (to_bytes56 P a'). rewrite <- e_to_bytes56, <- e_out. apply (pq p_out), (pq p_to_bytes56); assumption.
  - exact (old c_sign).
  - exact (old c_sign_byte).
  - exact (old c_sc_add).
  - exact (old c_sc_sub).
  - exact (old c_sc_mul).
  - exact (old c_sc_invert).
  - exact (old c_sc_halve).
  - exact (old c_sc_wide).
  - exact (old c_div4).
  - exact (old StepRelCurve.c_bits).
  - exact (old c_radix16).
  - exact (old c_mod_four).
  - exact (old c_digit_abs).
  - exact (old c_digit_choice).
  - exact (old c_digit_ct_eq).
  - exact (old c_digit_eq).
  - intros. unfold fe_ct_eqS. apply (l_bind (quiet word_op) (fun x y => x = y /\ length x = 56%nat)); [apply words64_bytes; assumption|]. intros x x' (<- & Hx).
    apply (l_bind (quiet word_op) (fun x y => x = y /\ length x = 56%nat)); [apply words64_bytes; assumption|]. intros y y' (<- & Hy). apply words64_eq; assumption.
  - intros a a' b b' Ha (H & Hb & Hb') _ _. same. apply (l_bind (quiet word_op) (fun x y => x = y /\ length x = 56%nat)); [apply words64_bytes; assumption|]. intros x x' (<- & Hx). apply words64_eq; assumption.
Qed.

(** ** Two runs *)
Definition Rwords64 (a b : fe words64) : Prop := Forall2 Wshape a b.
Ltac inw := repeat first [assumption | apply inputs_shape | exact I | reflexivity].
Theorem words64_two : mcompat _ _ (two word_op) _ _ words64_machine words64_machine Rwords64 Wshape.
Proof.
  constructor; try exact (lits_shape _).
  - intros. apply (pt p_add56); inw.
  - intros. apply (pt p_sub56); inw.
  - intros. apply (pt p_mul56); inw.
  - intros. apply (pt p_square56); inw.
  - intros. apply (pt p_negate56); inw.
  - intros. apply (pt p_fcarry); inw.
  - intros. apply (pt p_select56); inw.
  - intros. apply (pt p_cneg56); inw.
  - intros. apply (pt p_is_negative56); inw.
  - intros. apply (pt p_from_bytes56); inw.
  - intros. apply (pt p_out), (pt p_to_bytes56); inw.
  - exact (old2 c_sign).
  - exact (old2 c_sign_byte).
  - exact (old2 c_sc_add).
  - exact (old2 c_sc_sub).
  - exact (old2 c_sc_mul).
  - exact (old2 c_sc_invert).
  - exact (old2 c_sc_halve).
  - exact (old2 c_sc_wide).
  - exact (old2 c_div4).
  - exact (old2 StepRelCurve.c_bits).
  - exact (old2 c_radix16).
  - exact (old2 c_mod_four).
  - exact (old2 c_digit_abs).
  - exact (old2 c_digit_choice).
  - exact (old2 c_digit_ct_eq).
  - exact (old2 c_digit_eq).
  - intros. unfold fe_ct_eqS. apply (l_bind (two word_op) (Sec (two word_op))); [apply (pt p_out), (pt p_to_bytes56); inw|]. intros.
    apply (l_bind (two word_op) (Sec (two word_op))); [apply (pt p_out), (pt p_to_bytes56); inw|]. intros. apply (pt p_ct_eq_slice); inw.
  - intros. apply (l_bind (two word_op) (Sec (two word_op))); [apply (pt p_out), (pt p_to_bytes56); inw|]. intros. apply (pt p_ct_eq_slice); inw.
Qed.

(** ** Programs *)
Lemma word64_shapes_of : forall s (v w : val words64 s), Rval _ _ (two word_op) words64 words64 Rwords64 s v w -> word64_shapes v = word64_shapes w.
Proof. intros s v w H. pose proof (coords_of word_op words64 Rwords64 s v w H) as G. unfold word64_shapes. induction G as [|x y l l' E _ IH]; [reflexivity|]. cbn [map]. rewrite IH, (map_snd_shape _ _ E). reflexivity. Qed.
Lemma word64_values_of : forall s (v : val words64 s) (w : val B s), Rval _ _ (quiet word_op) words64 B Rlimbs64 s v w -> word64_values v = w.
Proof.
  intros s v w. unfold word64_values. destruct s; cbn [Rval map_val]; unfold Red, Reda, Rtw, Rxt, Rpn, Rpm, Rlimbs64.
  - intro H. exact H.
  - destruct w. cbn. intros (E1 & E2 & E3 & E4). rewrite (map_fst_plain _ _ E1), (map_fst_plain _ _ E2), (map_fst_plain _ _ E3), (map_fst_plain _ _ E4). reflexivity.
  - destruct w. cbn. intros (E1 & E2). rewrite (map_fst_plain _ _ E1), (map_fst_plain _ _ E2). reflexivity.
  - intro H. induction H as [|P Q l l' (E1 & E2 & E3 & E4) H IH]; [reflexivity|]. cbn [map]. rewrite IH, (map_fst_plain _ _ E1), (map_fst_plain _ _ E2), (map_fst_plain _ _ E3), (map_fst_plain _ _ E4).
    destruct Q. reflexivity.
  - destruct w. cbn. intros (E1 & E2 & E3 & E4). rewrite (map_fst_plain _ _ E1), (map_fst_plain _ _ E2), (map_fst_plain _ _ E3), (map_fst_plain _ _ E4). reflexivity.
  - destruct w. cbn. intros (E1 & E2 & E3 & E4 & E5). rewrite (map_fst_plain _ _ E1), (map_fst_plain _ _ E2), (map_fst_plain _ _ E3), (map_fst_plain _ _ E4), (map_fst_plain _ _ E5). reflexivity.
  - destruct w. cbn. intros (E1 & E2 & E3 & E4). rewrite (map_fst_plain _ _ E1), (map_fst_plain _ _ E2), (map_fst_plain _ _ E3), (map_fst_plain _ _ E4). reflexivity.
  - destruct w. cbn. intros (E1 & E2). rewrite (map_fst_plain _ _ E1), (map_fst_plain _ _ E2). reflexivity.
  - destruct w. cbn. intros (E1 & E2 & E3 & E4). rewrite (map_fst_plain _ _ E1), (map_fst_plain _ _ E2), (map_fst_plain _ _ E3), (map_fst_plain _ _ E4). reflexivity.
  - destruct w. cbn. intros (E1 & E2 & E3 & E4). rewrite (map_fst_plain _ _ E1), (map_fst_plain _ _ E2), (map_fst_plain _ _ E3), (map_fst_plain _ _ E4). reflexivity.
Qed.
Definition shipped_code : shipped B := shipped_fiat fiat_code fiat_code_contract.
Local Notation inst f := (f word_op B shipped_code words64 words64_machine Rlimbs64 Wplain words64_quiet (fun c => eq_refl) words_canonical).
Lemma Rwords64_refl : forall a, Rwords64 a a. Proof. intro a. apply F2_refl. reflexivity. Qed.
Local Notation inst2 f := (inst f Rwords64 Rwords64_refl Wshape words64_two (fun b b' _ _ => canonical_two b b')).
Theorem word64_branches : forall s (e : api s), api_ok e -> branches (fst (word64_run e)) = decisions B e.
Proof. intros s e He. exact (proj1 (inst both_run s e He)). Qed.
Theorem word64_result : forall s (e : api s), api_ok e -> exists o, snd (word64_run e) = Ok o /\ api_run B e = Ok (option_map word64_values o).
Proof.
  intros s e He. destruct (inst both_returns s e He) as (o & Eo). exists o. split; [exact Eo|]. pose proof (follows_ok (inst both_run s e He) Eo) as F.
  destruct (api_run B e) as [[w|]|]; destruct o as [v|]; cbn [agrees Ropt] in F; try contradiction; [|reflexivity]. cbn [option_map]. rewrite (word64_values_of s v w F). reflexivity.
Qed.
Theorem word64_traces : forall s (e e' : api s), api_ok e -> api_ok e' -> same_calls any s e e' ->
  (fst (word64_run e) = fst (word64_run e') <-> decisions B e = decisions B e') /\
  (decisions B e = decisions B e' -> exists o o', snd (word64_run e) = Ok o /\ snd (word64_run e') = Ok o' /\ option_map word64_shapes o = option_map word64_shapes o').
Proof.
  intros s e e' He He' H. destruct (inst2 both_traces s e e' He He' H) as (T & G). split; [exact T|]. intro Hd. destruct (G Hd) as (o & o' & Eo & Eo' & R). exists o, o'. split; [exact Eo|]. split; [exact Eo'|].
  destruct o as [v|], o' as [w|]; cbn [Ropt] in R; try contradiction; [|reflexivity]. cbn [option_map]. rewrite (word64_shapes_of s v w R). reflexivity.
Qed.
Theorem word64_alike : forall s (e e' : api s), api_ok e -> api_ok e' -> same_calls (alike B) s e e' ->
  exists t o o', word64_run e = (t, Ok o) /\ word64_run e' = (t, Ok o') /\ option_map word64_shapes o = option_map word64_shapes o'.
Proof.
  intros s e e' He He' H. pose proof (field_decisions B shipped_code s e e' He He' H) as Hd. destruct (word64_traces s e e' He He' (any_calls _ _ _ _ H)) as (T & G).
  destruct (G Hd) as (o & o' & Eo & Eo' & R). exists (fst (word64_run e)), o, o'. split; [rewrite <- Eo; apply surjective_pairing|]. split; [|exact R].
  rewrite (proj2 T Hd), <- Eo'. apply surjective_pairing.
Qed.

(** ** Functions *)
Local Notation T := (tracing word_op).
Local Notation vp := vals_plain. Local Notation es := exprs_shape.
Lemma words64_field : forall a a' b b' c c', exprs a = exprs a' -> exprs b = exprs b' ->
  same_steps exprs (add56S T watched a b) (add56S T watched a' b') /\
  same_steps exprs (sub56S T watched a b) (sub56S T watched a' b') /\
  same_steps exprs (mul56S T watched a b) (mul56S T watched a' b') /\
  same_steps exprs (square56S T watched a) (square56S T watched a') /\
  same_steps exprs (negate56S T watched a) (negate56S T watched a') /\
  same_steps exprs (strong_reduce56S T watched a) (strong_reduce56S T watched a') /\
  same_steps exprs (conditional_select56S T watched a b c) (conditional_select56S T watched a' b' c') /\
  same_steps exprs (conditional_negate56S T watched a c) (conditional_negate56S T watched a' c') /\
  same_steps (fun _ => tt) (is_negative56S T watched a) (is_negative56S T watched a') /\
  same_steps exprs (from_bytes56S T watched a) (from_bytes56S T watched a') /\
  same_steps exprs (to_bytes56S T watched a) (to_bytes56S T watched a').
Proof.
  intros a a' b b' c c' Ha Hb. repeat match goal with |- _ /\ _ => split end.
  - exact (same_words_of _ _ _ _ (pq p_add56 a _ b _ (vp a) (vp b)) (pq p_add56 a' _ b' _ (vp a') (vp b')) (pt p_add56 a a' b b' (es _ _ Ha) (es _ _ Hb))).
  - exact (same_words_of _ _ _ _ (pq p_sub56 a _ b _ (vp a) (vp b)) (pq p_sub56 a' _ b' _ (vp a') (vp b')) (pt p_sub56 a a' b b' (es _ _ Ha) (es _ _ Hb))).
  - exact (same_words_of _ _ _ _ (pq p_mul56 a _ b _ (vp a) (vp b)) (pq p_mul56 a' _ b' _ (vp a') (vp b')) (pt p_mul56 a a' b b' (es _ _ Ha) (es _ _ Hb))).
  - exact (same_words_of _ _ _ _ (pq p_square56 a _ (vp a)) (pq p_square56 a' _ (vp a')) (pt p_square56 a a' (es _ _ Ha))).
  - exact (same_words_of _ _ _ _ (pq p_negate56 a _ (vp a)) (pq p_negate56 a' _ (vp a')) (pt p_negate56 a a' (es _ _ Ha))).
  - exact (same_words_of _ _ _ _ (pq p_fcarry a _ (vp a)) (pq p_fcarry a' _ (vp a')) (pt p_fcarry a a' (es _ _ Ha))).
  - exact (same_words_of _ _ _ _ (pq p_select56 a _ b _ c c (vp a) (vp b) eq_refl) (pq p_select56 a' _ b' _ c' c' (vp a') (vp b') eq_refl) (pt p_select56 a a' b b' c c' (es _ _ Ha) (es _ _ Hb) I)).
  - exact (same_words_of _ _ _ _ (pq p_cneg56 a _ c c (vp a) eq_refl) (pq p_cneg56 a' _ c' c' (vp a') eq_refl) (pt p_cneg56 a a' c c' (es _ _ Ha) I)).
  - exact (same_bits_of _ _ _ _ _ _ _ _ (pq p_is_negative56 a _ (vp a)) (pq p_is_negative56 a' _ (vp a')) (pt p_is_negative56 a a' (es _ _ Ha))).
  - exact (same_words_of _ _ _ _ (pq p_from_bytes56 a _ (vp a)) (pq p_from_bytes56 a' _ (vp a')) (pt p_from_bytes56 a a' (es _ _ Ha))).
  - exact (same_words_of _ _ _ _ (pq p_to_bytes56 a _ (vp a)) (pq p_to_bytes56 a' _ (vp a')) (pt p_to_bytes56 a a' (es _ _ Ha))).
Qed.
Lemma words64_field_results : forall a b c,
  computes vals (add56S T watched a b) (add56 P (vals a) (vals b)) /\
  computes vals (sub56S T watched a b) (sub56 P (vals a) (vals b)) /\
  computes vals (mul56S T watched a b) (mul56 P (vals a) (vals b)) /\
  computes vals (square56S T watched a) (square56 P (vals a)) /\
  computes vals (negate56S T watched a) (negate56 P (vals a)) /\
  computes vals (strong_reduce56S T watched a) (strong_reduce56 P (vals a)) /\
  computes vals (conditional_select56S T watched a b c) (conditional_select56 P (vals a) (vals b) c) /\
  computes vals (conditional_negate56S T watched a c) (conditional_negate56 P (vals a) c) /\
  computes (fun x => x) (is_negative56S T watched a) (is_negative56 P (vals a)) /\
  computes vals (from_bytes56S T watched a) (from_bytes56 P (vals a)) /\
  computes vals (to_bytes56S T watched a) (to_bytes56 P (vals a)).
Proof.
  intros a b c. rewrite <- e_add56, <- e_sub56, <- e_mul56, <- e_square56, <- e_negate56, <- e_strong_reduce56, <- e_select56, <- e_cond_negate56, <- e_is_negative56, <- e_from_bytes56, <- e_to_bytes56.
  repeat match goal with |- _ /\ _ => split end.
  - exact (computes_of _ _ vals _ _ _ (pq p_add56 a _ b _ (vp a) (vp b)) map_fst_plain).
  - exact (computes_of _ _ vals _ _ _ (pq p_sub56 a _ b _ (vp a) (vp b)) map_fst_plain).
  - exact (computes_of _ _ vals _ _ _ (pq p_mul56 a _ b _ (vp a) (vp b)) map_fst_plain).
  - exact (computes_of _ _ vals _ _ _ (pq p_square56 a _ (vp a)) map_fst_plain).
  - exact (computes_of _ _ vals _ _ _ (pq p_negate56 a _ (vp a)) map_fst_plain).
  - exact (computes_of _ _ vals _ _ _ (pq p_fcarry a _ (vp a)) map_fst_plain).
  - exact (computes_of _ _ vals _ _ _ (pq p_select56 a _ b _ c c (vp a) (vp b) eq_refl) map_fst_plain).
  - exact (computes_of _ _ vals _ _ _ (pq p_cneg56 a _ c c (vp a) eq_refl) map_fst_plain).
  - exact (computes_of _ _ (fun x => x) _ _ _ (pq p_is_negative56 a _ (vp a)) (fun _ _ E => E)).
  - exact (computes_of _ _ vals _ _ _ (pq p_from_bytes56 a _ (vp a)) map_fst_plain).
  - exact (computes_of _ _ vals _ _ _ (pq p_to_bytes56 a _ (vp a)) map_fst_plain).
Qed.
