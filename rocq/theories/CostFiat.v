(** Counting the operations on words of the 64-bit field (as CostMain.v for the 32-bit one). *)
Require Import ZArith List Bool Lia.
From Verif Require Import Base SpecParams FieldBackend FieldFiatModel FiatCode FiatMain Backends BackendLaws Steps StepFiat StepCurve StepPlain StepRelWords StepRelFiat
  TraceSpec TraceSpec64 TraceLogic TraceLogicWords TraceWords TraceFiat CostSpec CostMain.
Import ListNotations.
Open Scope Z_scope.

Local Notation P := fiat_code.
Local Notation p2 f := (f _ _ (two word_op) watched watched Wshape watched_two).
Local Notation pq f := (f _ _ (quiet word_op) watched plain Wplain watched_quiet).
Lemma negates : forall a, tight56 a -> exists v, negate56S panics plain a = Ok v.
Proof.
  intros a Ha. destruct (fc_opp P fiat_code_contract _ Ha) as (r & E & Hr & _). destruct (fc_carry P fiat_code_contract r Hr) as (s & E' & _). exists s. rewrite e_negate56. unfold negate56. rewrite E. exact E'.
Qed.
Lemma wcost_add56 : forall a b, tight56 (vals a) -> tight56 (vals b) -> word_costs (add56S (tracing word_op) watched a b) 50 0.
Proof.
  intros a b Ha Hb. pose proof (eq_trans (vals_length a) (proj1 Ha)) as La. pose proof (eq_trans (vals_length b) (proj1 Hb)) as Lb.
  eapply word_cost_of; [exact (pq p_add56 a _ b _ (vals_plain a) (vals_plain b))| |exact (p2 p_add56 a _ b _ (void_shape a) (void_shape b))| | | |].
  - destruct (fc_add P fiat_code_contract _ _ Ha Hb) as (r & E & Hr & _). destruct (fc_carry P fiat_code_contract r Hr) as (s & E' & _). exists s. rewrite e_add56. unfold add56. rewrite E. exact E'.
  - clear Ha Hb. spread a La. spread b Lb. vm.
  - clear Ha Hb. spread a La. spread b Lb. vm.
  - clear Ha Hb. spread a La. spread b Lb. vm.
  - clear Ha Hb. spread a La. spread b Lb. vm.
Qed.
Lemma wcost_sub56 : forall a b, tight56 (vals a) -> tight56 (vals b) -> word_costs (sub56S (tracing word_op) watched a b) 58 0.
Proof.
  intros a b Ha Hb. pose proof (eq_trans (vals_length a) (proj1 Ha)) as La. pose proof (eq_trans (vals_length b) (proj1 Hb)) as Lb.
  eapply word_cost_of; [exact (pq p_sub56 a _ b _ (vals_plain a) (vals_plain b))| |exact (p2 p_sub56 a _ b _ (void_shape a) (void_shape b))| | | |].
  - destruct (fc_sub P fiat_code_contract _ _ Ha Hb) as (r & E & Hr & _). destruct (fc_carry P fiat_code_contract r Hr) as (s & E' & _). exists s. rewrite e_sub56. unfold sub56. rewrite E. exact E'.
  - clear Ha Hb. spread a La. spread b Lb. vm.
  - clear Ha Hb. spread a La. spread b Lb. vm.
  - clear Ha Hb. spread a La. spread b Lb. vm.
  - clear Ha Hb. spread a La. spread b Lb. vm.
Qed.
Lemma wcost_mul56 : forall a b, loose56 (vals a) -> loose56 (vals b) -> word_costs (mul56S (tracing word_op) watched a b) 244 98.
Proof.
  intros a b Ha Hb. pose proof (eq_trans (vals_length a) (proj1 Ha)) as La. pose proof (eq_trans (vals_length b) (proj1 Hb)) as Lb.
  eapply word_cost_of; [exact (pq p_mul56 a _ b _ (vals_plain a) (vals_plain b))| |exact (p2 p_mul56 a _ b _ (void_shape a) (void_shape b))| | | |].
  - destruct (fc_carry_mul P fiat_code_contract _ _ Ha Hb) as (r & E & _). exists r. rewrite e_mul56. exact E.
  - clear Ha Hb. spread a La. spread b Lb. vm.
  - clear Ha Hb. spread a La. spread b Lb. vm.
  - clear Ha Hb. spread a La. spread b Lb. vm.
  - clear Ha Hb. spread a La. spread b Lb. vm.
Qed.
Lemma wcost_square56 : forall a, loose56 (vals a) -> word_costs (square56S (tracing word_op) watched a) 167 63.
Proof.
  intros a Ha. pose proof (eq_trans (vals_length a) (proj1 Ha)) as La.
  eapply word_cost_of; [exact (pq p_square56 a _ (vals_plain a))| |exact (p2 p_square56 a _ (void_shape a))| | | |].
  - destruct (fc_carry_square P fiat_code_contract _ Ha) as (r & E & _). exists r. rewrite e_square56. exact E.
  - clear Ha. spread a La. vm.
  - clear Ha. spread a La. vm.
  - clear Ha. spread a La. vm.
  - clear Ha. spread a La. vm.
Qed.
Lemma wcost_negate56 : forall a, tight56 (vals a) -> word_costs (negate56S (tracing word_op) watched a) 50 0.
Proof.
  intros a Ha. pose proof (eq_trans (vals_length a) (proj1 Ha)) as La.
  eapply word_cost_of; [exact (pq p_negate56 a _ (vals_plain a))| |exact (p2 p_negate56 a _ (void_shape a))| | | |].
  - exact (negates _ Ha).
  - clear Ha. spread a La. vm.
  - clear Ha. spread a La. vm.
  - clear Ha. spread a La. vm.
  - clear Ha. spread a La. vm.
Qed.
Lemma wcost_strong_reduce56 : forall a, loose56 (vals a) -> word_costs (strong_reduce56S (tracing word_op) watched a) 42 0.
Proof.
  intros a Ha. pose proof (eq_trans (vals_length a) (proj1 Ha)) as La.
  eapply word_cost_of; [exact (pq p_fcarry a _ (vals_plain a))| |exact (p2 p_fcarry a _ (void_shape a))| | | |].
  - destruct (fc_carry P fiat_code_contract _ Ha) as (r & E & _). exists r. exact E.
  - clear Ha. spread a La. vm.
  - clear Ha. spread a La. vm.
  - clear Ha. spread a La. vm.
  - clear Ha. spread a La. vm.
Qed.
Lemma wcost_conditional_select56 : forall a b c, array 64 8 (vals a) -> array 64 8 (vals b) -> word_costs (conditional_select56S (tracing word_op) watched a b c) 57 0.
Proof.
  intros a b c Ha Hb. pose proof (eq_trans (vals_length a) (proj1 Ha)) as La. pose proof (eq_trans (vals_length b) (proj1 Hb)) as Lb.
  eapply word_cost_of; [exact (pq p_select56 a _ b _ c c (vals_plain a) (vals_plain b) eq_refl)| |exact (p2 p_select56 a _ b _ c true (void_shape a) (void_shape b) I)| | | |].
  - exists (if c then vals b else vals a). rewrite e_select56. unfold conditional_select56. rewrite (fc_selectznz P fiat_code_contract _ _ _ Ha Hb) by (destruct c; auto). destruct c; reflexivity.
  - clear Ha Hb. spread a La. spread b Lb. vm.
  - clear Ha Hb. spread a La. spread b Lb. vm.
  - clear Ha Hb. spread a La. spread b Lb. vm.
  - clear Ha Hb. spread a La. spread b Lb. vm.
Qed.
Lemma wcost_conditional_negate56 : forall a c, tight56 (vals a) -> word_costs (conditional_negate56S (tracing word_op) watched a c) 107 0.
Proof.
  intros a c Ha. pose proof (eq_trans (vals_length a) (proj1 Ha)) as La.
  eapply word_cost_of; [exact (pq p_cneg56 a _ c c (vals_plain a) eq_refl)| |exact (p2 p_cneg56 a _ c true (void_shape a) I)| | | |].
  - destruct (l_cneg _ (shipped_laws _ shipped_code) (vals a) c Ha) as (r & E & _). exists r. rewrite e_cond_negate56. exact E.
  - clear Ha. spread a La. vm.
  - clear Ha. spread a La. vm.
  - clear Ha. spread a La. vm.
  - clear Ha. spread a La. vm.
Qed.
Lemma wcost_is_negative56 : forall a, tight56 (vals a) -> word_costs (is_negative56S (tracing word_op) watched a) 289 0.
Proof.
  intros a Ha. pose proof (eq_trans (vals_length a) (proj1 Ha)) as La.
  eapply word_cost_of; [exact (pq p_is_negative56 a _ (vals_plain a))| |exact (p2 p_is_negative56 a _ (void_shape a))| | | |].
  - eexists. rewrite e_is_negative56. unfold is_negative56, to_bytes56. rewrite (fc_to_bytes P fiat_code_contract _ Ha). reflexivity.
  - clear Ha. spread a La. vm.
  - clear Ha. spread a La. vm.
  - clear Ha. spread a La. vm.
  - clear Ha. spread a La. vm.
Qed.
Lemma wcost_from_bytes56 : forall a, bytes 56 (vals a) -> word_costs (from_bytes56S (tracing word_op) watched a) 96 0.
Proof.
  intros a Ha. pose proof (eq_trans (vals_length a) (proj1 Ha)) as La.
  eapply word_cost_of; [exact (pq p_from_bytes56 a _ (vals_plain a))| |exact (p2 p_from_bytes56 a _ (void_shape a))| | | |].
  - destruct (fc_from_bytes P fiat_code_contract _ Ha) as (r & E & _). exists r. exact E.
  - clear Ha. spread a La. vm.
  - clear Ha. spread a La. vm.
  - clear Ha. spread a La. vm.
  - clear Ha. spread a La. vm.
Qed.
Lemma wcost_to_bytes56 : forall a, tight56 (vals a) -> word_costs (to_bytes56S (tracing word_op) watched a) 287 0.
Proof.
  intros a Ha. pose proof (eq_trans (vals_length a) (proj1 Ha)) as La.
  eapply word_cost_of; [exact (pq p_to_bytes56 a _ (vals_plain a))| |exact (p2 p_to_bytes56 a _ (void_shape a))| | | |].
  - eexists. rewrite e_to_bytes56. exact (fc_to_bytes P fiat_code_contract _ Ha).
  - clear Ha. spread a La. vm.
  - clear Ha. spread a La. vm.
  - clear Ha. spread a La. vm.
  - clear Ha. spread a La. vm.
Qed.
