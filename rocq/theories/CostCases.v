(** Cases for C67. *)
Require Import ZArith List Bool.
From Verif Require Import Base SpecParams FieldBackend Backends BackendLaws ScalarModel TwistedModel EdwardsModel ApiExpr PointSpec EdwardsCases
  FieldFiatModel FiatCode FiatMain Steps StepFiat StepCurve TraceSpec TraceWords CostSpec CostMain CostFiat.
Import ListNotations.
Open Scope Z_scope.

Lemma generator_cost : forall B, shipped B -> forall t, is_scalar t ->
  let P : EdPoint (tagged B) := @mkEd (tagged B) (BASE_X B, SIn 0) (BASE_Y B, SIn 1) (BASE_Z B, SIn 2) (BASE_T B, SIn 3) in
  ed_valid B (field_values (s := TEd) P) /\ muls (field_cost (fst (ed_scalar_mulS _ _ (field_machine B) P t))) = 2694%N /\
  squares (field_cost (fst (ed_scalar_mulS _ _ (field_machine B) P t))) = 4954%N.
Proof.
  intros B S t Ht P. assert (V : ed_valid B (field_values (s := TEd) P)) by exact (proj1 (gen_valid B S)).
  destruct (cost_ed_mul B S P t V Ht) as (_ & _ & E). split; [exact V|]. split.
  - exact (eq_trans (f_equal muls E) eq_refl).
  - exact (eq_trans (f_equal squares E) eq_refl).
Qed.

Lemma skipping_cost : forall B, shipped B -> forall a, fe_tight B a ->
  let K := field_machine B in
  let step (r : fe (tagged B)) (b : bool) := andthen (m_square K r) (fun q => if b then m_mul K q (a, SIn 0) else @ret (tracing operation) _ q) in
  let power b b' := andthen (step (a, SIn 0) b) (fun r => step r b') in
  muls (field_cost (fst (power true true))) = 2%N /\ muls (field_cost (fst (power true false))) = 1%N.
Proof.
  intros B S a Ta. pose proof (shipped_laws B S) as L.
  assert (Hs : forall x, fe_tight B x -> exists z, fe_square B x = Ok z /\ fe_tight B z).
  { intros x Tx. destruct (l_square B L x (l_loose B L x Tx)) as (z & E & Tz & _). exists z. auto. }
  assert (Hm : forall x, fe_tight B x -> exists z, fe_mul B x a = Ok z /\ fe_tight B z).
  { intros x Tx. destruct (l_mul B L x a (l_loose B L x Tx) (l_loose B L a Ta)) as (z & E & Tz & _). exists z. auto. }
  intros K step power. subst power step K. cbn [m_square m_mul field_machine]. unfold field, does. cbn [fst snd andthen tracing].
  destruct (Hs a Ta) as (z1 & E1 & T1). rewrite !E1. cbn -[fe_mul fe_square field_cost muls app]. destruct (Hm z1 T1) as (z2 & E2 & T2). rewrite !E2. cbn -[fe_mul fe_square field_cost muls app].
  destruct (Hs z2 T2) as (z3 & E3 & T3). rewrite !E3. cbn -[fe_mul fe_square field_cost muls app]. split; reflexivity.
Qed.

Lemma largest_product : let a := map (fun i => (2 ^ 56, WIn i)) (seq 0 8) in
  tight56 (vals a) /\ word_costs (mul56S _ watched a a) 244 98.
Proof.
  intro a. assert (H : tight56 (vals a)) by (split; [reflexivity|]; repeat constructor; vm_compute; congruence).
  split; [exact H|]. apply wcost_mul56; apply tight_loose56; exact H.
Qed.
