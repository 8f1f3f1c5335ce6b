(** As the second half of WeighLogic.v, for the 64-bit backend. *)
Require Import ZArith List Bool Lia.
From Verif Require Import Base SpecParams FieldBackend FieldFiatModel FiatCode Backends ScalarModel TwistedModel ScalarMulModel EdwardsModel MontgomeryModel DecafModel
  Steps StepFiat StepScalar StepCurve StepPlain StepRelWords StepRelCurve TraceSpec TraceSpec64 TraceLogic TraceLogicWords TraceFiat CostSpec CostMain WeighLogic.
Import ListNotations.
Open Scope N_scope.

Notation q64 c := (c _ _ _ _ _ _ _ _ _ words64_quiet).
Notation t64 c := (c _ _ _ _ _ _ _ _ _ words64_two).
Local Notation old c := (c _ _ _ _ _ _ _ _ _ words_tally).
Lemma bytes_64 : forall a, length a = 8%nat -> rl tally (fun x y => length x = 56%nat /\ length y = 56%nat) (m_to_bytes words64_machine a) (spend (343, 0) (repeat 0%Z 56)).
Proof.
  intros a Ha. assert (G : rl tally (fun _ _ => True) (m_to_bytes words64_machine a) (spend (343, 0) (repeat 0%Z 56))).
  { eapply (tally_of _ _ _ _ _ _ _ _ _ (m_to_bytes words64_machine (void a))); [exact (q64 c_to a _ (plain_of a))|exact (t64 c_to a _ (void_shape a))|spread a Ha; any|spread a Ha; vm|spread a Ha; vm]. }
  intros x rest Ex. specialize (G x rest Ex). destruct (words64_bytes a _ (plain_of a)) as (_ & Hx). rewrite Ex in Hx. unfold spend in *. intuition.
  destruct (m_to_bytes (plain_machine (fiat_backend fiat_code)) (map fst a)); [|contradiction Hx]. apply Hx.
Qed.
Lemma eq_64 : forall x y, length x = 56%nat -> length y = 56%nat -> rl tally (fun _ _ => True) (m_bytes_eq words64_machine x y) (spend (449, 0) true).
Proof.
  intros x y Hx Hy. eapply (tally_of _ _ _ _ _ _ _ _ _ (m_bytes_eq words64_machine (repeat 0%Z 56) (repeat 0%Z 56))); [exact (words64_eq x y Hx Hy)| |any|vm|vm].
  exact (p_ct_eq_slice _ _ (two word_op) watched watched Wshape watched_two _ _ _ _ (inputs_shape _ _ _ _) (inputs_shape _ _ _ _)).
Qed.
Theorem words64_tally : mcompat _ _ tally _ _ words64_machine (weigh weights64) (Rlen 8) Rany.
Proof.
  constructor; try reflexivity.
  - intros a a' b b' Ha Hb. unfold Rlen in Ha, Hb. refine (tally_of _ _ _ _ _ _ _ _ _ (m_add words64_machine (void a) (void b)) _ _ (q64 c_add a _ b _ (plain_of a) (plain_of b)) (t64 c_add a _ b _ (void_shape a) (void_shape b)) _ _ _);
      [apply some_list| |]; spread a Ha; spread b Hb; vm.
  - intros a a' b b' Ha Hb. unfold Rlen in Ha, Hb. refine (tally_of _ _ _ _ _ _ _ _ _ (m_sub words64_machine (void a) (void b)) _ _ (q64 c_sub a _ b _ (plain_of a) (plain_of b)) (t64 c_sub a _ b _ (void_shape a) (void_shape b)) _ _ _);
      [apply some_list| |]; spread a Ha; spread b Hb; vm.
  - intros a a' b b' Ha Hb. unfold Rlen in Ha, Hb. refine (tally_of _ _ _ _ _ _ _ _ _ (m_mul words64_machine (void a) (void b)) _ _ (q64 c_mul a _ b _ (plain_of a) (plain_of b)) (t64 c_mul a _ b _ (void_shape a) (void_shape b)) _ _ _);
      [apply some_list| |]; spread a Ha; spread b Hb; vm.
  - intros a a' Ha. unfold Rlen in Ha. refine (tally_of _ _ _ _ _ _ _ _ _ (m_square words64_machine (void a)) _ _ (q64 c_square a _ (plain_of a)) (t64 c_square a _ (void_shape a)) _ _ _);
      [apply some_list| |]; spread a Ha; vm.
  - intros a a' Ha. unfold Rlen in Ha. refine (tally_of _ _ _ _ _ _ _ _ _ (m_negate words64_machine (void a)) _ _ (q64 c_negate a _ (plain_of a)) (t64 c_negate a _ (void_shape a)) _ _ _);
      [apply some_list| |]; spread a Ha; vm.
  - intros a a' Ha. unfold Rlen in Ha. refine (tally_of _ _ _ _ _ _ _ _ _ (m_strong_reduce words64_machine (void a)) _ _ (q64 c_strong a _ (plain_of a)) (t64 c_strong a _ (void_shape a)) _ _ _);
      [apply some_list| |]; spread a Ha; vm.
  - intros a a' b b' c c' Ha Hb _. unfold Rlen in Ha, Hb. refine (tally_of _ _ _ _ _ _ _ _ _ (m_select words64_machine (void a) (void b) false) _ _ (q64 c_select a _ b _ c c (plain_of a) (plain_of b) eq_refl)
      (t64 c_select a _ b _ c false (void_shape a) (void_shape b) I) _ _ _);
      [apply some_list| |]; spread a Ha; spread b Hb; vm.
  - intros a a' c c' Ha _. unfold Rlen in Ha. refine (tally_of _ _ _ _ _ _ _ _ _ (m_cond_negate words64_machine (void a) false) _ _ (q64 c_cneg a _ c c (plain_of a) eq_refl) (t64 c_cneg a _ c false (void_shape a) I) _ _ _);
      [apply some_list| |]; spread a Ha; vm.
  - intros a a' Ha. unfold Rlen in Ha. refine (tally_of _ _ _ _ _ _ _ _ _ (m_is_negative words64_machine (void a)) _ _ (q64 c_isneg a _ (plain_of a)) (t64 c_isneg a _ (void_shape a)) _ _ _); [spread a Ha; any| |]; spread a Ha; vm.
  - intros b b' (_ & Hb & _). refine (tally_of _ _ _ _ _ _ _ _ _ (m_from_bytes words64_machine (repeat 0%Z 56)) _ _ (q64 c_from b b (same_sc _ _ Hb)) (t64 c_from b _ (other_sc _ _ Hb)) _ _ _); [apply some_list| |]; vm.
  - intros a a' Ha. pose proof (bytes_64 a Ha) as G. intros x rest Ex. specialize (G x rest Ex). cbn in *. intuition.
  - exact (old c_sign).
  - exact (old c_sign_byte).
  - exact (old c_sc_add).
  - exact (old c_sc_sub).
  - exact (old c_sc_mul).
  - exact (old c_sc_invert).
  - exact (old c_sc_halve).
  - exact (old c_sc_wide).
  - exact (old c_div4).
  - exact (old StepRelCurve.c_bits).
  - exact (old c_radix16).
  - exact (old c_mod_four).
  - exact (old c_digit_abs).
  - exact (old c_digit_choice).
  - exact (old c_digit_ct_eq).
  - exact (old c_digit_eq).
  - intros a a' b b' Ha Hb. refine (l_bind tally _ _ _ _ _ _ (bytes_64 a Ha) _). intros x x' (Hx & _). refine (l_bind tally _ _ _ _ _ _ (bytes_64 b Hb) _). intros y y' (Hy & _). exact (eq_64 x y Hx Hy).
  - intros a a' b b' Ha (_ & Hb & _) _ _. refine (l_bind tally _ _ _ _ _ _ (bytes_64 a Ha) _). intros x x' (Hx & _). exact (eq_64 x b Hx Hb).
Qed.
