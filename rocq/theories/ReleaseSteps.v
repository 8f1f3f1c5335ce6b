(** Release builds step by step against debug builds step by step. *)
Require Import ZArith List Bool Lia.
From Verif Require Import Base BaseProofs SpecParams FieldBackend FieldU32Model FieldFiatModel FiatCode FiatMain Backends BackendLaws ScalarModel TwistedModel ScalarMulModel EdwardsModel MontgomeryModel DecafModel ApiExpr
  EdwardsExpr ApiRun Steps StepSubtle StepU32 StepFiat StepScalar StepCurve StepPlain StepRelWords StepRelFiat StepRelCurve TraceSpec TraceSpec64 TraceLogic TraceLogicWords TraceScalar TraceFacts TraceMain TraceFiat
  ReleaseSpec ReleaseLogic ReleaseMain ReleaseStepsSpec.
Import ListNotations.
Open Scope Z_scope.

Local Notation T := (tracing word_op).
Definition along {A A'} (R : A -> A' -> Prop) (x : run T A) (y : run T A') : Prop := forall a', snd y = Ok a' -> fst x = fst y /\ exists a, snd x = Ok a /\ R a a'.
Definition alongside : logic T T.
Proof.
  refine {| rl := @along : forall A A', (A -> A' -> Prop) -> run T A -> run T A' -> Prop; gives1 := fun A (m : run T A) a => snd m = Ok a; gives2 := fun A (m : run T A) a => snd m = Ok a; Sec := @eq |}.
  - intros A A' R a a' H b Eb. cbn [ret tracing traced fst snd] in *. injection Eb as <-. split; [reflexivity|]. exists a. auto.
  - intros A A' C C' R S m m' f f' H G c' Ec'. destruct (traced_bind _ _ _ _ _ _ Ec') as (a' & Ea' & Fa' & Ta'). destruct (H a' Ea') as (Et & a & Ea & Ra). destruct (G a a' Ra c' Fa') as (Et' & c & Ec & Rc).
    rewrite Ta'. destruct m as [t r]. cbn [fst snd] in Et, Ea. subst r. cbn [andthen tracing traced]. destruct (f a) as [u r]. cbn [fst snd] in *. rewrite Et, Et'. split; [reflexivity|]. exists c. auto.
  - intros A A' R a' Ea'. discriminate Ea'.
  - intros A A' R m m' H a' Ea'. destruct (H a' Ea') as (Et & a & Ea & Ra). split; [exact Et|]. exists a. auto.
  - reflexivity.
  - intros A C f a a' ->. reflexivity.
  - intros A C E f a a' c c' -> ->. reflexivity.
Defined.
Definition Wsame (x : word watched_release) (y : word watched) : Prop := x = y.
Theorem watched_along : wcompat _ _ alongside watched_release watched Wsame.
Proof.
  constructor; intros; unfold Wsame in *; subst; try reflexivity; try (intros a' Ea'; split; [reflexivity|]; exists a'; split; [exact Ea'|reflexivity || exact I]).
  - cbn [chk watched_release watched]. intros a' Ea'. split; [destruct (chk_z _ _ _); reflexivity|]. unfold wordop in *. destruct (chk_z o (fst x') (fst y')) eqn:E; cbn [does snd] in *; [|discriminate Ea'].
    rewrite (unchecked_kept _ _ _ _ E). exists a'. split; [exact Ea'|reflexivity].
  - match goal with H : Sec _ _ _ |- _ => change (c = c') in H; subst end. intros a' Ea'; split; [reflexivity|]; exists a'; split; [exact Ea'|reflexivity].
Qed.
Lemma along_goes : forall c c', Sec alongside c c' -> rl alongside eq (goes c) (goes c').
Proof. intros c c' H. change (c = c') in H. subst c'. intros a Ea. split; [reflexivity|]. exists a. auto. Qed.
Lemma F2_Wsame : forall l l', Forall2 Wsame l l' -> l = l'.
Proof. induction 1 as [|x y l l' H _ IH]; [reflexivity|]. unfold Wsame in H. subst. reflexivity. Qed.
Lemma Wsame_F2 : forall l : list (Z * wshape), Forall2 Wsame l l.
Proof. induction l; constructor; [reflexivity|assumption]. Qed.
Local Notation pa f := (f _ _ alongside watched_release watched Wsame watched_along).
Definition Rlong (a : fe rwords) (b : fe words) : Prop := Forall2 Wsame a b.
Definition Rlong64 (a : fe rwords64) (b : fe words64) : Prop := Forall2 Wsame a b.
Ltac sames := repeat match goal with H : Rby _ _ _ _ _ _ |- _ => let a := fresh in let b := fresh in destruct H as (H & a & b); match type of H with Sec _ ?c ?d => change (c = d) in H; subst d end
  | H : Sec _ ?c ?d |- _ => change (c = d) in H; subst d end.
Ltac inl := repeat first [assumption | apply Wsame_F2 | reflexivity].
Theorem rwords_along : mcompat _ _ alongside _ _ rwords_machine words_machine Rlong Wsame.
Proof.
  constructor; try exact (Wsame_F2 _); intros; sames; cbn [rwords_machine words_machine word_machine m_add m_sub m_mul m_square m_negate m_strong_reduce m_select m_cond_negate m_is_negative m_from_bytes m_to_bytes
    m_sign m_sign_byte m_sc_add m_sc_sub m_sc_mul m_sc_invert m_sc_halve m_sc_wide m_div4 m_bits m_radix16 m_mod_four m_digit_abs m_digit_choice m_digit_ct_eq m_digit_eq].
  - apply (pa p_add28); inl.
  - apply (pa p_sub28); inl.
  - apply (pa p_mul28); inl.
  - apply (pa p_square28); inl.
  - apply (pa p_negate28); inl.
  - apply (pa p_strong_reduce28); inl.
  - apply (pa p_select28); inl.
  - apply (pa p_cneg28); inl.
  - apply (pa p_is_negative28); inl.
  - apply (pa p_from_bytes28); inl.
  - apply (pa p_out), (pa p_to_bytes28); inl.
  - apply (l_bind alongside Wsame); [apply p_index; inl|]. exact (pa p_sign_bit).
  - exact (l_bind alongside Wsame _ _ _ _ _ (pa p_sign_byte c c eq_refl) (w_reveal _ _ _ _ _ _ watched_along)).
  - apply (pa p_out), (pa p_scalar_add); inl.
  - apply (pa p_out), (pa p_scalar_sub); inl.
  - apply (pa p_out), (pa p_scalar_mul); inl.
  - apply (pa p_out), (pa p_scalar_invert); inl.
  - apply (pa p_out), (pa p_scalar_halve); inl.
  - apply (pa p_out), (pa p_scalar_wide); inl.
  - assert (G : rl alongside (Sec alongside) (m_div4 rwords_machine s) (m_div4 words_machine s)) by (apply (pa p_out), (pa p_div_by_four); inl).
    intros a Ea. destruct (G a Ea) as (Et & a' & Ea' & Eq). change (a' = a) in Eq. subst a'. split; [exact Et|]. exists a. split; [exact Ea'|].
    split; [reflexivity|]. assert (N : length a = 14%nat); [|split; exact N].
    pose proof (follows_ok (c_div4 _ _ _ _ _ _ _ _ _ words_quiet s s (conj eq_refl (conj H0 H0))) Ea) as N. apply N.
  - apply (pa p_scalar_bits); inl.
  - apply (pa p_to_radix_16); inl.
  - apply (pa p_mod_four); inl.
  - apply (pa p_digit_abs); inl.
  - apply (pa p_digit_choice); inl.
  - apply (pa p_ct_eqS); [assumption|reflexivity].
  - exact (w_test _ _ _ _ _ _ watched_along (TEqual n) d d' H).
  - unfold fe_ct_eqS. apply (l_bind alongside (Sec alongside)); [apply (pa p_out), (pa p_to_bytes28); inl|]. intros. sames.
    apply (l_bind alongside (Sec alongside)); [apply (pa p_out), (pa p_to_bytes28); inl|]. intros. sames. apply (pa p_ct_eq_slice); inl.
  - apply (l_bind alongside (Sec alongside)); [apply (pa p_out), (pa p_to_bytes28); inl|]. intros. sames. apply (pa p_ct_eq_slice); inl.
Qed.
Theorem rwords64_along : mcompat _ _ alongside _ _ rwords64_machine words64_machine Rlong64 Wsame.
Proof.
  constructor; try exact (Wsame_F2 _); intros; sames; cbn [rwords64_machine words64_machine word_machine64 word_machine m_add m_sub m_mul m_square m_negate m_strong_reduce m_select m_cond_negate m_is_negative m_from_bytes m_to_bytes
    m_sign m_sign_byte m_sc_add m_sc_sub m_sc_mul m_sc_invert m_sc_halve m_sc_wide m_div4 m_bits m_radix16 m_mod_four m_digit_abs m_digit_choice m_digit_ct_eq m_digit_eq digit].
  - apply (pa p_add56); inl.
  - apply (pa p_sub56); inl.
  - apply (pa p_mul56); inl.
  - apply (pa p_square56); inl.
  - apply (pa p_negate56); inl.
  - apply (pa p_fcarry); inl.
  - apply (pa p_select56); inl.
  - apply (pa p_cneg56); inl.
  - apply (pa p_is_negative56); inl.
  - apply (pa p_from_bytes56); inl.
  - apply (pa p_out), (pa p_to_bytes56); inl.
  - apply (l_bind alongside Wsame); [apply p_index; inl|]. exact (pa p_sign_bit).
  - exact (l_bind alongside Wsame _ _ _ _ _ (pa p_sign_byte c c eq_refl) (w_reveal _ _ _ _ _ _ watched_along)).
  - apply (pa p_out), (pa p_scalar_add); inl.
  - apply (pa p_out), (pa p_scalar_sub); inl.
  - apply (pa p_out), (pa p_scalar_mul); inl.
  - apply (pa p_out), (pa p_scalar_invert); inl.
  - apply (pa p_out), (pa p_scalar_halve); inl.
  - apply (pa p_out), (pa p_scalar_wide); inl.
  - assert (G : rl alongside (Sec alongside) (m_div4 rwords64_machine s) (m_div4 words64_machine s)) by (apply (pa p_out), (pa p_div_by_four); inl).
    intros a Ea. destruct (G a Ea) as (Et & a' & Ea' & Eq). change (a' = a) in Eq. subst a'. split; [exact Et|]. exists a. split; [exact Ea'|].
    split; [reflexivity|]. assert (N : length a = 14%nat); [|split; exact N].
    pose proof (follows_ok (c_div4 _ _ _ _ _ _ _ _ _ words64_quiet s s (conj eq_refl (conj H0 H0))) Ea) as N. apply N.
  - apply (pa p_scalar_bits); inl.
  - apply (pa p_to_radix_16); inl.
  - apply (pa p_mod_four); inl.
  - apply (pa p_digit_abs); inl.
  - apply (pa p_digit_choice); inl.
  - apply (pa p_ct_eqS); [assumption|reflexivity].
  - exact (w_test _ _ _ _ _ _ watched_along (TEqual n) d d' H).
  - unfold fe_ct_eqS. apply (l_bind alongside (Sec alongside)); [apply (pa p_out), (pa p_to_bytes56); inl|]. intros. sames.
    apply (l_bind alongside (Sec alongside)); [apply (pa p_out), (pa p_to_bytes56); inl|]. intros. sames. apply (pa p_ct_eq_slice); inl.
  - apply (l_bind alongside (Sec alongside)); [apply (pa p_out), (pa p_to_bytes56); inl|]. intros. sames. apply (pa p_ct_eq_slice); inl.
Qed.
Lemma canonical_along : forall b b', b = b' -> bytes 57 b -> bytes 57 b' -> rl alongside (Ropt (Sec alongside)) (m_sc_canonical rwords_machine b) (m_sc_canonical words_machine b').
Proof.
  intros b b' <- _ _. apply (l_bind alongside (Ropt (Forall2 Wsame))).
  - apply (pa p_canonical); [exact along_goes|]. apply Wsame_F2.
  - intros [a|] [a'|] Ha; cbn [Ropt] in Ha; try contradiction; [|apply (l_ret alongside); exact I].
    apply (l_bind alongside (Sec alongside)); [apply (pa p_reveal_all); exact Ha|]. intros. apply (l_ret alongside). assumption.
Qed.

(** ** Programs *)
Section Programs.
Variable O1 O2 : backend.
Variable K1 : machine T O1.
Variable K2 : machine T O2.
Variable Rf : fe O1 -> fe O2 -> Prop.
Variable Rdig : digit K1 -> digit K2 -> Prop.
Variable C : mcompat _ _ alongside O1 O2 K1 K2 Rf Rdig.
Variable HB1 : forall c, m_branch K1 c = goes c.
Variable HB2 : forall c, m_branch K2 c = goes c.
Variable HC : forall b b', b = b' -> bytes 57 b -> bytes 57 b' -> rl alongside (Ropt (Sec alongside)) (m_sc_canonical K1 b) (m_sc_canonical K2 b').
Variable HT : forall d (x : api (TData d)) v, api_ok x -> snd (api_runS T O2 K2 x) = Ok (Some v) -> dok d v.
Variable HR : forall s (e : api s), api_ok e -> exists o, snd (api_runS T O2 K2 e) = Ok o.
Variable f : fe O1 -> fe O2.
Variable Hf : forall a b, Rf a b -> f a = b.
Lemma steps_value : forall s (v : val O1 s) (w : val O2 s), Rval _ _ alongside O1 O2 Rf s v w -> map_val f s v = w.
Proof.
  intros s v w. destruct s; cbn [Rval map_val]; unfold Red, Reda, Rtw, Rxt, Rpn, Rpm.
  - intro H. exact H.
  - destruct w. cbn. intros (E1 & E2 & E3 & E4). rewrite (Hf _ _ E1), (Hf _ _ E2), (Hf _ _ E3), (Hf _ _ E4). reflexivity.
  - destruct w. cbn. intros (E1 & E2). rewrite (Hf _ _ E1), (Hf _ _ E2). reflexivity.
  - intro H. induction H as [|Q R l l' (E1 & E2 & E3 & E4) H IH]; [reflexivity|]. cbn [map]. rewrite IH, (Hf _ _ E1), (Hf _ _ E2), (Hf _ _ E3), (Hf _ _ E4). destruct R. reflexivity.
  - destruct w. cbn. intros (E1 & E2 & E3 & E4). rewrite (Hf _ _ E1), (Hf _ _ E2), (Hf _ _ E3), (Hf _ _ E4). reflexivity.
  - destruct w. cbn. intros (E1 & E2 & E3 & E4 & E5). rewrite (Hf _ _ E1), (Hf _ _ E2), (Hf _ _ E3), (Hf _ _ E4), (Hf _ _ E5). reflexivity.
  - destruct w. cbn. intros (E1 & E2 & E3 & E4). rewrite (Hf _ _ E1), (Hf _ _ E2), (Hf _ _ E3), (Hf _ _ E4). reflexivity.
  - destruct w. cbn. intros (E1 & E2). rewrite (Hf _ _ E1), (Hf _ _ E2). reflexivity.
  - destruct w. cbn. intros (E1 & E2 & E3 & E4). rewrite (Hf _ _ E1), (Hf _ _ E2), (Hf _ _ E3), (Hf _ _ E4). reflexivity.
  - destruct w. cbn. intros (E1 & E2 & E3 & E4). rewrite (Hf _ _ E1), (Hf _ _ E2), (Hf _ _ E3), (Hf _ _ E4). reflexivity.
Qed.
Lemma programs_along : forall s (e : api s), api_ok e -> exists t o, api_runS T O1 K1 e = (t, Ok o) /\ api_runS T O2 K2 e = (t, Ok (option_map (map_val f s) o)).
Proof.
  intros s e He. destruct (HR s e He) as (o' & Eo').
  assert (G : rl alongside (Ropt (Rval _ _ alongside O1 O2 Rf s)) (api_runS T O1 K1 e) (api_runS T O2 K2 e)).
  { refine (p_api _ _ alongside O1 O2 K1 K2 Rf Rdig C _ HC False _ _ s e e (skel_same s e) He He).
    - intros c c' H. rewrite HB1, HB2. apply along_goes. exact H.
    - intros [].
    - intros d x x' v v' Hx Hx' G1 G2 Hv. change (v = v') in Hv. subst v'. pose proof (HT d x' v Hx' G2) as D. split; exact D. }
  destruct (G o' Eo') as (Et & o & Eo & Ho). exists (fst (api_runS T O2 K2 e)), o. split.
  - rewrite <- Et, <- Eo. apply surjective_pairing.
  - assert (Ev : option_map (map_val f s) o = o'); [|rewrite Ev, <- Eo'; apply surjective_pairing].
    destruct o as [v|], o' as [w|]; cbn [Ropt] in Ho; try contradiction; [|reflexivity]. cbn [option_map]. rewrite (steps_value s v w Ho). reflexivity.
Qed.
End Programs.
Lemma returns32 : forall s (e : api s), api_ok e -> exists o, snd (word_run e) = Ok o.
Proof. intros s e He. destruct (word_result s e He) as (o & Eo & _). exists o. exact Eo. Qed.
Lemma returns64 : forall s (e : api s), api_ok e -> exists o, snd (word64_run e) = Ok o.
Proof. intros s e He. destruct (word64_result s e He) as (o & Eo & _). exists o. exact Eo. Qed.
Lemma typed32 : forall d (x : api (TData d)) v, api_ok x -> snd (word_run x) = Ok (Some v) -> dok d v.
Proof. exact (both_typed word_op u32_backend shipped_u32 words words_machine Rlimbs Wplain words_quiet (fun c => eq_refl) words_canonical). Qed.
Lemma typed64 : forall d (x : api (TData d)) v, api_ok x -> snd (word64_run x) = Ok (Some v) -> dok d v.
Proof. exact (both_typed word_op (fiat_backend fiat_code) shipped_code words64 words64_machine Rlimbs64 Wplain words64_quiet (fun c => eq_refl) words_canonical). Qed.
Theorem steps32 : forall s (e : api s), api_ok e -> exists t o, release_steps e = (t, Ok o) /\ word_run e = (t, Ok (option_map rwords_out o)).
Proof. exact (programs_along rwords words rwords_machine words_machine Rlong Wsame rwords_along (fun c => eq_refl) (fun c => eq_refl) canonical_along typed32 returns32 (fun l => l) (fun a b H => F2_Wsame a b H)). Qed.
Theorem steps64 : forall s (e : api s), api_ok e -> exists t o, release_steps64 e = (t, Ok o) /\ word64_run e = (t, Ok (option_map rwords64_out o)).
Proof. exact (programs_along rwords64 words64 rwords64_machine words64_machine Rlong64 Wsame rwords64_along (fun c => eq_refl) (fun c => eq_refl) canonical_along typed64 returns64 (fun l => l) (fun a b H => F2_Wsame a b H)). Qed.
Theorem steps32_branches : forall s (e : api s), api_ok e -> branches (fst (release_steps e)) = decisions u32_backend e.
Proof. intros s e He. destruct (steps32 s e He) as (t & o & E & E'). rewrite E. cbn [fst]. rewrite <- (word_branches s e He), E'. reflexivity. Qed.
Theorem steps64_branches : forall s (e : api s), api_ok e -> branches (fst (release_steps64 e)) = decisions (fiat_backend fiat_code) e.
Proof. intros s e He. destruct (steps64 s e He) as (t & o & E & E'). rewrite E. cbn [fst]. rewrite <- (word64_branches s e He), E'. reflexivity. Qed.
Theorem steps32_decisions : forall s (e e' : api s), api_ok e -> api_ok e' -> same_calls any s e e' ->
  (fst (release_steps e) = fst (release_steps e') <-> decisions u32_backend e = decisions u32_backend e').
Proof.
  intros s e e' He He' H. destruct (steps32 s e He) as (t & o & E & D). destruct (steps32 s e' He') as (t' & o' & E' & D'). rewrite E, E'. rewrite <- (proj1 (word_traces s e e' He He' H)), D, D'. reflexivity.
Qed.
Theorem steps64_decisions : forall s (e e' : api s), api_ok e -> api_ok e' -> same_calls any s e e' ->
  (fst (release_steps64 e) = fst (release_steps64 e') <-> decisions (fiat_backend fiat_code) e = decisions (fiat_backend fiat_code) e').
Proof.
  intros s e e' He He' H. destruct (steps64 s e He) as (t & o & E & D). destruct (steps64 s e' He') as (t' & o' & E' & D'). rewrite E, E'. rewrite <- (proj1 (word64_traces s e e' He He' H)), D, D'. reflexivity.
Qed.
Theorem steps32_alike : forall s (e e' : api s), api_ok e -> api_ok e' -> same_calls (alike u32_backend) s e e' ->
  exists t o o', release_steps e = (t, Ok o) /\ release_steps e' = (t, Ok o').
Proof.
  intros s e e' He He' H. destruct (steps32 s e He) as (t & o & E & D). destruct (steps32 s e' He') as (t' & o' & E' & D'). destruct (word_alike s e e' He He' H) as (u & q & q' & F & F' & _).
  assert (t = u) by congruence. assert (t' = u) by congruence. subst t t'. exists u, o, o'. auto.
Qed.
Theorem steps64_alike : forall s (e e' : api s), api_ok e -> api_ok e' -> same_calls (alike (fiat_backend fiat_code)) s e e' ->
  exists t o o', release_steps64 e = (t, Ok o) /\ release_steps64 e' = (t, Ok o').
Proof.
  intros s e e' He He' H. destruct (steps64 s e He) as (t & o & E & D). destruct (steps64 s e' He') as (t' & o' & E' & D'). destruct (word64_alike s e e' He He' H) as (u & q & q' & F & F' & _).
  assert (t = u) by congruence. assert (t' = u) by congruence. subst t t'. exists u, o, o'. auto.
Qed.

(** ** Functions *)
Lemma kept_words : forall (x : run T (list (word watched_release))) (y : run T (list (word watched))), rl alongside (Forall2 Wsame) x y -> kept_steps y x.
Proof.
  intros x y H v Ev. destruct (H v Ev) as (Et & w & Ew & Hw). apply F2_Wsame in Hw. subst w. destruct x as [tx rx], y as [ty ry]. cbn [fst snd] in *. subst. reflexivity.
Qed.
Lemma kept_bits : forall A (x y : run T A), rl alongside (Sec alongside) x y -> kept_steps y x.
Proof.
  intros A x y H v Ev. destruct (H v Ev) as (Et & w & Ew & Hw). change (w = v) in Hw. subst w. destruct x as [tx rx], y as [ty ry]. cbn [fst snd] in *. subst. reflexivity.
Qed.
Local Notation W := watched.
Local Notation R := watched_release.
Theorem field32_steps : forall a b c,
  kept_steps (add28S T W a b) (add28S T R a b) /\ kept_steps (sub28S T W a b) (sub28S T R a b) /\
  kept_steps (negate28S T W a) (negate28S T R a) /\ kept_steps (mul28S T W a b) (mul28S T R a b) /\
  kept_steps (square28S T W a) (square28S T R a) /\ kept_steps (weak_reduce28S T W a) (weak_reduce28S T R a) /\
  kept_steps (strong_reduce28S T W a) (strong_reduce28S T R a) /\ kept_steps (from_bytes28S T W a) (from_bytes28S T R a) /\
  kept_steps (to_bytes28S T W a) (to_bytes28S T R a) /\ kept_steps (is_negative28S T W a) (is_negative28S T R a) /\
  kept_steps (conditional_select28S T W a b c) (conditional_select28S T R a b c) /\
  kept_steps (conditional_negate28S T W a c) (conditional_negate28S T R a c).
Proof.
  intros a b c. repeat match goal with |- _ /\ _ => split end.
  - apply kept_words, (pa p_add28); inl.
  - apply kept_words, (pa p_sub28); inl.
  - apply kept_words, (pa p_negate28); inl.
  - apply kept_words, (pa p_mul28); inl.
  - apply kept_words, (pa p_square28); inl.
  - apply kept_words, (pa p_weak_reduce28); inl.
  - apply kept_words, (pa p_strong_reduce28); inl.
  - apply kept_words, (pa p_from_bytes28); inl.
  - apply kept_words, (pa p_to_bytes28); inl.
  - apply kept_bits, (pa p_is_negative28); inl.
  - apply kept_words, (pa p_select28); inl.
  - apply kept_words, (pa p_cneg28); inl.
Qed.
Theorem field64_steps : forall a b c,
  kept_steps (add56S T W a b) (add56S T R a b) /\ kept_steps (sub56S T W a b) (sub56S T R a b) /\
  kept_steps (negate56S T W a) (negate56S T R a) /\ kept_steps (mul56S T W a b) (mul56S T R a b) /\
  kept_steps (square56S T W a) (square56S T R a) /\ kept_steps (strong_reduce56S T W a) (strong_reduce56S T R a) /\
  kept_steps (from_bytes56S T W a) (from_bytes56S T R a) /\ kept_steps (to_bytes56S T W a) (to_bytes56S T R a) /\
  kept_steps (is_negative56S T W a) (is_negative56S T R a) /\
  kept_steps (conditional_select56S T W a b c) (conditional_select56S T R a b c) /\
  kept_steps (conditional_negate56S T W a c) (conditional_negate56S T R a c).
Proof.
  intros a b c. repeat match goal with |- _ /\ _ => split end.
  - apply kept_words, (pa p_add56); inl.
  - apply kept_words, (pa p_sub56); inl.
  - apply kept_words, (pa p_negate56); inl.
  - apply kept_words, (pa p_mul56); inl.
  - apply kept_words, (pa p_square56); inl.
  - apply kept_words, (pa p_fcarry); inl.
  - apply kept_words, (pa p_from_bytes56); inl.
  - apply kept_words, (pa p_to_bytes56); inl.
  - apply kept_bits, (pa p_is_negative56); inl.
  - apply kept_words, (pa p_select56); inl.
  - apply kept_words, (pa p_cneg56); inl.
Qed.
Theorem scalar_steps : forall a b,
  kept_steps (scalar_addS T W a b) (scalar_addS T R a b) /\ kept_steps (scalar_subS T W a b) (scalar_subS T R a b) /\
  kept_steps (scalar_mulS T W a b) (scalar_mulS T R a b) /\ kept_steps (montgomery_multiplyS T W a b) (montgomery_multiplyS T R a b) /\
  kept_steps (scalar_invertS T W a) (scalar_invertS T R a) /\ kept_steps (scalar_halveS T W a) (scalar_halveS T R a) /\
  kept_steps (scalar_div_by_fourS T W a) (scalar_div_by_fourS T R a) /\
  kept_steps (scalar_from_bytes_mod_order_wideS T W a) (scalar_from_bytes_mod_order_wideS T R a) /\
  kept_steps (scalar_to_bytesS T W a) (scalar_to_bytesS T R a) /\ kept_steps (to_radix_16S T W a) (to_radix_16S T R a).
Proof.
  intros a b. repeat match goal with |- _ /\ _ => split end; apply kept_words.
  - apply (pa p_scalar_add); inl.
  - apply (pa p_scalar_sub); inl.
  - apply (pa p_scalar_mul); inl.
  - apply (pa p_mont); inl.
  - apply (pa p_scalar_invert); inl.
  - apply (pa p_scalar_halve); inl.
  - apply (pa p_div_by_four); inl.
  - apply (pa p_scalar_wide); inl.
  - apply (pa p_scalar_to_bytes); inl.
  - apply (pa p_to_radix_16); inl.
Qed.

(** ** Without the bounds *)
Definition full : list (Z * wshape) := inputs 0 16 (repeat (2 ^ 32 - 1) 16).
Lemma long_steps : exists a b, Forall (fun x => 0 <= fst x < 2 ^ 32) (a ++ b) /\ length a = 16%nat /\ length b = 16%nat /\
  snd (add28S T W a b) = Panic /\ exists v, snd (add28S T R a b) = Ok v /\ (length (fst (add28S T W a b)) < length (fst (add28S T R a b)))%nat.
Proof.
  exists full, full. split; [unfold full, inputs; cbn [seq map nth repeat Nat.add app]; repeat (constructor; [cbn [fst]; lia|]); constructor|].
  split; [reflexivity|]. split; [reflexivity|]. split; [vm_compute; reflexivity|].
  destruct (snd (add28S T R full full)) as [v|] eqn:E; [|vm_compute in E; discriminate E]. exists v. split; [reflexivity|]. apply Nat.ltb_lt. vm_compute. reflexivity.
Qed.
Definition near : list (Z * wshape) := inputs 0 16 (repeat (2 ^ 28) 16).
Lemma near_steps : add28S T R near near = add28S T W near near /\ (exists v, snd (add28S T W near near) = Ok v) /\ (50 <= length (fst (add28S T R near near)))%nat.
Proof.
  split; [vm_compute; reflexivity|]. split.
  - destruct (snd (add28S T W near near)) as [v|] eqn:E; [exists v; reflexivity|vm_compute in E; discriminate E].
  - apply Nat.leb_le. vm_compute. reflexivity.
Qed.
Definition secret_call (k : Z) : api (TData (DBytes 57)) := AEdCompress (AEdMul AEdGenerator (repeat k 14)).
Lemma secret_case : api_ok (secret_call 1) /\ api_ok (secret_call (2 ^ 32 - 1)) /\ same_calls (alike u32_backend) _ (secret_call 1) (secret_call (2 ^ 32 - 1)) /\
  exists t o o', release_steps (secret_call 1) = (t, Ok o) /\ release_steps (secret_call (2 ^ 32 - 1)) = (t, Ok o').
Proof.
  assert (K : api_ok (secret_call 1)) by (split; [exact I|split; [reflexivity|repeat constructor; discriminate]]).
  assert (K' : api_ok (secret_call (2 ^ 32 - 1))) by (split; [exact I|split; [reflexivity|repeat constructor; discriminate]]).
  assert (C : same_calls (alike u32_backend) _ (secret_call 1) (secret_call (2 ^ 32 - 1))) by (repeat constructor).
  split; [exact K|]. split; [exact K'|]. split; [exact C|]. exact (steps32_alike _ _ _ K K' C).
Qed.
