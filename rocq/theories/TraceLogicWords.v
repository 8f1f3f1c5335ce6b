(** What the word machine of TraceSpec.v satisfies (as TraceLogic.v for the field machine). *)
Require Import ZArith List Bool Lia.
From Verif Require Import Base SpecParams FieldBackend FieldU32Model Backends ScalarModel TwistedModel ScalarMulModel EdwardsModel MontgomeryModel DecafModel ApiExpr
  EdwardsExpr ApiRun Steps StepSubtle StepU32 StepScalar StepCurve StepPlain StepRelWords StepRelCurve TraceSpec TraceLogic.
Import ListNotations.
Open Scope Z_scope.

Definition Wshape (x y : word watched) : Prop := snd x = snd y.
Definition Wplain (x : word watched) (y : word plain) : Prop := fst x = y.
Lemma two_word : forall s r r', rl (two word_op) Wshape (wordop s r) (wordop s r').
Proof.
  intros s r r'. unfold wordop. apply two_does. intros a a' Ea Ea'. destruct r; [|discriminate Ea]. destruct r'; [|discriminate Ea']. injection Ea as <-. injection Ea' as <-. reflexivity.
Qed.
Lemma quiet_word : forall s r, rl (quiet word_op) Wplain (wordop s r) r.
Proof. intros s [z|]; split; reflexivity || exact I. Qed.
Theorem watched_two : wcompat _ _ (two word_op) watched watched Wshape.
Proof.
  constructor; intros; repeat match goal with H : Wshape ?a ?b |- _ => unfold Wshape in H end; cbn [watched chk bin un guard test reveal unwrap];
    repeat match goal with H : snd _ = snd _ |- _ => rewrite H; clear H end; first [reflexivity | apply two_word | apply two_does; intros; exact I].
Qed.
Theorem watched_quiet : wcompat _ _ (quiet word_op) watched plain Wplain.
Proof.
  constructor; intros; repeat match goal with H : Wplain ?a ?b |- _ => change (fst a = b) in H; subst b end; repeat match goal with H : Sec _ ?c ?d |- _ => change (c = d) in H; subst d end;
    try reflexivity; try apply quiet_word; try (apply quiet_does; reflexivity).
  apply quiet_does. cbn [plain guard]. destruct (negb (guard_z o (fst x))); exact I.
Qed.
Lemma inputs_shape : forall k n l l', Forall2 Wshape (inputs k n l) (inputs k n l').
Proof. intros k n l l'. unfold inputs. induction (seq 0 n) as [|i s IH]; cbn [map]; constructor; [reflexivity|exact IH]. Qed.
Lemma inputs_plain : forall k n l, length l = n -> Forall2 Wplain (inputs k n l) l.
Proof.
  intros k n l <-. unfold inputs.
  assert (G : forall pre l : list Z, Forall2 (Wplain : Z * wshape -> Z -> Prop) (map (fun i => (nth i (pre ++ l) 0, WIn (k + i))) (seq (length pre) (length l))) l).
  { clear l. intros pre l. revert pre. induction l as [|x l IH]; intro pre; cbn [length seq map]; constructor.
    - unfold Wplain. cbn [fst]. rewrite app_nth2, Nat.sub_diag by lia. reflexivity.
    - specialize (IH (pre ++ [x])). rewrite <- app_assoc, app_length in IH. cbn [length app] in IH. rewrite Nat.add_1_r in IH. exact IH. }
  exact (G [] l).
Qed.
Lemma map_fst_plain : forall a (l : list Z), Forall2 Wplain a l -> map fst a = l.
Proof. induction 1 as [|x y a l H _ IH]; [reflexivity|]. cbn [map]. rewrite IH. unfold Wplain in H. rewrite H. reflexivity. Qed.
Lemma map_snd_shape : forall a a', Forall2 Wshape a a' -> map snd a = map snd a'.
Proof. induction 1 as [|x y a l H _ IH]; [reflexivity|]. cbn [map]. rewrite IH. unfold Wshape in H. rewrite H. reflexivity. Qed.
(** Words handed out. *)
Section Out.
Variables (M1 M2 : steps) (L : logic M1 M2) (W1 : cpu M1) (W2 : cpu M2) (Rw : word W1 -> word W2 -> Prop).
Variable C : wcompat M1 M2 L W1 W2 Rw.
Lemma p_out : forall r r', rl L (Forall2 Rw) r r' -> rl L (Sec L) (out M1 W1 r) (out M2 W2 r').
Proof. intros r r' H. unfold out. eapply (l_bind L); [exact H|]. intros a a' Ha. apply (p_reveal_all _ _ _ _ _ _ C). exact Ha. Qed.
End Out.
Lemma e_out : forall r, out panics plain r = r.
Proof. intros [l|]; [|reflexivity]. unfold out. cbn [andthen panics bind]. exact (e_reveal l). Qed.

Local Notation pt f := (f _ _ (two word_op) watched watched Wshape watched_two).
Local Notation pq f := (f _ _ (quiet word_op) watched plain Wplain watched_quiet).

(** ** Against the plain code *)
Definition Rlimbs (a : fe words) (b : fe u32_backend) : Prop := Forall2 Wplain a b.
Lemma lits_plain : forall l : list Z, Forall2 Wplain (map (lit watched) l) l.
Proof. induction l; constructor; [reflexivity|assumption]. Qed.
Ltac sames := repeat match goal with H : Rby _ _ _ _ _ _ |- _ => let a := fresh in let b := fresh in destruct H as (H & a & b); match type of H with Sec _ ?c ?d => change (c = d) in H; subst d end
  | H : Sec _ ?c ?d |- _ => change (c = d) in H; subst d end.
Ltac ins := repeat first [assumption | apply inputs_plain; assumption | reflexivity].
Lemma nth_56 : forall b : list Z, length b = 57%nat -> index b 56 = Ok (last b 0).
Proof.
  intros b Hb. assert (E : b <> []) by (intro E; rewrite E in Hb; discriminate Hb). destruct (exists_last E) as (l & x & ->). rewrite last_last, app_length in *. cbn [length] in Hb.
  unfold index. cbn [Z.ltb Z.compare]. rewrite nth_error_app2 by lia. replace (Z.to_nat 56 - length l)%nat with 0%nat by lia. reflexivity.
Qed.
Lemma words_bytes : forall a a', Rlimbs a a' -> rl (quiet word_op) (fun x y => x = y /\ length x = 56%nat) (m_to_bytes words_machine a) (m_to_bytes (plain_machine u32_backend) a').
Proof.
  intros a a' H. assert (G : rl (quiet word_op) (Sec (quiet word_op)) (m_to_bytes words_machine a) (to_bytes28 a')) by (rewrite <- e_to_bytes28, <- e_out; apply (pq p_out), (pq p_to_bytes28); assumption).
  change (m_to_bytes (plain_machine u32_backend) a') with (to_bytes28 a'). destruct G as (G1 & G2). split; [exact G1|]. destruct (snd _) as [x|]; destruct (to_bytes28 a') as [y|] eqn:E; try contradiction; [|exact I].
  cbn [agrees] in *. change (x = y) in G2. subst y. split; [reflexivity|]. exact (to_bytes28_length _ _ E).
Qed.
Lemma words_eq : forall x y, length x = 56%nat -> length y = 56%nat -> rl (quiet word_op) (Sec (quiet word_op)) (m_bytes_eq words_machine x y) (m_bytes_eq (plain_machine u32_backend) x y).
Proof.
  intros x y Hx Hy. change (m_bytes_eq (plain_machine u32_backend) x y) with (Ok (list_eqb x y)). rewrite <- e_ct_eq_slice. apply (pq p_ct_eq_slice); ins.
Qed.
Theorem words_quiet : mcompat _ _ (quiet word_op) _ _ words_machine (plain_machine u32_backend) Rlimbs Wplain.
Proof.
  constructor; try exact (lits_plain _); intros; sames; cbn [words_machine word_machine m_add m_sub m_mul m_square m_negate m_strong_reduce m_select m_cond_negate m_is_negative m_from_bytes m_to_bytes
    m_sign m_sign_byte m_sc_add m_sc_sub m_sc_mul m_sc_invert m_sc_halve m_sc_wide m_div4 m_bits m_radix16 m_mod_four m_digit_abs m_digit_choice m_digit_ct_eq m_digit_eq].
  - apply (pq p_add28); assumption.
  - apply (pq p_sub28); assumption.
  - change (m_mul (plain_machine u32_backend) a' b') with (mul28 a' b'). rewrite <- e_mul28. apply (pq p_mul28); assumption.
  - change (m_square (plain_machine u32_backend) a') with (square28 a'). rewrite <- e_square28. apply (pq p_square28); assumption.
  - apply (pq p_negate28); assumption.
  - change (m_strong_reduce (plain_machine u32_backend) a') with (strong_reduce28 a'). rewrite <- e_strong_reduce28. apply (pq p_strong_reduce28); assumption.
  - change (m_select (plain_machine u32_backend) a' b' c) with (Ok (conditional_select28 a' b' c)). rewrite <- e_select28. apply (pq p_select28); [assumption|assumption|reflexivity].
  - change (m_cond_negate (plain_machine u32_backend) a' c) with (conditional_negate28 a' c). rewrite <- e_cond_negate28. apply (pq p_cneg28); [assumption|reflexivity].
  - change (m_is_negative (plain_machine u32_backend) a') with (is_negative28 a'). rewrite <- e_is_negative28. apply (pq p_is_negative28); assumption.
  - apply (pq p_from_bytes28). ins.
  - change (m_to_bytes (plain_machine u32_backend) a') with (to_bytes28 a'). rewrite <- e_to_bytes28, <- e_out. apply (pq p_out), (pq p_to_bytes28); assumption.
  - apply (l_bind (quiet word_op) Wplain _ _ (Ok (last b 0)) _ (fun x => Ok (shr x 7 =? 1))).
    + rewrite <- (nth_56 b) by assumption. pose proof (p_index _ _ (quiet word_op) (word watched) Z Wplain (inputs 0 57 b) b (inputs_plain 0 57 b (proj1 H1)) 56) as G. unfold indexS in *. destruct (index b 56); exact G.
    + intros x x' Hx. exact (pq p_sign_bit x x' Hx).
  - exact (l_bind (quiet word_op) Wplain _ _ _ _ _ (pq p_sign_byte c c eq_refl) (w_reveal _ _ _ _ _ _ watched_quiet)).
  - change (m_sc_add (plain_machine u32_backend) s t) with (scalar_add s t). rewrite <- e_out. apply (pq p_out), (pq p_scalar_add); ins.
  - change (m_sc_sub (plain_machine u32_backend) s t) with (scalar_sub s t). rewrite <- e_out. apply (pq p_out), (pq p_scalar_sub); ins.
  - change (m_sc_mul (plain_machine u32_backend) s t) with (scalar_mul s t). rewrite <- e_out. apply (pq p_out), (pq p_scalar_mul); ins.
  - change (m_sc_invert (plain_machine u32_backend) s) with (scalar_invert s). rewrite <- e_out, <- e_scalar_invert. apply (pq p_out), (pq p_scalar_invert); ins.
  - change (m_sc_halve (plain_machine u32_backend) s) with (scalar_halve s). rewrite <- e_out, <- e_scalar_halve. apply (pq p_out), (pq p_scalar_halve); ins.
  - change (m_sc_wide (plain_machine u32_backend) b) with (scalar_from_bytes_mod_order_wide b). rewrite <- e_out, <- e_scalar_wide. apply (pq p_out), (pq p_scalar_wide); ins.
  - assert (G : rl (quiet word_op) (Sec (quiet word_op)) (out (tracing word_op) watched (scalar_div_by_fourS (tracing word_op) watched (inputs 0 14 s))) (Ok (scalar_div_by_four s))).
    { change (@Ok (list Z)) with (@Ok scalar). rewrite <- e_out, <- e_div_by_four. apply (pq p_out), (pq p_div_by_four); ins. }
    destruct G as (G1 & G2). split; [exact G1|]. destruct (snd _) as [v|]; [|contradiction]. cbn [agrees] in *. change (v = scalar_div_by_four s) in G2. rewrite G2. split; [reflexivity|]. 
    split; apply div4_length; assumption.
  - change (m_bits (plain_machine u32_backend) s) with (Ok (scalar_bits s)). rewrite <- e_scalar_bits. apply (pq p_scalar_bits); ins.
  - change (m_radix16 (plain_machine u32_backend) s) with (to_radix_16 s). rewrite <- e_to_radix_16. apply (pq p_to_radix_16); ins.
  - destruct s as [|x s]; [discriminate|]. exact (pq p_mod_four _ (x :: s) (inputs_plain 0 14 (x :: s) H0)).
  - pose proof (pq p_digit_abs d d' H) as G.
    change (rl (quiet word_op) (Rprod Wplain Wplain) (digit_absS (tracing word_op) watched d)
      (bind (bind (bind (i8_add d' (shr d' 7)) (fun t => Ok (Z.lxor t (shr d' 7)))) (fun t => Ok (as_u32 t))) (fun t => Ok (t, Z.land (shr d' 7) 1)))) in G.
    change (m_digit_abs (plain_machine u32_backend) d') with (bind (i8_add d' (shr d' 7)) (fun t => Ok (as_u32 (Z.lxor t (shr d' 7)), Z.land (shr d' 7) 1))).
    destruct (i8_add d' (shr d' 7)); exact G.
  - exact (pq p_digit_choice d d' H).
  - change (m_digit_ct_eq (plain_machine u32_backend) d' n) with (Ok (d' =? n)). rewrite <- (e_ct_eqS 32) by lia. exact (pq p_ct_eqS 32 d d' (n, WLit n) n H eq_refl).
  - exact (w_test _ _ _ _ _ _ watched_quiet (TEqual n) d d' H).
  - unfold fe_ct_eqS. apply (l_bind (quiet word_op) (fun x y => x = y /\ length x = 56%nat)); [apply words_bytes; assumption|]. intros x x' (<- & Hx).
    apply (l_bind (quiet word_op) (fun x y => x = y /\ length x = 56%nat)); [apply words_bytes; assumption|]. intros y y' (<- & Hy). apply words_eq; assumption.
  - apply (l_bind (quiet word_op) (fun x y => x = y /\ length x = 56%nat)); [apply words_bytes; assumption|]. intros x x' (<- & Hx). apply words_eq; assumption.
Qed.

(** ** Two runs *)
Definition Rwords (a b : fe words) : Prop := Forall2 Wshape a b.
Lemma lits_shape : forall l : list Z, Forall2 Wshape (map (lit watched) l) (map (lit watched) l).
Proof. induction l; constructor; [reflexivity|assumption]. Qed.
Ltac inw := repeat first [assumption | apply inputs_shape | exact I | reflexivity].
Theorem words_two : mcompat _ _ (two word_op) _ _ words_machine words_machine Rwords Wshape.
Proof.
  constructor; try exact (lits_shape _); intros; cbn [words_machine word_machine m_add m_sub m_mul m_square m_negate m_strong_reduce m_select m_cond_negate m_is_negative m_from_bytes m_to_bytes
    m_sign m_sign_byte m_sc_add m_sc_sub m_sc_mul m_sc_invert m_sc_halve m_sc_wide m_div4 m_bits m_radix16 m_mod_four m_digit_abs m_digit_choice m_digit_ct_eq m_digit_eq].
  - apply (pt p_add28); inw.
  - apply (pt p_sub28); inw.
  - apply (pt p_mul28); inw.
  - apply (pt p_square28); inw.
  - apply (pt p_negate28); inw.
  - apply (pt p_strong_reduce28); inw.
  - apply (pt p_select28); inw.
  - apply (pt p_cneg28); inw.
  - apply (pt p_is_negative28); inw.
  - apply (pt p_from_bytes28); inw.
  - apply (pt p_out), (pt p_to_bytes28); inw.
  - apply (l_bind (two word_op) Wshape); [apply p_index; inw|]. exact (pt p_sign_bit).
  - exact (l_bind (two word_op) Wshape _ _ _ _ _ (pt p_sign_byte c c' I) (w_reveal _ _ _ _ _ _ watched_two)).
  - apply (pt p_out), (pt p_scalar_add); inw.
  - apply (pt p_out), (pt p_scalar_sub); inw.
  - apply (pt p_out), (pt p_scalar_mul); inw.
  - apply (pt p_out), (pt p_scalar_invert); inw.
  - apply (pt p_out), (pt p_scalar_halve); inw.
  - apply (pt p_out), (pt p_scalar_wide); inw.
  - assert (G : rl (two word_op) (Sec (two word_op)) (m_div4 words_machine s) (m_div4 words_machine s')) by (apply (pt p_out), (pt p_div_by_four); inw).
    assert (N : forall s a, length s = 14%nat -> snd (m_div4 words_machine s) = Ok a -> length a = 14%nat).
    { clear. intros s a Hs E. pose proof (follows_ok (c_div4 _ _ _ _ _ _ _ _ _ words_quiet s s (conj eq_refl (conj Hs Hs))) E) as G. apply G. }
    destruct H as (_ & Hs & Hs'). intros a a' Ea Ea' u u' Eu. destruct (G a a' Ea Ea' u u' Eu) as (Et & _). split; [exact Et|]. split; [exact I|]. split; [exact (N s a Hs Ea)|exact (N s' a' Hs' Ea')].
  - apply (pt p_scalar_bits); inw.
  - apply (pt p_to_radix_16); inw.
  - apply (pt p_mod_four); inw.
  - apply (pt p_digit_abs); inw.
  - apply (pt p_digit_choice); inw.
  - apply (pt p_ct_eqS); [assumption|reflexivity].
  - exact (w_test _ _ _ _ _ _ watched_two (TEqual n) d d' H).
  - unfold fe_ct_eqS. apply (l_bind (two word_op) (Sec (two word_op))); [apply (pt p_out), (pt p_to_bytes28); inw|]. intros.
    apply (l_bind (two word_op) (Sec (two word_op))); [apply (pt p_out), (pt p_to_bytes28); inw|]. intros. apply (pt p_ct_eq_slice); inw.
  - apply (l_bind (two word_op) (Sec (two word_op))); [apply (pt p_out), (pt p_to_bytes28); inw|]. intros. apply (pt p_ct_eq_slice); inw.
Qed.
Lemma canonical_two : forall b b', rl (two word_op) (Ropt (Sec (two word_op))) (m_sc_canonical words_machine b) (m_sc_canonical words_machine b').
Proof.
  intros b b'. apply (l_bind (two word_op) (Ropt (Forall2 Wshape))).
  - apply (pt p_canonical); [intros; apply two_goes|]. apply inputs_shape.
  - intros [a|] [a'|] Ha; cbn [Ropt] in Ha; try contradiction; [|apply (l_ret (two word_op)); exact I].
    apply (l_bind (two word_op) (Sec (two word_op))); [apply (pt p_reveal_all); exact Ha|]. intros. apply (l_ret (two word_op)). exact I.
Qed.
