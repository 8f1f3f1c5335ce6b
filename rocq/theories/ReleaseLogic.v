(** Release builds against debug builds: what the machines of ReleaseSpec.v satisfy. *)
Require Import ZArith List Bool Lia.
From Verif Require Import Base BaseProofs SpecParams FieldBackend FieldU32Model FieldFiatModel FiatCode FiatMain Backends ScalarModel TwistedModel ScalarMulModel EdwardsModel MontgomeryModel DecafModel ApiExpr
  EdwardsExpr ApiRun Steps StepSubtle StepU32 StepFiat StepScalar StepCurve StepPlain StepRelWords StepRelFiat StepRelCurve TraceSpec TraceSpec64 TraceLogic TraceLogicWords TraceFiat ReleaseSpec.
Import ListNotations.
Open Scope Z_scope.

(** ** Words *)
Lemma wrapped_u : forall w z, 0 <= z < 2 ^ w -> wrapped (Unsigned w) z = z.
Proof. intros. apply Z.mod_small. assumption. Qed.
Lemma wrapped_s : forall w z, 0 < w -> - 2 ^ (w - 1) <= z < 2 ^ (w - 1) -> wrapped (Signed w) z = z.
Proof.
  intros w z Hw H. cbn [wrapped]. assert (E : 2 ^ w = 2 * 2 ^ (w - 1)) by (rewrite <- Z.pow_succ_r by lia; f_equal; lia). rewrite Z.mod_small; lia.
Qed.
Lemma unchecked_kept : forall o x y v, chk_z o x y = Ok v -> unchecked o x y = v.
Proof.
  intros o x y v. destruct o; cbn [chk_z unchecked];
    unfold u32_add, u32_sub, u32_mul, u64_add, u64_sub, u64_mul, u128_add, u128_mul, i8_add, i8_sub, i64_add, i64_sub, i128_add, i128_sub, i128_mul, chk_u, chk_i.
  all: match goal with |- context [if ?c then _ else _] => destruct c eqn:E end; intro H; [|discriminate H]; injection H as <-.
  all: apply andb_prop in E; destruct E as [E1 E2]; apply Z.leb_le in E1; apply Z.ltb_lt in E2; first [apply wrapped_u; split; assumption | apply wrapped_s; [lia|split; assumption]].
Qed.

Definition keeps {A A'} (R : A -> A' -> Prop) (x : run panics A) (y : run panics A') : Prop := match (y : res A') with Ok a' => exists a, x = Ok a /\ R a a' | Panic => True end.
Definition keeping : logic panics panics.
Proof.
  refine {| rl := @keeps : forall A A', (A -> A' -> Prop) -> run panics A -> run panics A' -> Prop; gives1 := fun A (m : run panics A) a => m = Ok a; gives2 := fun A (m : run panics A) a => m = Ok a; Sec := @eq |}.
  - intros A A' R a a' H. exists a. split; [reflexivity|exact H].
  - intros A A' C C' R S m m' f f' H G. unfold keeps in *. cbn [andthen panics]. destruct m' as [a'|]; [|exact I]. destruct H as (a & -> & Ra). exact (G a a' Ra).
  - intros. exact I.
  - intros A A' R m m' H. unfold keeps in *. destruct m' as [a'|]; [|exact I]. destruct H as (a & Ea & Ra). exists a. auto.
  - reflexivity.
  - intros A C f a a' ->. reflexivity.
  - intros A C E f a a' c c' -> ->. reflexivity.
Defined.
Definition Weq (x : word release) (y : word plain) : Prop := x = y.
Theorem release_keeps : wcompat _ _ keeping release plain Weq.
Proof.
  constructor; intros; unfold Weq in *; subst; try reflexivity; try (eexists; split; reflexivity).
  - cbn [chk release plain]. unfold rl, keeping, keeps. destruct (chk_z o x' y') eqn:E; [|exact I]. eexists. split; [reflexivity|]. exact (unchecked_kept _ _ _ _ E).
  - cbn [guard release plain]. unfold rl, keeping, keeps. destruct (negb _); [exact I|]. exists tt. split; [reflexivity|exact I].
  - match goal with H : Sec _ _ _ |- _ => change (c = c') in H; subst end. eexists; split; reflexivity.
Qed.
Lemma F2_eq : forall l l' : list Z, Forall2 Weq l l' -> l = l'.
Proof. induction 1 as [|x y l l' H _ IH]; [reflexivity|]. unfold Weq in H. subst. reflexivity. Qed.
Lemma F2_same : forall l : list Z, Forall2 Weq l l.
Proof. induction l; constructor; [reflexivity|assumption]. Qed.
Lemma lits_same : forall l : list Z, Forall2 Weq (map (lit release) l) l.
Proof. intro l. change (lit release) with (fun z : Z => z). rewrite map_id. apply F2_same. Qed.
Lemma kept_of : forall A (x y : res A), keeps eq x y -> kept y x.
Proof. intros A x y H v ->. destruct H as (a & -> & ->). reflexivity. Qed.
Lemma kept_list : forall x y : res (list Z), keeps (Forall2 Weq) x y -> kept y x.
Proof. intros x y H v ->. destruct H as (a & -> & H). rewrite (F2_eq _ _ H). reflexivity. Qed.
Lemma keeps_of : forall A (R : A -> A -> Prop) (x y : res A), kept y x -> (forall a, R a a) -> keeps R x y.
Proof. intros A R x [a|] H HR; [|exact I]. exists a. split; [apply H; reflexivity|apply HR]. Qed.

Lemma keeps_eq : forall A A' (R : A -> A' -> Prop) (x : run panics A) (y z : run panics A'), y = z -> rl keeping R x y -> rl keeping R x z.
Proof. intros A A' R x y z <- H. exact H. Qed.

Local Notation pk f := (f _ _ keeping release plain Weq release_keeps).

(** ** 32-bit limbs *)
Definition Rsame (a : fe release32) (b : fe u32_backend) : Prop := Forall2 Weq a b.
Ltac sames := repeat match goal with H : Rby _ _ _ _ _ _ |- _ => let a := fresh in let b := fresh in destruct H as (H & a & b); match type of H with Sec _ ?c ?d => change (c = d) in H; subst d end
  | H : Sec _ ?c ?d |- _ => change (c = d) in H; subst d end.
Ltac ins := repeat first [assumption | apply F2_same | reflexivity].
Lemma release_bytes : forall a a', Rsame a a' -> rl keeping (fun x y => x = y /\ length x = 56%nat) (m_to_bytes release32_machine a) (m_to_bytes (plain_machine u32_backend) a').
Proof.
  intros a a' H. assert (G : rl keeping (Sec keeping) (m_to_bytes release32_machine a) (to_bytes28 a')) by (rewrite <- e_to_bytes28, <- e_out; apply (pk p_out), (pk p_to_bytes28); assumption).
  change (m_to_bytes (plain_machine u32_backend) a') with (to_bytes28 a'). unfold rl, keeping, keeps in *. destruct (to_bytes28 a') as [y|] eqn:E; [|exact I]. destruct G as (x & Ex & G).
  exists x. split; [exact Ex|]. change (x = y) in G. subst y. split; [reflexivity|]. exact (to_bytes28_length _ _ E).
Qed.
Lemma release_eq : forall x y, rl keeping (Sec keeping) (m_bytes_eq release32_machine x y) (m_bytes_eq (plain_machine u32_backend) x y).
Proof.
  intros x y. change (m_bytes_eq (plain_machine u32_backend) x y) with (Ok (list_eqb x y)). apply (keeps_eq _ _ _ _ _ _ (e_ct_eq_slice _ _)), (pk p_ct_eq_slice); ins.
Qed.
Theorem release32_keeps : mcompat _ _ keeping _ _ release32_machine (plain_machine u32_backend) Rsame Weq.
Proof.
  constructor; try exact (lits_same _); intros; sames; cbn [release32_machine word_machine m_add m_sub m_mul m_square m_negate m_strong_reduce m_select m_cond_negate m_is_negative m_from_bytes m_to_bytes
    m_sign m_sign_byte m_sc_add m_sc_sub m_sc_mul m_sc_invert m_sc_halve m_sc_wide m_div4 m_bits m_radix16 m_mod_four m_digit_abs m_digit_choice m_digit_ct_eq m_digit_eq].
  - apply (pk p_add28); assumption.
  - apply (pk p_sub28); assumption.
  - change (m_mul (plain_machine u32_backend) a' b') with (mul28 a' b'). apply (keeps_eq _ _ _ _ _ _ (e_mul28 _ _)), (pk p_mul28); assumption.
  - change (m_square (plain_machine u32_backend) a') with (square28 a'). apply (keeps_eq _ _ _ _ _ _ (e_square28 _)), (pk p_square28); assumption.
  - apply (pk p_negate28); assumption.
  - change (m_strong_reduce (plain_machine u32_backend) a') with (strong_reduce28 a'). apply (keeps_eq _ _ _ _ _ _ (e_strong_reduce28 _)), (pk p_strong_reduce28); assumption.
  - change (m_select (plain_machine u32_backend) a' b' c) with (Ok (conditional_select28 a' b' c)). apply (keeps_eq _ _ _ _ _ _ (e_select28 _ _ _)), (pk p_select28); [assumption|assumption|reflexivity].
  - change (m_cond_negate (plain_machine u32_backend) a' c) with (conditional_negate28 a' c). apply (keeps_eq _ _ _ _ _ _ (e_cond_negate28 _ _)), (pk p_cneg28); [assumption|reflexivity].
  - change (m_is_negative (plain_machine u32_backend) a') with (is_negative28 a'). apply (keeps_eq _ _ _ _ _ _ (e_is_negative28 _)), (pk p_is_negative28); assumption.
  - apply (pk p_from_bytes28). ins.
  - change (m_to_bytes (plain_machine u32_backend) a') with (to_bytes28 a'). apply (keeps_eq _ _ _ _ _ _ (eq_trans (e_out _) (e_to_bytes28 _))), (pk p_out), (pk p_to_bytes28); assumption.
  - apply (l_bind keeping Weq _ _ (Ok (last b 0)) _ (fun x => Ok (shr x 7 =? 1))).
    + rewrite <- (nth_56 b) by assumption. pose proof (p_index _ _ keeping (word release) Z Weq b b (F2_same b) 56) as G. unfold indexS in *. destruct (index b 56); exact G.
    + intros x x' Hx. exact (pk p_sign_bit x x' Hx).
  - exact (l_bind keeping Weq _ _ _ _ _ (pk p_sign_byte c c eq_refl) (w_reveal _ _ _ _ _ _ release_keeps)).
  - change (m_sc_add (plain_machine u32_backend) s t) with (scalar_add s t). apply (keeps_eq _ _ _ _ _ _ (e_out _)), (pk p_out), (pk p_scalar_add); ins.
  - change (m_sc_sub (plain_machine u32_backend) s t) with (scalar_sub s t). apply (keeps_eq _ _ _ _ _ _ (e_out _)), (pk p_out), (pk p_scalar_sub); ins.
  - change (m_sc_mul (plain_machine u32_backend) s t) with (scalar_mul s t). apply (keeps_eq _ _ _ _ _ _ (e_out _)), (pk p_out), (pk p_scalar_mul); ins.
  - change (m_sc_invert (plain_machine u32_backend) s) with (scalar_invert s). apply (keeps_eq _ _ _ _ _ _ (eq_trans (e_out _) (e_scalar_invert _))), (pk p_out), (pk p_scalar_invert); ins.
  - change (m_sc_halve (plain_machine u32_backend) s) with (scalar_halve s). apply (keeps_eq _ _ _ _ _ _ (eq_trans (e_out _) (e_scalar_halve _))), (pk p_out), (pk p_scalar_halve); ins.
  - change (m_sc_wide (plain_machine u32_backend) b) with (scalar_from_bytes_mod_order_wide b). apply (keeps_eq _ _ _ _ _ _ (eq_trans (e_out _) (e_scalar_wide _))), (pk p_out), (pk p_scalar_wide); ins.
  - assert (G : rl keeping (Sec keeping) (out panics release (scalar_div_by_fourS panics release s)) (Ok (scalar_div_by_four s))).
    { change (@Ok (list Z)) with (@Ok scalar). apply (keeps_eq _ _ _ _ _ _ (eq_trans (e_out _) (e_div_by_four _))), (pk p_out), (pk p_div_by_four); ins. }
    destruct G as (v & Ev & G). exists v. split; [exact Ev|]. change (v = scalar_div_by_four s) in G. rewrite G. split; [reflexivity|].
    split; apply div4_length; assumption.
  - change (m_bits (plain_machine u32_backend) s) with (Ok (scalar_bits s)). apply (keeps_eq _ _ _ _ _ _ (e_scalar_bits _)), (pk p_scalar_bits); ins.
  - change (m_radix16 (plain_machine u32_backend) s) with (to_radix_16 s). apply (keeps_eq _ _ _ _ _ _ (e_to_radix_16 _)), (pk p_to_radix_16); ins.
  - destruct s as [|x s]; [discriminate|]. exact (pk p_mod_four (x :: s) (x :: s) (F2_same _)).
  - pose proof (pk p_digit_abs d d' H) as G.
    change (rl keeping (Rprod Weq Weq) (digit_absS panics release d)
      (bind (bind (bind (i8_add d' (shr d' 7)) (fun t => Ok (Z.lxor t (shr d' 7)))) (fun t => Ok (as_u32 t))) (fun t => Ok (t, Z.land (shr d' 7) 1)))) in G.
    change (m_digit_abs (plain_machine u32_backend) d') with (bind (i8_add d' (shr d' 7)) (fun t => Ok (as_u32 (Z.lxor t (shr d' 7)), Z.land (shr d' 7) 1))).
    destruct (i8_add d' (shr d' 7)); exact G.
  - exact (pk p_digit_choice d d' H).
  - change (m_digit_ct_eq (plain_machine u32_backend) d' n) with (Ok (d' =? n)). apply (keeps_eq _ _ _ _ _ _ (e_ct_eqS 32 d' n ltac:(lia))). exact (pk p_ct_eqS 32 d d' n n H eq_refl).
  - exact (w_test _ _ _ _ _ _ release_keeps (TEqual n) d d' H).
  - unfold fe_ct_eqS. apply (l_bind keeping (fun x y => x = y /\ length x = 56%nat)); [apply release_bytes; assumption|]. intros x x' (<- & Hx).
    apply (l_bind keeping (fun x y => x = y /\ length x = 56%nat)); [apply release_bytes; assumption|]. intros y y' (<- & Hy). apply release_eq; assumption.
  - apply (l_bind keeping (fun x y => x = y /\ length x = 56%nat)); [apply release_bytes; assumption|]. intros x x' (<- & Hx). apply release_eq; assumption.
Qed.
Lemma release_canonical : forall b b', b = b' -> bytes 57 b -> bytes 57 b' ->
  rl keeping (Ropt (Sec keeping)) (m_sc_canonical release32_machine b) (m_sc_canonical (plain_machine u32_backend) b').
Proof.
  intros b b' <- Hb _. change (m_sc_canonical (plain_machine u32_backend) b) with (scalar_from_canonical_bytes b). rewrite <- e_scalar_canonical by apply Hb.
  assert (G : rl keeping (Ropt (Forall2 Weq)) (scalar_from_canonical_bytesS panics release b) (scalar_from_canonical_bytesS panics plain b)).
  { apply (pk p_canonical); [|apply F2_same]. intros c c' H. change (c = c') in H. subst. exists c'. split; reflexivity. }
  unfold rl, keeping, keeps in *. cbn [release32_machine word_machine m_sc_canonical]. destruct (scalar_from_canonical_bytesS panics plain b) as [o'|]; [|exact I]. destruct G as (o & Eo & G). rewrite Eo.
  cbn [andthen panics bind]. destruct o as [s|], o' as [s'|]; cbn [Ropt] in G; try contradiction.
  - pose proof (pk p_reveal_all s s' G) as V. rewrite e_reveal in V. destruct V as (t & Et & V). rewrite Et. cbn [bind]. exists (Some t). split; [reflexivity|exact V].
  - exists None. split; [reflexivity|exact I].
Qed.

(** ** 64-bit limbs *)
Local Notation P := fiat_code.
Local Notation B := (fiat_backend fiat_code).
Definition Rsame64 (a : fe release64) (b : fe B) : Prop := Forall2 Weq a b.
Lemma release64_bytes : forall a a', Rsame64 a a' -> rl keeping (fun x y => x = y /\ length x = 56%nat) (m_to_bytes release64_machine a) (m_to_bytes (plain_machine B) a').
Proof.
  intros a a' H. assert (G : rl keeping (Sec keeping) (m_to_bytes release64_machine a) (to_bytes56 P a')) by (rewrite <- e_to_bytes56, <- e_out; apply (pk p_out), (pk p_to_bytes56); assumption).
  change (m_to_bytes (plain_machine B) a') with (to_bytes56 P a'). unfold rl, keeping, keeps in *. destruct (to_bytes56 P a') as [y|] eqn:E; [|exact I]. destruct G as (x & Ex & G).
  exists x. split; [exact Ex|]. change (x = y) in G. subst y. split; [reflexivity|]. exact (to_bytes56_length _ _ E).
Qed.
Local Notation old c := (c _ _ _ _ _ _ _ _ _ release32_keeps).
Ltac same := match goal with H : Sec _ ?c ?d |- _ => change (c = d) in H; subst d end.
Theorem release64_keeps : mcompat _ _ keeping _ _ release64_machine (plain_machine B) Rsame64 Weq.
Proof.
  constructor; try exact (lits_same _).
  - intros. change (m_add (plain_machine B) a' b') with (add56 P a' b'). apply (keeps_eq _ _ _ _ _ _ (e_add56 _ _)), (pk p_add56); assumption.
  - intros. change (m_sub (plain_machine B) a' b') with (sub56 P a' b'). apply (keeps_eq _ _ _ _ _ _ (e_sub56 _ _)), (pk p_sub56); assumption.
  - intros. change (m_mul (plain_machine B) a' b') with (mul56 P a' b'). apply (keeps_eq _ _ _ _ _ _ (e_mul56 _ _)), (pk p_mul56); assumption.
  - intros. change (m_square (plain_machine B) a') with (square56 P a'). apply (keeps_eq _ _ _ _ _ _ (e_square56 _)), (pk p_square56); assumption.
  - intros. change (m_negate (plain_machine B) a') with (negate56 P a'). apply (keeps_eq _ _ _ _ _ _ (e_negate56 _)), (pk p_negate56); assumption.
  - intros. change (m_strong_reduce (plain_machine B) a') with (strong_reduce56 P a'). apply (keeps_eq _ _ _ _ _ _ (e_strong_reduce56 _)), (pk p_fcarry); assumption.
  - intros. same. change (m_select (plain_machine B) a' b' c) with (conditional_select56 P a' b' c). apply (keeps_eq _ _ _ _ _ _ (e_select56 _ _ _)), (pk p_select56); [assumption|assumption|reflexivity].
  - intros. same. change (m_cond_negate (plain_machine B) a' c) with (conditional_negate56 P a' c). apply (keeps_eq _ _ _ _ _ _ (e_cond_negate56 _ _)), (pk p_cneg56); [assumption|reflexivity].
  - intros. change (m_is_negative (plain_machine B) a') with (is_negative56 P a'). apply (keeps_eq _ _ _ _ _ _ (e_is_negative56 _)), (pk p_is_negative56); assumption.
  - intros b b' (H & Hb & Hb'). same. change (m_from_bytes (plain_machine B) b) with (from_bytes56 P b). apply (keeps_eq _ _ _ _ _ _ (e_from_bytes56 _)), (pk p_from_bytes56). apply F2_same.
  - intros. change (m_to_bytes (plain_machine B) a') with (to_bytes56 P a'). apply (keeps_eq _ _ _ _ _ _ (eq_trans (e_out _) (e_to_bytes56 _))), (pk p_out), (pk p_to_bytes56); assumption.
  - exact (old c_sign).
  - exact (old c_sign_byte).
  - exact (old c_sc_add).
  - exact (old c_sc_sub).
  - exact (old c_sc_mul).
  - exact (old c_sc_invert).
  - exact (old c_sc_halve).
  - exact (old c_sc_wide).
  - exact (old c_div4).
  - exact (old StepRelCurve.c_bits).
  - exact (old c_radix16).
  - exact (old c_mod_four).
  - exact (old c_digit_abs).
  - exact (old c_digit_choice).
  - exact (old c_digit_ct_eq).
  - exact (old c_digit_eq).
  - intros. unfold fe_ct_eqS. apply (l_bind keeping (fun x y => x = y /\ length x = 56%nat)); [apply release64_bytes; assumption|]. intros x x' (<- & Hx).
    apply (l_bind keeping (fun x y => x = y /\ length x = 56%nat)); [apply release64_bytes; assumption|]. intros y y' (<- & Hy). apply release_eq; assumption.
  - intros a a' b b' Ha (Hb & Lb & Lb') _ _. same. apply (l_bind keeping (fun x y => x = y /\ length x = 56%nat)); [apply release64_bytes; assumption|]. intros x x' (<- & Hx). apply release_eq; assumption.
Qed.
