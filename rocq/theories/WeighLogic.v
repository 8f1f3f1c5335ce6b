(** Counting operations on machine words without performing them (for C78): a computation that is only told which way branches go, a third
    logic for the lemmas of StepRelWords.v and StepRelCurve.v, and machines that add up what each function of the field and of the scalars costs. *)
Require Import ZArith List Bool Lia.
From Verif Require Import Base SpecParams FieldBackend Backends ScalarModel TwistedModel ScalarMulModel EdwardsModel MontgomeryModel DecafModel
  Steps StepU32 StepScalar StepCurve StepPlain StepRelWords StepRelCurve TraceSpec TraceLogic TraceLogicWords CostSpec CostMain.
Import ListNotations.
Open Scope N_scope.

(** The ways branches will go; then what is returned, the ways left, operations and multiplications. *)
Definition counter : steps := {|
  run A := list bool -> res (A * list bool * (N * N));
  ret A a := fun d => Ok (a, d, (0, 0));
  andthen A C m f := fun d => match m d with
    | Ok (a, d', (n, k)) => match f a d' with Ok (c, d'', (n', k')) => Ok (c, d'', (n + n', k + k')) | Panic => Panic end
    | Panic => Panic end;
  fail A := fun _ => Panic
|}.
Definition spend (c : N * N) {A} (a : A) : run counter A := fun d => Ok (a, d, c).
Definition told (b : bool) : run counter bool := fun d => match d with [] => Panic | c :: d' => Ok (c, d', (1, 0)) end.

Lemma mults_app : forall t u, word_multiplications (t ++ u) = word_multiplications t + word_multiplications u.
Proof. intros t u. unfold word_multiplications. rewrite filter_app, app_length, Nnat.Nat2N.inj_add. reflexivity. Qed.
Definition tally_rl A A' (R : A -> A' -> Prop) (x : run (tracing word_op) A) (y : run counter A') : Prop :=
  forall a rest, snd x = Ok a -> match y (branches (fst x) ++ rest) with
    | Ok (a', rest', (n, k)) => rest' = rest /\ N.of_nat (length (fst x)) = n /\ word_multiplications (fst x) = k /\ R a a'
    | Panic => True end.
Definition tally : logic (tracing word_op) counter.
Proof.
  refine {| rl := tally_rl; gives1 A m a := snd m = Ok a; gives2 A m a := True; Sec A _ _ := True |}; try (intros; exact I).
  - intros A A' R a a' H b rest Eb. cbn [ret tracing traced fst snd] in *. injection Eb as <-. repeat split. exact H.
  - intros A A' C C' R S m m' f f' H K c rest Ec.
    destruct (traced_bind _ _ _ _ _ _ Ec) as (a & Ea & Fa & Ta). rewrite Ta, branches_app, <- app_assoc. specialize (H a (branches (fst (f a)) ++ rest) Ea).
    cbn [andthen counter]. destruct (m' _) as [[[a' d'] [n k]]|]; [|exact I]. destruct H as (-> & Hn & Hk & Ra). specialize (K a a' Ra c rest Fa).
    destruct (f' a' _) as [[[c' d''] [n' k']]|]; [|exact I]. destruct K as (-> & Hn' & Hk' & Rc). rewrite app_length, Nnat.Nat2N.inj_add, mults_app, Hn, Hn', Hk, Hk'. auto.
  - intros A A' R a rest Ea. discriminate Ea.
  - intros A A' R m m' H a rest Ea. specialize (H a rest Ea). destruct (m' _) as [[[a' d'] [n k]]|]; [|exact I]. intuition.
Defined.
Lemma tally_goes : forall c c', rl tally eq (goes c) (told c').
Proof. intros c c' a rest Ea. cbn [goes fst snd branches app told] in *. injection Ea as <-. repeat split. Qed.
(** Something that does not branch costs what a run on other data costs. *)
Lemma tally_of : forall A A' A'' C (Q : A -> A'' -> Prop) z (R : A -> A' -> Prop) (S : A -> C -> Prop) (x : run (tracing word_op) A) (y : run (tracing word_op) A') (c : N * N) v,
  rl (quiet word_op) Q x z -> rl (two word_op) R x y -> (exists r, snd y = Ok r /\ forall a, R a r -> S a v) -> branches (fst y) = [] ->
  (N.of_nat (length (fst y)), word_multiplications (fst y)) = c -> rl tally S x (spend c v).
Proof.
  intros A A' A'' C Q z R S x y c v (Bx & _) H (r & Er & Hr) By <- a rest Ea. destruct (H a r Ea Er [] []) as (Et & Ra); [rewrite Bx, By; reflexivity|].
  rewrite Bx, Et. cbn [app spend]. auto.
Qed.

(** What the functions that the curve code calls cost: the field's, and the others. *)
Record weights : Type := mkWeights {
  w_add : N * N; w_sub : N * N; w_mul : N * N; w_square : N * N; w_negate : N * N; w_strong : N * N; w_select : N * N; w_cneg : N * N; w_isneg : N * N; w_from : N * N; w_to : N * N }.
Definition units : backend := carrier unit (fun _ => tt).
Definition weigh (w : weights) : machine counter units := mkMachine counter units
  (fun _ _ => spend (w_add w) tt) (fun _ _ => spend (w_sub w) tt) (fun _ _ => spend (w_mul w) tt) (fun _ => spend (w_square w) tt) (fun _ => spend (w_negate w) tt)
  (fun _ => spend (w_strong w) tt) (fun _ _ _ => spend (w_select w) tt) (fun _ _ => spend (w_cneg w) tt) (fun _ => spend (w_isneg w) true)
  (fun _ => spend (w_from w) tt) (fun _ => spend (w_to w) (repeat 0%Z 56)) told
  (fun _ => spend (2, 0) true) (fun _ => spend (3, 0) 0%Z)
  (fun _ _ => spend (198, 0) zeros) (fun _ _ => spend (141, 0) zeros) (fun _ _ => spend (4384, 812) zeros) (fun _ => fail) (fun _ => spend (128, 0) zeros) (fun _ => fail) (fun _ => spend (9416, 1624) zeros)
  (fun _ => spend (54, 0) zeros) (fun _ => spend (896, 0) (repeat true 448)) unit
  (fun _ => spend (896, 0) (repeat tt 113)) (fun _ => spend (1, 0) tt) (fun _ => spend (5, 0) (tt, tt)) (fun _ => spend (2, 0) true) (fun _ _ => spend (6, 0) true) (fun _ _ => spend (1, 0) true)
  (fun _ _ => spend (449, 0) true).
Definition weights32 : weights := mkWeights (65, 0) (83, 1) (479, 192) (399, 108) (83, 1) (215, 0) (80, 0) (163, 1) (345, 0) (128, 0) (399, 0).
Definition weights64 : weights := mkWeights (50, 0) (58, 0) (244, 98) (167, 63) (50, 0) (42, 0) (57, 0) (107, 0) (289, 0) (96, 0) (343, 0).

(** ** The 32-bit backend *)
Definition Rlen (k : nat) (a : list (Z * wshape)) (_ : unit) : Prop := length a = k.
Definition Rany {A} (_ : A) (_ : unit) : Prop := True.
Ltac spread a H := repeat (destruct a as [|? a]; [discriminate H|]); destruct a; [clear H|discriminate H].
Ltac vm := vm_compute; reflexivity.
Lemma len_shape : forall a b : list (Z * wshape), Forall2 Wshape a b -> length a = length b.
Proof. induction 1; [reflexivity|]. cbn [length]. rewrite IHForall2. reflexivity. Qed.
Lemma two_lengths : forall A C (R : A -> C -> Prop) a b, Forall2 R a b -> length a = length b.
Proof. induction 1; [reflexivity|]. cbn [length]. rewrite IHForall2. reflexivity. Qed.
Lemma some_list : forall (y : run (tracing word_op) (list (Z * wshape))) k, match snd y with Ok r => Nat.eqb (length r) k | Panic => false end = true ->
  exists r, snd y = Ok r /\ forall a, Forall2 Wshape a r -> Rlen k a tt.
Proof. intros y k H. destruct (snd y) as [r|]; [|discriminate H]. exists r. split; [reflexivity|]. intros a Ha. unfold Rlen. rewrite (len_shape _ _ Ha). apply PeanoNat.Nat.eqb_eq. exact H. Qed.
Lemma some_any : forall A A' (y : run (tracing word_op) A') (R : A -> A' -> Prop) (S : A -> Prop), returned (snd y) = true -> (forall a, S a) -> exists r, snd y = Ok r /\ forall a, R a r -> S a.
Proof. intros A A' y R S H HS. destruct (snd y) as [r|]; [|discriminate H]. exists r. auto. Qed.
Lemma plain_of : forall a : list (Z * wshape), Forall2 Wplain a (map fst a).
Proof. induction a; constructor; [reflexivity|assumption]. Qed.
Notation q32 c := (c _ _ _ _ _ _ _ _ _ words_quiet).
Notation t32 c := (c _ _ _ _ _ _ _ _ _ words_two).
Lemma same_sc : forall n (s : list Z), length s = n -> Rby _ _ (quiet word_op) n s s. Proof. intros n s H. exact (conj eq_refl (conj H H)). Qed.
Lemma other_sc : forall n (s : list Z), length s = n -> Rby _ _ (two word_op) n s (repeat 0%Z n). Proof. intros n s H. exact (conj I (conj H (repeat_length _ _))). Qed.
Ltac any := refine (some_any _ _ _ _ (fun _ => True) _ _); [vm|intros; exact I].
Lemma bytes_32 : forall a, length a = 16%nat -> rl tally (fun x y => length x = 56%nat /\ length y = 56%nat) (m_to_bytes words_machine a) (spend (399, 0) (repeat 0%Z 56)).
Proof.
  intros a Ha. assert (G : rl tally (fun _ _ => True) (m_to_bytes words_machine a) (spend (399, 0) (repeat 0%Z 56))).
  { eapply (tally_of _ _ _ _ _ _ _ _ _ (m_to_bytes words_machine (void a))); [exact (q32 c_to a _ (plain_of a))|exact (t32 c_to a _ (void_shape a))|spread a Ha; any|spread a Ha; vm|spread a Ha; vm]. }
  intros x rest Ex. specialize (G x rest Ex). destruct (words_bytes a _ (plain_of a)) as (_ & Hx). rewrite Ex in Hx. unfold spend in *. intuition.
  destruct (m_to_bytes (plain_machine u32_backend) (map fst a)); [|contradiction Hx]. apply Hx.
Qed.
Lemma eq_32 : forall x y, length x = 56%nat -> length y = 56%nat -> rl tally (fun _ _ => True) (m_bytes_eq words_machine x y) (spend (449, 0) true).
Proof.
  intros x y Hx Hy. eapply (tally_of _ _ _ _ _ _ _ _ _ (m_bytes_eq words_machine (repeat 0%Z 56) (repeat 0%Z 56))); [exact (words_eq x y Hx Hy)| |any|vm|vm].
  exact (p_ct_eq_slice _ _ (two word_op) watched watched Wshape watched_two _ _ _ _ (inputs_shape _ _ _ _) (inputs_shape _ _ _ _)).
Qed.
Theorem words_tally : mcompat _ _ tally _ _ words_machine (weigh weights32) (Rlen 16) Rany.
Proof.
  constructor; try reflexivity.
  - intros a a' b b' Ha Hb. unfold Rlen in Ha, Hb. refine (tally_of _ _ _ _ _ _ _ _ _ (m_add words_machine (void a) (void b)) _ _ (q32 c_add a _ b _ (plain_of a) (plain_of b)) (t32 c_add a _ b _ (void_shape a) (void_shape b)) _ _ _);
      [apply some_list| |]; spread a Ha; spread b Hb; vm.
  - intros a a' b b' Ha Hb. unfold Rlen in Ha, Hb. refine (tally_of _ _ _ _ _ _ _ _ _ (m_sub words_machine (void a) (void b)) _ _ (q32 c_sub a _ b _ (plain_of a) (plain_of b)) (t32 c_sub a _ b _ (void_shape a) (void_shape b)) _ _ _);
      [apply some_list| |]; spread a Ha; spread b Hb; vm.
  - intros a a' b b' Ha Hb. unfold Rlen in Ha, Hb. refine (tally_of _ _ _ _ _ _ _ _ _ (m_mul words_machine (void a) (void b)) _ _ (q32 c_mul a _ b _ (plain_of a) (plain_of b)) (t32 c_mul a _ b _ (void_shape a) (void_shape b)) _ _ _);
      [apply some_list| |]; spread a Ha; spread b Hb; vm.
  - intros a a' Ha. unfold Rlen in Ha. refine (tally_of _ _ _ _ _ _ _ _ _ (m_square words_machine (void a)) _ _ (q32 c_square a _ (plain_of a)) (t32 c_square a _ (void_shape a)) _ _ _);
      [apply some_list| |]; spread a Ha; vm.
  - intros a a' Ha. unfold Rlen in Ha. refine (tally_of _ _ _ _ _ _ _ _ _ (m_negate words_machine (void a)) _ _ (q32 c_negate a _ (plain_of a)) (t32 c_negate a _ (void_shape a)) _ _ _);
      [apply some_list| |]; spread a Ha; vm.
  - intros a a' Ha. unfold Rlen in Ha. refine (tally_of _ _ _ _ _ _ _ _ _ (m_strong_reduce words_machine (void a)) _ _ (q32 c_strong a _ (plain_of a)) (t32 c_strong a _ (void_shape a)) _ _ _);
      [apply some_list| |]; spread a Ha; vm.
  - intros a a' b b' c c' Ha Hb _. unfold Rlen in Ha, Hb. refine (tally_of _ _ _ _ _ _ _ _ _ (m_select words_machine (void a) (void b) false) _ _ (q32 c_select a _ b _ c c (plain_of a) (plain_of b) eq_refl)
      (t32 c_select a _ b _ c false (void_shape a) (void_shape b) I) _ _ _);
      [apply some_list| |]; spread a Ha; spread b Hb; vm.
  - intros a a' c c' Ha _. unfold Rlen in Ha. refine (tally_of _ _ _ _ _ _ _ _ _ (m_cond_negate words_machine (void a) false) _ _ (q32 c_cneg a _ c c (plain_of a) eq_refl) (t32 c_cneg a _ c false (void_shape a) I) _ _ _);
      [apply some_list| |]; spread a Ha; vm.
  - intros a a' Ha. unfold Rlen in Ha. refine (tally_of _ _ _ _ _ _ _ _ _ (m_is_negative words_machine (void a)) _ _ (q32 c_isneg a _ (plain_of a)) (t32 c_isneg a _ (void_shape a)) _ _ _); [spread a Ha; any| |]; spread a Ha; vm.
  - intros b b' (_ & Hb & _). refine (tally_of _ _ _ _ _ _ _ _ _ (m_from_bytes words_machine (repeat 0%Z 56)) _ _ (q32 c_from b b (same_sc _ _ Hb)) (t32 c_from b _ (other_sc _ _ Hb)) _ _ _); [apply some_list| |]; vm.
  - intros a a' Ha. pose proof (bytes_32 a Ha) as G. intros x rest Ex. specialize (G x rest Ex). cbn in *. intuition.
  - intros b b' (_ & Hb & _) Ob _. refine (tally_of _ _ _ _ _ _ _ _ _ (m_sign words_machine (repeat 0%Z 57)) _ _ (q32 c_sign b b (same_sc _ _ Hb) Ob Ob) (t32 c_sign b _ (other_sc _ _ Hb) Ob (zero_bytes 57)) _ _ _); [any| |]; vm.
  - intros c c' _. refine (tally_of _ _ _ _ _ _ _ _ _ (m_sign_byte words_machine false) _ _ (q32 c_sign_byte c c eq_refl) (t32 c_sign_byte c false I) _ _ _); [any| |]; vm.
  - intros s s' t t' (_ & Hs & _) (_ & Ht & _). refine (tally_of _ _ _ _ _ _ _ _ _ (m_sc_add words_machine (repeat 0%Z 14) (repeat 0%Z 14)) _ _ (q32 c_sc_add s s t t (same_sc _ _ Hs) (same_sc _ _ Ht)) (t32 c_sc_add s _ t _ (other_sc _ _ Hs) (other_sc _ _ Ht)) _ _ _); [any| |]; vm.
  - intros s s' t t' (_ & Hs & _) (_ & Ht & _). refine (tally_of _ _ _ _ _ _ _ _ _ (m_sc_sub words_machine (repeat 0%Z 14) (repeat 0%Z 14)) _ _ (q32 c_sc_sub s s t t (same_sc _ _ Hs) (same_sc _ _ Ht)) (t32 c_sc_sub s _ t _ (other_sc _ _ Hs) (other_sc _ _ Ht)) _ _ _); [any| |]; vm.
  - intros s s' t t' (_ & Hs & _) (_ & Ht & _). refine (tally_of _ _ _ _ _ _ _ _ _ (m_sc_mul words_machine (repeat 0%Z 14) (repeat 0%Z 14)) _ _ (q32 c_sc_mul s s t t (same_sc _ _ Hs) (same_sc _ _ Ht)) (t32 c_sc_mul s _ t _ (other_sc _ _ Hs) (other_sc _ _ Ht)) _ _ _); [any| |]; vm.
  - intros s s' _ a rest _. exact I.
  - intros s s' (_ & Hs & _). refine (tally_of _ _ _ _ _ _ _ _ _ (m_sc_halve words_machine (repeat 0%Z 14)) _ _ (q32 c_sc_halve s s (same_sc _ _ Hs)) (t32 c_sc_halve s _ (other_sc _ _ Hs)) _ _ _); [any| |]; vm.
  - intros b b' (_ & Hb & _). refine (tally_of _ _ _ _ _ _ _ _ _ (m_sc_wide words_machine (repeat 0%Z 114)) _ _ (q32 c_sc_wide b b (same_sc _ _ Hb)) (t32 c_sc_wide b _ (other_sc _ _ Hb)) _ _ _); [any| |]; vm.
  - intros s s' (_ & Hs & _). refine (tally_of _ _ _ _ _ _ _ _ _ (m_div4 words_machine (repeat 0%Z 14)) _ _ (q32 c_div4 s s (same_sc _ _ Hs)) (t32 c_div4 s _ (other_sc _ _ Hs)) _ _ _); [|vm|vm].
    eexists. split; [vm|]. intros a (_ & Ha & _). exact (conj I (conj Ha eq_refl)).
  - intros s s' (_ & Hs & _). refine (tally_of _ _ _ _ _ _ _ _ _ (m_bits words_machine (repeat 0%Z 14)) _ _ (q32 StepRelCurve.c_bits s s (same_sc _ _ Hs)) (t32 StepRelCurve.c_bits s _ (other_sc _ _ Hs)) _ _ _); [|vm|vm].
    eexists. split; [vm|]. intros a Ha. apply two_lengths in Ha. clear - Ha. change (length a = 448%nat) in Ha. rewrite <- Ha. clear Ha. induction a; constructor; [exact I|assumption].
  - intros s s' (_ & Hs & _). refine (tally_of _ _ _ _ _ _ _ _ _ (m_radix16 words_machine (repeat 0%Z 14)) _ _ (q32 c_radix16 s s (same_sc _ _ Hs)) (t32 c_radix16 s _ (other_sc _ _ Hs)) _ _ _); [|vm|vm].
    assert (G : exists r, snd (m_radix16 words_machine (repeat 0%Z 14)) = Ok r /\ length r = 113%nat) by (eexists; split; vm_compute; reflexivity).
    destruct G as (r & Er & Hr). exists r. split; [exact Er|]. intros a Ha. apply two_lengths in Ha. rewrite Hr in Ha. clear - Ha. rewrite <- Ha. clear Ha. induction a; constructor; [exact I|assumption].
  - intros s s' (_ & Hs & _). refine (tally_of _ _ _ _ _ _ _ _ _ (m_mod_four words_machine (repeat 0%Z 14)) _ _ (q32 c_mod_four s s (same_sc _ _ Hs)) (t32 c_mod_four s _ (other_sc _ _ Hs)) _ _ _); [any| |]; vm.
  - intros d d' _. refine (tally_of _ _ _ _ _ _ _ _ _ (m_digit_abs words_machine (0%Z, snd d)) _ _ (q32 c_digit_abs d (fst d) eq_refl) (t32 c_digit_abs d (0%Z, snd d) eq_refl) _ _ _); [apply some_any; [vm|intros; split; exact I]| |]; vm.
  - intros d d' _ G. refine (tally_of _ _ _ _ _ _ _ _ _ (m_digit_choice words_machine (0%Z, snd d)) _ _ (q32 c_digit_choice d (fst d) eq_refl G) (t32 c_digit_choice d (0%Z, snd d) eq_refl G) _ _ _); [any| |]; vm.
  - intros d d' n _ Hn G. refine (tally_of _ _ _ _ _ _ _ _ _ (m_digit_ct_eq words_machine (0%Z, snd d) n) _ _ (q32 c_digit_ct_eq d (fst d) n eq_refl Hn G) (t32 c_digit_ct_eq d (0%Z, snd d) n eq_refl Hn G) _ _ _); [any| |]; vm.
  - intros d d' n _. refine (tally_of _ _ _ _ _ _ _ _ _ (m_digit_eq words_machine (0%Z, snd d) n) _ _ (q32 c_digit_eq d (fst d) n eq_refl) (t32 c_digit_eq d (0%Z, snd d) n eq_refl) _ _ _); [any| |]; vm.
  - intros a a' b b' Ha Hb. refine (l_bind tally _ _ _ _ _ _ (bytes_32 a Ha) _). intros x x' (Hx & _). refine (l_bind tally _ _ _ _ _ _ (bytes_32 b Hb) _). intros y y' (Hy & _). exact (eq_32 x y Hx Hy).
  - intros a a' b b' Ha (_ & Hb & _) _ _. refine (l_bind tally _ _ _ _ _ _ (bytes_32 a Ha) _). intros x x' (Hx & _). exact (eq_32 x b Hx Hb).
Qed.
