(** Word code, function by function: the same steps whatever the words are, and the results of the models. *)
Require Import ZArith List Bool Lia.
From Verif Require Import Base SpecParams FieldBackend FieldU32Model Backends ScalarModel TwistedModel ScalarMulModel EdwardsModel MontgomeryModel DecafModel ApiExpr
  Steps StepSubtle StepU32 StepScalar StepCurve StepPlain StepRelWords StepRelCurve TraceSpec TraceLogic TraceLogicWords TraceMain.
Import ListNotations.
Open Scope Z_scope.

Notation T := (tracing word_op).
Definition vals (a : list (Z * wshape)) : list Z := map fst a.
Definition exprs (a : list (Z * wshape)) : list wshape := map snd a.
Lemma vals_plain : forall a, Forall2 Wplain a (vals a).
Proof. induction a; constructor; [reflexivity|assumption]. Qed.
Lemma exprs_shape : forall a a', exprs a = exprs a' -> Forall2 Wshape a a'.
Proof.
  induction a as [|x a IH]; intros [|x' a'] H; [constructor|discriminate H|discriminate H|]. cbn [exprs map] in H. constructor; [exact (hd_eq H)|]. apply IH. exact (tl_eq H).
Qed.
Lemma computes_of : forall A C (value : A -> C) (R : A -> C -> Prop) (x : run T A) y, rl (quiet word_op) R x y -> (forall a c, R a c -> value a = c) -> computes value x y.
Proof. intros A C value R x y (_ & H) G. unfold computes. destruct (snd x), y; cbn [agrees] in H; auto. Qed.
Notation p2 f := (f _ _ (two word_op) watched watched Wshape watched_two).
Notation pq f := (f _ _ (quiet word_op) watched plain Wplain watched_quiet).
Lemma same_words_of : forall (x y : run T (list (word watched))) z z', rl (quiet word_op) (Forall2 Wplain) x z -> rl (quiet word_op) (Forall2 Wplain) y z' ->
  rl (two word_op) (Forall2 Wshape) x y -> same_steps exprs x y.
Proof. intros x y z z' H H' G. exact (same_steps_of _ _ _ _ _ exprs _ _ _ _ _ _ H H' G map_snd_shape). Qed.
Lemma same_bits_of : forall A (x y : run T A) (Q Q' : A -> A -> Prop) z z' (R : A -> A -> Prop), rl (quiet word_op) Q x z -> rl (quiet word_op) Q' y z' ->
  rl (two word_op) R x y -> same_steps (fun _ => tt) x y.
Proof. intros A x y Q Q' z z' R H H' G. exact (same_steps_of _ _ _ _ _ (fun _ => tt) _ _ _ _ _ _ H H' G (fun _ _ _ => eq_refl)). Qed.
Lemma F2_eq : forall A (l l' : list A), Forall2 eq l l' -> l = l'.
Proof. induction 1 as [|x y l l' E _ IH]; [reflexivity|]. rewrite E, IH. reflexivity. Qed.
Lemma s_scalar_add : forall a a' b b', exprs a = exprs a' -> exprs b = exprs b' -> same_steps exprs (scalar_addS T watched a b) (scalar_addS T watched a' b').
Proof.
  intros a a' b b' Ha Hb. exact (same_words_of _ _ _ _ (pq p_scalar_add a _ b _ (vals_plain a) (vals_plain b)) (pq p_scalar_add a' _ b' _ (vals_plain a') (vals_plain b'))
    (p2 p_scalar_add a a' b b' (exprs_shape _ _ Ha) (exprs_shape _ _ Hb))).
Qed.
Lemma c_scalar_add : forall a b, computes vals (scalar_addS T watched a b) (scalar_add (vals a) (vals b)).
Proof. intros a b. pose proof (computes_of _ _ vals _ _ _ (pq p_scalar_add a _ b _ (vals_plain a) (vals_plain b)) map_fst_plain) as H. exact H. Qed.
Lemma s_scalar_sub : forall a a' b b', exprs a = exprs a' -> exprs b = exprs b' -> same_steps exprs (scalar_subS T watched a b) (scalar_subS T watched a' b').
Proof.
  intros a a' b b' Ha Hb. exact (same_words_of _ _ _ _ (pq p_scalar_sub a _ b _ (vals_plain a) (vals_plain b)) (pq p_scalar_sub a' _ b' _ (vals_plain a') (vals_plain b'))
    (p2 p_scalar_sub a a' b b' (exprs_shape _ _ Ha) (exprs_shape _ _ Hb))).
Qed.
Lemma c_scalar_sub : forall a b, computes vals (scalar_subS T watched a b) (scalar_sub (vals a) (vals b)).
Proof. intros a b. pose proof (computes_of _ _ vals _ _ _ (pq p_scalar_sub a _ b _ (vals_plain a) (vals_plain b)) map_fst_plain) as H. exact H. Qed.
Lemma s_scalar_mul : forall a a' b b', exprs a = exprs a' -> exprs b = exprs b' -> same_steps exprs (scalar_mulS T watched a b) (scalar_mulS T watched a' b').
Proof.
  intros a a' b b' Ha Hb. exact (same_words_of _ _ _ _ (pq p_scalar_mul a _ b _ (vals_plain a) (vals_plain b)) (pq p_scalar_mul a' _ b' _ (vals_plain a') (vals_plain b'))
    (p2 p_scalar_mul a a' b b' (exprs_shape _ _ Ha) (exprs_shape _ _ Hb))).
Qed.
Lemma c_scalar_mul : forall a b, computes vals (scalar_mulS T watched a b) (scalar_mul (vals a) (vals b)).
Proof. intros a b. pose proof (computes_of _ _ vals _ _ _ (pq p_scalar_mul a _ b _ (vals_plain a) (vals_plain b)) map_fst_plain) as H. exact H. Qed.
Lemma s_add28 : forall a a' b b', exprs a = exprs a' -> exprs b = exprs b' -> same_steps exprs (add28S T watched a b) (add28S T watched a' b').
Proof.
  intros a a' b b' Ha Hb. exact (same_words_of _ _ _ _ (pq p_add28 a _ b _ (vals_plain a) (vals_plain b)) (pq p_add28 a' _ b' _ (vals_plain a') (vals_plain b'))
    (p2 p_add28 a a' b b' (exprs_shape _ _ Ha) (exprs_shape _ _ Hb))).
Qed.
Lemma c_add28 : forall a b, computes vals (add28S T watched a b) (add28 (vals a) (vals b)).
Proof. intros a b. pose proof (computes_of _ _ vals _ _ _ (pq p_add28 a _ b _ (vals_plain a) (vals_plain b)) map_fst_plain) as H. exact H. Qed.
Lemma s_sub28 : forall a a' b b', exprs a = exprs a' -> exprs b = exprs b' -> same_steps exprs (sub28S T watched a b) (sub28S T watched a' b').
Proof.
  intros a a' b b' Ha Hb. exact (same_words_of _ _ _ _ (pq p_sub28 a _ b _ (vals_plain a) (vals_plain b)) (pq p_sub28 a' _ b' _ (vals_plain a') (vals_plain b'))
    (p2 p_sub28 a a' b b' (exprs_shape _ _ Ha) (exprs_shape _ _ Hb))).
Qed.
Lemma c_sub28 : forall a b, computes vals (sub28S T watched a b) (sub28 (vals a) (vals b)).
Proof. intros a b. pose proof (computes_of _ _ vals _ _ _ (pq p_sub28 a _ b _ (vals_plain a) (vals_plain b)) map_fst_plain) as H. exact H. Qed.
Lemma s_mul28 : forall a a' b b', exprs a = exprs a' -> exprs b = exprs b' -> same_steps exprs (mul28S T watched a b) (mul28S T watched a' b').
Proof.
  intros a a' b b' Ha Hb. exact (same_words_of _ _ _ _ (pq p_mul28 a _ b _ (vals_plain a) (vals_plain b)) (pq p_mul28 a' _ b' _ (vals_plain a') (vals_plain b'))
    (p2 p_mul28 a a' b b' (exprs_shape _ _ Ha) (exprs_shape _ _ Hb))).
Qed.
Lemma c_mul28 : forall a b, computes vals (mul28S T watched a b) (mul28 (vals a) (vals b)).
Proof. intros a b. pose proof (computes_of _ _ vals _ _ _ (pq p_mul28 a _ b _ (vals_plain a) (vals_plain b)) map_fst_plain) as H. rewrite e_mul28 in H. exact H. Qed.
Lemma s_scalar_invert : forall a a', exprs a = exprs a' -> same_steps exprs (scalar_invertS T watched a) (scalar_invertS T watched a').
Proof. intros a a' Ha. exact (same_words_of _ _ _ _ (pq p_scalar_invert a _ (vals_plain a)) (pq p_scalar_invert a' _ (vals_plain a')) (p2 p_scalar_invert a a' (exprs_shape _ _ Ha))). Qed.
Lemma c_scalar_invert : forall a, computes vals (scalar_invertS T watched a) ((scalar_invert (vals a))).
Proof. intro a. pose proof (computes_of _ _ vals _ _ _ (pq p_scalar_invert a _ (vals_plain a)) map_fst_plain) as H. rewrite e_scalar_invert in H. exact H. Qed.
Lemma s_scalar_halve : forall a a', exprs a = exprs a' -> same_steps exprs (scalar_halveS T watched a) (scalar_halveS T watched a').
Proof. intros a a' Ha. exact (same_words_of _ _ _ _ (pq p_scalar_halve a _ (vals_plain a)) (pq p_scalar_halve a' _ (vals_plain a')) (p2 p_scalar_halve a a' (exprs_shape _ _ Ha))). Qed.
Lemma c_scalar_halve : forall a, computes vals (scalar_halveS T watched a) ((scalar_halve (vals a))).
Proof. intro a. pose proof (computes_of _ _ vals _ _ _ (pq p_scalar_halve a _ (vals_plain a)) map_fst_plain) as H. rewrite e_scalar_halve in H. exact H. Qed.
Lemma s_to_radix_16 : forall a a', exprs a = exprs a' -> same_steps exprs (to_radix_16S T watched a) (to_radix_16S T watched a').
Proof. intros a a' Ha. exact (same_words_of _ _ _ _ (pq p_to_radix_16 a _ (vals_plain a)) (pq p_to_radix_16 a' _ (vals_plain a')) (p2 p_to_radix_16 a a' (exprs_shape _ _ Ha))). Qed.
Lemma c_to_radix_16 : forall a, computes vals (to_radix_16S T watched a) ((to_radix_16 (vals a))).
Proof. intro a. pose proof (computes_of _ _ vals _ _ _ (pq p_to_radix_16 a _ (vals_plain a)) map_fst_plain) as H. rewrite e_to_radix_16 in H. exact H. Qed.
Lemma s_scalar_from_bytes_mod_order_wide : forall a a', exprs a = exprs a' -> same_steps exprs (scalar_from_bytes_mod_order_wideS T watched a) (scalar_from_bytes_mod_order_wideS T watched a').
Proof. intros a a' Ha. exact (same_words_of _ _ _ _ (pq p_scalar_wide a _ (vals_plain a)) (pq p_scalar_wide a' _ (vals_plain a')) (p2 p_scalar_wide a a' (exprs_shape _ _ Ha))). Qed.
Lemma c_scalar_from_bytes_mod_order_wide : forall a, computes vals (scalar_from_bytes_mod_order_wideS T watched a) ((scalar_from_bytes_mod_order_wide (vals a))).
Proof. intro a. pose proof (computes_of _ _ vals _ _ _ (pq p_scalar_wide a _ (vals_plain a)) map_fst_plain) as H. rewrite e_scalar_wide in H. exact H. Qed.
Lemma s_square28 : forall a a', exprs a = exprs a' -> same_steps exprs (square28S T watched a) (square28S T watched a').
Proof. intros a a' Ha. exact (same_words_of _ _ _ _ (pq p_square28 a _ (vals_plain a)) (pq p_square28 a' _ (vals_plain a')) (p2 p_square28 a a' (exprs_shape _ _ Ha))). Qed.
Lemma c_square28 : forall a, computes vals (square28S T watched a) ((square28 (vals a))).
Proof. intro a. pose proof (computes_of _ _ vals _ _ _ (pq p_square28 a _ (vals_plain a)) map_fst_plain) as H. exact H. Qed.
Lemma s_negate28 : forall a a', exprs a = exprs a' -> same_steps exprs (negate28S T watched a) (negate28S T watched a').
Proof. intros a a' Ha. exact (same_words_of _ _ _ _ (pq p_negate28 a _ (vals_plain a)) (pq p_negate28 a' _ (vals_plain a')) (p2 p_negate28 a a' (exprs_shape _ _ Ha))). Qed.
Lemma c_negate28 : forall a, computes vals (negate28S T watched a) ((negate28 (vals a))).
Proof. intro a. pose proof (computes_of _ _ vals _ _ _ (pq p_negate28 a _ (vals_plain a)) map_fst_plain) as H. exact H. Qed.
Lemma s_strong_reduce28 : forall a a', exprs a = exprs a' -> same_steps exprs (strong_reduce28S T watched a) (strong_reduce28S T watched a').
Proof. intros a a' Ha. exact (same_words_of _ _ _ _ (pq p_strong_reduce28 a _ (vals_plain a)) (pq p_strong_reduce28 a' _ (vals_plain a')) (p2 p_strong_reduce28 a a' (exprs_shape _ _ Ha))). Qed.
Lemma c_strong_reduce28 : forall a, computes vals (strong_reduce28S T watched a) ((strong_reduce28 (vals a))).
Proof. intro a. pose proof (computes_of _ _ vals _ _ _ (pq p_strong_reduce28 a _ (vals_plain a)) map_fst_plain) as H. rewrite e_strong_reduce28 in H. exact H. Qed.
Lemma s_from_bytes28 : forall a a', exprs a = exprs a' -> same_steps exprs (from_bytes28S T watched a) (from_bytes28S T watched a').
Proof. intros a a' Ha. exact (same_words_of _ _ _ _ (pq p_from_bytes28 a _ (vals_plain a)) (pq p_from_bytes28 a' _ (vals_plain a')) (p2 p_from_bytes28 a a' (exprs_shape _ _ Ha))). Qed.
Lemma c_from_bytes28 : forall a, computes vals (from_bytes28S T watched a) ((from_bytes28 (vals a))).
Proof. intro a. pose proof (computes_of _ _ vals _ _ _ (pq p_from_bytes28 a _ (vals_plain a)) map_fst_plain) as H. exact H. Qed.
Lemma s_to_bytes28 : forall a a', exprs a = exprs a' -> same_steps exprs (to_bytes28S T watched a) (to_bytes28S T watched a').
Proof. intros a a' Ha. exact (same_words_of _ _ _ _ (pq p_to_bytes28 a _ (vals_plain a)) (pq p_to_bytes28 a' _ (vals_plain a')) (p2 p_to_bytes28 a a' (exprs_shape _ _ Ha))). Qed.
Lemma c_to_bytes28 : forall a, computes vals (to_bytes28S T watched a) ((to_bytes28 (vals a))).
Proof. intro a. pose proof (computes_of _ _ vals _ _ _ (pq p_to_bytes28 a _ (vals_plain a)) map_fst_plain) as H. rewrite e_to_bytes28 in H. exact H. Qed.
Lemma s_scalar_div_by_four : forall a a', exprs a = exprs a' -> same_steps exprs (scalar_div_by_fourS T watched a) (scalar_div_by_fourS T watched a').
Proof. intros a a' Ha. exact (same_words_of _ _ _ _ (pq p_div_by_four a _ (vals_plain a)) (pq p_div_by_four a' _ (vals_plain a')) (p2 p_div_by_four a a' (exprs_shape _ _ Ha))). Qed.
Lemma c_scalar_div_by_four : forall a, computes vals (scalar_div_by_fourS T watched a) (Ok (scalar_div_by_four (vals a))).
Proof. intro a. pose proof (computes_of _ _ vals _ _ _ (pq p_div_by_four a _ (vals_plain a)) map_fst_plain) as H. rewrite e_div_by_four in H. exact H. Qed.
Lemma s_scalar_from_bytes : forall a a', exprs a = exprs a' -> same_steps exprs (scalar_from_bytesS T watched a) (scalar_from_bytesS T watched a').
Proof. intros a a' Ha. exact (same_words_of _ _ _ _ (pq p_scalar_from_bytes a _ (vals_plain a)) (pq p_scalar_from_bytes a' _ (vals_plain a')) (p2 p_scalar_from_bytes a a' (exprs_shape _ _ Ha))). Qed.
Lemma c_scalar_from_bytes : forall a, computes vals (scalar_from_bytesS T watched a) (Ok (scalar_from_bytes (vals a))).
Proof. intro a. pose proof (computes_of _ _ vals _ _ _ (pq p_scalar_from_bytes a _ (vals_plain a)) map_fst_plain) as H. rewrite e_scalar_from_bytes in H. exact H. Qed.
Lemma s_scalar_to_bytes : forall a a', exprs a = exprs a' -> same_steps exprs (scalar_to_bytesS T watched a) (scalar_to_bytesS T watched a').
Proof. intros a a' Ha. exact (same_words_of _ _ _ _ (pq p_scalar_to_bytes a _ (vals_plain a)) (pq p_scalar_to_bytes a' _ (vals_plain a')) (p2 p_scalar_to_bytes a a' (exprs_shape _ _ Ha))). Qed.
Lemma c_scalar_to_bytes : forall a, computes vals (scalar_to_bytesS T watched a) (Ok (scalar_to_bytes (vals a))).
Proof. intro a. pose proof (computes_of _ _ vals _ _ _ (pq p_scalar_to_bytes a _ (vals_plain a)) map_fst_plain) as H. rewrite e_scalar_to_bytes in H. exact H. Qed.
Lemma s_select : forall a a' b b' c c', exprs a = exprs a' -> exprs b = exprs b' -> same_steps exprs (conditional_select28S T watched a b c) (conditional_select28S T watched a' b' c').
Proof.
  intros a a' b b' c c' Ha Hb. exact (same_words_of _ _ _ _ (pq p_select28 a _ (vals_plain a) b _ c c (vals_plain b) eq_refl) (pq p_select28 a' _ (vals_plain a') b' _ c' c' (vals_plain b') eq_refl)
    (p2 p_select28 a a' (exprs_shape _ _ Ha) b b' c c' (exprs_shape _ _ Hb) I)).
Qed.
Lemma c_select : forall a b c, computes vals (conditional_select28S T watched a b c) (Ok (conditional_select28 (vals a) (vals b) c)).
Proof. intros a b c. pose proof (computes_of _ _ vals _ _ _ (pq p_select28 a _ (vals_plain a) b _ c c (vals_plain b) eq_refl) map_fst_plain) as H. rewrite e_select28 in H. exact H. Qed.
Lemma s_cneg : forall a a' c c', exprs a = exprs a' -> same_steps exprs (conditional_negate28S T watched a c) (conditional_negate28S T watched a' c').
Proof.
  intros a a' c c' Ha. exact (same_words_of _ _ _ _ (pq p_cneg28 a _ c c (vals_plain a) eq_refl) (pq p_cneg28 a' _ c' c' (vals_plain a') eq_refl) (p2 p_cneg28 a a' c c' (exprs_shape _ _ Ha) I)).
Qed.
Lemma c_cneg : forall a c, computes vals (conditional_negate28S T watched a c) (conditional_negate28 (vals a) c).
Proof. intros a c. pose proof (computes_of _ _ vals _ _ _ (pq p_cneg28 a _ c c (vals_plain a) eq_refl) map_fst_plain) as H. rewrite e_cond_negate28 in H. exact H. Qed.
Lemma s_isneg : forall a a', exprs a = exprs a' -> same_steps (fun _ => tt) (is_negative28S T watched a) (is_negative28S T watched a').
Proof. intros a a' Ha. exact (same_bits_of _ _ _ _ _ _ _ _ (pq p_is_negative28 a _ (vals_plain a)) (pq p_is_negative28 a' _ (vals_plain a')) (p2 p_is_negative28 a a' (exprs_shape _ _ Ha))). Qed.
Lemma c_isneg : forall a, computes (fun x => x) (is_negative28S T watched a) (is_negative28 (vals a)).
Proof. intro a. pose proof (computes_of _ _ (fun x => x) _ _ _ (pq p_is_negative28 a _ (vals_plain a)) (fun _ _ E => E)) as H. rewrite e_is_negative28 in H. exact H. Qed.
Lemma s_bits : forall a a', exprs a = exprs a' -> same_steps (fun _ => tt) (scalar_bitsS T watched a) (scalar_bitsS T watched a').
Proof. intros a a' Ha. exact (same_bits_of _ _ _ _ _ _ _ _ (pq p_scalar_bits a _ (vals_plain a)) (pq p_scalar_bits a' _ (vals_plain a')) (p2 p_scalar_bits a a' (exprs_shape _ _ Ha))). Qed.
Lemma c_bits : forall a, computes (fun x => x) (scalar_bitsS T watched a) (Ok (scalar_bits (vals a))).
Proof. intro a. pose proof (computes_of _ _ (fun x => x) _ _ _ (pq p_scalar_bits a _ (vals_plain a)) (F2_eq _)) as H. rewrite e_scalar_bits in H. exact H. Qed.
Lemma s_eqb : forall a a' b b', exprs a = exprs a' -> exprs b = exprs b' -> same_steps (fun _ => tt) (scalar_eqbS T watched a b) (scalar_eqbS T watched a' b').
Proof.
  intros a a' b b' Ha Hb. exact (same_bits_of _ _ _ _ _ _ _ _ (pq p_scalar_eqb a _ b _ (vals_plain a) (vals_plain b)) (pq p_scalar_eqb a' _ b' _ (vals_plain a') (vals_plain b'))
    (p2 p_scalar_eqb a a' b b' (exprs_shape _ _ Ha) (exprs_shape _ _ Hb))).
Qed.
Lemma c_eqb : forall a b, computes (fun x => x) (scalar_eqbS T watched a b) (Ok (scalar_eqb (vals a) (vals b))).
Proof. intros a b. pose proof (computes_of _ _ (fun x => x) _ _ _ (pq p_scalar_eqb a _ b _ (vals_plain a) (vals_plain b)) (fun _ _ E => E)) as H. rewrite e_scalar_eqb in H. exact H. Qed.

Lemma words_scalars : forall a a' b b', exprs a = exprs a' -> exprs b = exprs b' ->
  same_steps exprs (scalar_addS T watched a b) (scalar_addS T watched a' b') /\
  same_steps exprs (scalar_subS T watched a b) (scalar_subS T watched a' b') /\
  same_steps exprs (scalar_mulS T watched a b) (scalar_mulS T watched a' b') /\
  same_steps exprs (scalar_invertS T watched a) (scalar_invertS T watched a') /\
  same_steps exprs (scalar_halveS T watched a) (scalar_halveS T watched a') /\
  same_steps exprs (scalar_div_by_fourS T watched a) (scalar_div_by_fourS T watched a') /\
  same_steps exprs (to_radix_16S T watched a) (to_radix_16S T watched a') /\
  same_steps (fun _ => tt) (scalar_bitsS T watched a) (scalar_bitsS T watched a') /\
  same_steps (fun _ => tt) (scalar_eqbS T watched a b) (scalar_eqbS T watched a' b') /\
  same_steps exprs (scalar_to_bytesS T watched a) (scalar_to_bytesS T watched a') /\
  same_steps exprs (scalar_from_bytesS T watched a) (scalar_from_bytesS T watched a') /\
  same_steps exprs (scalar_from_bytes_mod_order_wideS T watched a) (scalar_from_bytes_mod_order_wideS T watched a').
Proof.
  intros a a' b b' Ha Hb.
  exact (conj (s_scalar_add _ _ _ _ Ha Hb) (conj (s_scalar_sub _ _ _ _ Ha Hb) (conj (s_scalar_mul _ _ _ _ Ha Hb) (conj (s_scalar_invert _ _ Ha) (conj (s_scalar_halve _ _ Ha)
    (conj (s_scalar_div_by_four _ _ Ha) (conj (s_to_radix_16 _ _ Ha) (conj (s_bits _ _ Ha) (conj (s_eqb _ _ _ _ Ha Hb) (conj (s_scalar_to_bytes _ _ Ha) (conj (s_scalar_from_bytes _ _ Ha)
    (s_scalar_from_bytes_mod_order_wide _ _ Ha)))))))))))).
Qed.
Lemma words_field : forall a a' b b' c c', exprs a = exprs a' -> exprs b = exprs b' ->
  same_steps exprs (add28S T watched a b) (add28S T watched a' b') /\
  same_steps exprs (sub28S T watched a b) (sub28S T watched a' b') /\
  same_steps exprs (mul28S T watched a b) (mul28S T watched a' b') /\
  same_steps exprs (square28S T watched a) (square28S T watched a') /\
  same_steps exprs (negate28S T watched a) (negate28S T watched a') /\
  same_steps exprs (strong_reduce28S T watched a) (strong_reduce28S T watched a') /\
  same_steps exprs (conditional_select28S T watched a b c) (conditional_select28S T watched a' b' c') /\
  same_steps exprs (conditional_negate28S T watched a c) (conditional_negate28S T watched a' c') /\
  same_steps (fun _ => tt) (is_negative28S T watched a) (is_negative28S T watched a') /\
  same_steps exprs (from_bytes28S T watched a) (from_bytes28S T watched a') /\
  same_steps exprs (to_bytes28S T watched a) (to_bytes28S T watched a').
Proof.
  intros a a' b b' c c' Ha Hb.
  exact (conj (s_add28 _ _ _ _ Ha Hb) (conj (s_sub28 _ _ _ _ Ha Hb) (conj (s_mul28 _ _ _ _ Ha Hb) (conj (s_square28 _ _ Ha) (conj (s_negate28 _ _ Ha)
    (conj (s_strong_reduce28 _ _ Ha) (conj (s_select _ _ _ _ c c' Ha Hb) (conj (s_cneg _ _ c c' Ha) (conj (s_isneg _ _ Ha) (conj (s_from_bytes28 _ _ Ha) (s_to_bytes28 _ _ Ha))))))))))).
Qed.
Lemma words_scalars_results : forall a b,
  computes vals (scalar_addS T watched a b) (scalar_add (vals a) (vals b)) /\
  computes vals (scalar_subS T watched a b) (scalar_sub (vals a) (vals b)) /\
  computes vals (scalar_mulS T watched a b) (scalar_mul (vals a) (vals b)) /\
  computes vals (scalar_invertS T watched a) (scalar_invert (vals a)) /\
  computes vals (scalar_halveS T watched a) (scalar_halve (vals a)) /\
  computes vals (scalar_div_by_fourS T watched a) (Ok (scalar_div_by_four (vals a))) /\
  computes vals (to_radix_16S T watched a) (to_radix_16 (vals a)) /\
  computes (fun x => x) (scalar_bitsS T watched a) (Ok (scalar_bits (vals a))) /\
  computes (fun x => x) (scalar_eqbS T watched a b) (Ok (scalar_eqb (vals a) (vals b))) /\
  computes vals (scalar_to_bytesS T watched a) (Ok (scalar_to_bytes (vals a))) /\
  computes vals (scalar_from_bytesS T watched a) (Ok (scalar_from_bytes (vals a))) /\
  computes vals (scalar_from_bytes_mod_order_wideS T watched a) (scalar_from_bytes_mod_order_wide (vals a)).
Proof.
  intros a b. exact (conj (c_scalar_add a b) (conj (c_scalar_sub a b) (conj (c_scalar_mul a b) (conj (c_scalar_invert a) (conj (c_scalar_halve a) (conj (c_scalar_div_by_four a)
    (conj (c_to_radix_16 a) (conj (c_bits a) (conj (c_eqb a b) (conj (c_scalar_to_bytes a) (conj (c_scalar_from_bytes a) (c_scalar_from_bytes_mod_order_wide a)))))))))))).
Qed.
Lemma words_field_results : forall a b c,
  computes vals (add28S T watched a b) (add28 (vals a) (vals b)) /\
  computes vals (sub28S T watched a b) (sub28 (vals a) (vals b)) /\
  computes vals (mul28S T watched a b) (mul28 (vals a) (vals b)) /\
  computes vals (square28S T watched a) (square28 (vals a)) /\
  computes vals (negate28S T watched a) (negate28 (vals a)) /\
  computes vals (strong_reduce28S T watched a) (strong_reduce28 (vals a)) /\
  computes vals (conditional_select28S T watched a b c) (Ok (conditional_select28 (vals a) (vals b) c)) /\
  computes vals (conditional_negate28S T watched a c) (conditional_negate28 (vals a) c) /\
  computes (fun x => x) (is_negative28S T watched a) (is_negative28 (vals a)) /\
  computes vals (from_bytes28S T watched a) (from_bytes28 (vals a)) /\
  computes vals (to_bytes28S T watched a) (to_bytes28 (vals a)).
Proof.
  intros a b c. exact (conj (c_add28 a b) (conj (c_sub28 a b) (conj (c_mul28 a b) (conj (c_square28 a) (conj (c_negate28 a) (conj (c_strong_reduce28 a)
    (conj (c_select a b c) (conj (c_cneg a c) (conj (c_isneg a) (conj (c_from_bytes28 a) (c_to_bytes28 a))))))))))).
Qed.

(** [subtle] *)
Lemma words_subtle : forall w x x' y y' c c' a a' b b', snd x = snd x' -> snd y = snd y' -> exprs a = exprs a' -> exprs b = exprs b' ->
  same_steps snd (selectS T watched c x y) (selectS T watched c' x' y') /\
  same_steps (fun _ => tt) (ct_eqS T watched w x y) (ct_eqS T watched w x' y') /\
  same_steps (fun _ => tt) (ct_eq_sliceS T watched a b) (ct_eq_sliceS T watched a' b').
Proof.
  intros w x x' y y' c c' a a' b b' Hx Hy Ha Hb. split; [|split].
  - exact (same_steps_of _ _ _ _ _ snd _ _ _ _ _ _ (pq p_selectS c c x (fst x) y (fst y) eq_refl eq_refl eq_refl) (pq p_selectS c' c' x' (fst x') y' (fst y') eq_refl eq_refl eq_refl)
      (p2 p_selectS c c' x x' y y' I Hx Hy) (fun _ _ E => E)).
  - exact (same_bits_of _ _ _ _ _ _ _ _ (pq p_ct_eqS w x (fst x) y (fst y) eq_refl eq_refl) (pq p_ct_eqS w x' (fst x') y' (fst y') eq_refl eq_refl) (p2 p_ct_eqS w x x' y y' Hx Hy)).
  - exact (same_bits_of _ _ _ _ _ _ _ _ (pq p_ct_eq_slice a _ b _ (vals_plain a) (vals_plain b)) (pq p_ct_eq_slice a' _ b' _ (vals_plain a') (vals_plain b'))
      (p2 p_ct_eq_slice a a' b b' (exprs_shape _ _ Ha) (exprs_shape _ _ Hb))).
Qed.
Lemma words_subtle_results : forall w x y c a b, 0 < w ->
  computes fst (selectS T watched c x y) (Ok (if c then fst y else fst x)) /\
  computes (fun r => r) (ct_eqS T watched w x y) (Ok (fst x =? fst y)) /\
  computes (fun r => r) (ct_eq_sliceS T watched a b) (Ok (list_eqb (vals a) (vals b))).
Proof.
  intros w x y c a b Hw. split; [|split].
  - pose proof (computes_of _ _ fst _ _ _ (pq p_selectS c c x (fst x) y (fst y) eq_refl eq_refl eq_refl) (fun _ _ E => E)) as H. rewrite e_selectS in H. exact H.
  - pose proof (computes_of _ _ (fun r => r) _ _ _ (pq p_ct_eqS w x (fst x) y (fst y) eq_refl eq_refl) (fun _ _ E => E)) as H. rewrite e_ct_eqS in H by exact Hw. exact H.
  - pose proof (computes_of _ _ (fun r => r) _ _ _ (pq p_ct_eq_slice a _ b _ (vals_plain a) (vals_plain b)) (fun _ _ E => E)) as H. rewrite e_ct_eq_slice in H. exact H.
Qed.
Lemma select_steps : forall c x y, fst (selectS T watched c x y) =
  [Does (OWord WUnwrap); Does (OWord (WUn UNeg WUnwrap)); Does (OWord (WBin BXor (snd x) (snd y)));
   Does (OWord (WBin BAnd (WUn UNeg WUnwrap) (WBin BXor (snd x) (snd y))));
   Does (OWord (WBin BXor (snd x) (WBin BAnd (WUn UNeg WUnwrap) (WBin BXor (snd x) (snd y)))))].
Proof. reflexivity. Qed.
