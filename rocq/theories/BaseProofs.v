(** Lemmas about machine integers and positional notation. *)
Require Import ZArith List Bool Lia.
From Verif Require Import Base.
Import ListNotations.
Open Scope Z_scope.
Open Scope res_scope.

Lemma chk_u_ok : forall w x, 0 <= x < 2 ^ w -> chk_u w x = Ok x.
Proof.
  intros w x H. unfold chk_u.
  replace (0 <=? x) with true by (symmetry; apply Z.leb_le; lia).
  replace (x <? 2 ^ w) with true by (symmetry; apply Z.ltb_lt; lia). reflexivity.
Qed.

Lemma chk_i_ok : forall w x, - 2 ^ (w - 1) <= x < 2 ^ (w - 1) -> chk_i w x = Ok x.
Proof.
  intros w x H. unfold chk_i.
  replace (- 2 ^ (w - 1) <=? x) with true by (symmetry; apply Z.leb_le; lia).
  replace (x <? 2 ^ (w - 1)) with true by (symmetry; apply Z.ltb_lt; lia). reflexivity.
Qed.

Lemma shr_div : forall x n, 0 <= n -> shr x n = x / 2 ^ n.
Proof. intros. unfold shr. apply Z.shiftr_div_pow2. lia. Qed.

Lemma shl_u_mul : forall w x n, 0 <= n -> shl_u w x n = (x * 2 ^ n) mod 2 ^ w.
Proof. intros. unfold shl_u, wrap. rewrite Z.shiftl_mul_pow2 by lia. reflexivity. Qed.

Lemma wrap_range : forall w x, 0 <= w -> 0 <= wrap w x < 2 ^ w.
Proof. intros. unfold wrap. apply Z.mod_pos_bound. apply Z.pow_pos_nonneg; lia. Qed.

Lemma wrap_small : forall w x, 0 <= x < 2 ^ w -> wrap w x = x.
Proof. intros. unfold wrap. apply Z.mod_small. lia. Qed.

Lemma land_mask : forall x n, 0 <= n -> Z.land x (2 ^ n - 1) = x mod 2 ^ n.
Proof. intros. rewrite <- Z.land_ones by lia. rewrite Z.ones_equiv. f_equal. Qed.

(** ** Disjoint [lor] is addition *)
Lemma lor_add : forall x y n, 0 <= n -> 0 <= x < 2 ^ n -> 0 <= y -> Z.lor x (y * 2 ^ n) = x + y * 2 ^ n.
Proof.
  intros x y n Hn Hx Hy.
  assert (HL : Z.land x (y * 2 ^ n) = 0).
  { apply Z.bits_inj'. intros k Hk. rewrite Z.land_spec, Z.bits_0.
    rewrite <- Z.shiftl_mul_pow2 by lia. rewrite Z.shiftl_spec by lia.
    destruct (Z_lt_le_dec k n).
    - rewrite (Z.testbit_neg_r y) by lia. apply andb_false_r.
    - replace x with (x mod 2 ^ n) by (apply Z.mod_small; lia).
      rewrite Z.mod_pow2_bits_high by lia. reflexivity. }
  rewrite <- Z.lxor_lor by assumption. symmetry. apply Z.add_nocarry_lxor. assumption.
Qed.

(** ** eval *)
Lemma eval_nil : forall w, eval w [] = 0. Proof. reflexivity. Qed.
Lemma eval_cons : forall w x l, eval w (x :: l) = x + 2 ^ w * eval w l. Proof. reflexivity. Qed.

Lemma eval_app : forall w a b, 0 <= w -> eval w (a ++ b) = eval w a + 2 ^ (w * Z.of_nat (length a)) * eval w b.
Proof.
  intros w a b Hw. induction a as [|x a IH].
  - cbn [app eval length]. rewrite Z.mul_0_r, Z.pow_0_r. lia.
  - cbn [app eval]. rewrite IH. cbn [length]. rewrite Nat2Z.inj_succ.
    replace (w * Z.succ (Z.of_nat (length a))) with (w + w * Z.of_nat (length a)) by lia.
    rewrite Z.pow_add_r by lia. ring.
Qed.

Lemma pow_len_pos : forall w (n : nat), 0 <= w -> 0 < 2 ^ (w * Z.of_nat n).
Proof. intros. apply Z.pow_pos_nonneg; lia. Qed.

Lemma pow_len_S : forall w n, 0 <= w -> 2 ^ (w * Z.of_nat (S n)) = 2 ^ w * 2 ^ (w * Z.of_nat n).
Proof. intros. rewrite Nat2Z.inj_succ. rewrite <- Z.pow_add_r by lia. f_equal. lia. Qed.

Lemma eval_range : forall w l, 0 <= w -> Forall (fun x => 0 <= x < 2 ^ w) l ->
  0 <= eval w l < 2 ^ (w * Z.of_nat (length l)).
Proof.
  intros w l Hw HF. induction HF as [|x l Hx HF IH].
  - cbn [eval length]. rewrite Z.mul_0_r, Z.pow_0_r. lia.
  - cbn [eval length]. rewrite pow_len_S by lia. nia.
Qed.

Lemma array_range : forall w n l, 0 <= w -> array w n l -> 0 <= eval w l < 2 ^ (w * Z.of_nat n).
Proof. intros w n l Hw [HL HF]. subst n. apply eval_range; assumption. Qed.

Lemma digits_length : forall w n v, length (digits w n v) = n.
Proof. induction n; intros; cbn [digits length]; [reflexivity|]. f_equal. apply IHn. Qed.

Lemma digits_range : forall w n v, 0 <= w -> Forall (fun x => 0 <= x < 2 ^ w) (digits w n v).
Proof.
  induction n; intros; cbn [digits]; constructor.
  - apply Z.mod_pos_bound. apply Z.pow_pos_nonneg; lia.
  - apply IHn. assumption.
Qed.

Lemma digits_array : forall w n v, 0 <= w -> array w n (digits w n v).
Proof. intros. split; [apply digits_length | apply digits_range; assumption]. Qed.

Lemma eval_digits : forall w n v, 0 <= w -> eval w (digits w n v) = v mod 2 ^ (w * Z.of_nat n).
Proof.
  intros w n. induction n; intros v Hw.
  - cbn [digits eval]. rewrite Z.mul_0_r, Z.pow_0_r, Z.mod_1_r. reflexivity.
  - cbn [digits eval]. rewrite IHn by assumption. rewrite pow_len_S by assumption.
    rewrite Z.rem_mul_r; [reflexivity | |].
    + pose proof (Z.pow_pos_nonneg 2 w). lia.
    + apply pow_len_pos. assumption.
Qed.

Lemma digits_eval : forall w l, 0 <= w -> Forall (fun x => 0 <= x < 2 ^ w) l -> digits w (length l) (eval w l) = l.
Proof.
  intros w l Hw HF. induction HF as [|x l Hx HF IH]; [reflexivity|].
  cbn [eval length digits].
  assert (0 < 2 ^ w) by (apply Z.pow_pos_nonneg; lia).
  f_equal.
  - rewrite Z.mul_comm, Z.mod_add by lia. apply Z.mod_small. assumption.
  - rewrite Z.mul_comm, Z.div_add by lia. rewrite Z.div_small by assumption. apply IH.
Qed.

Lemma array_digits_eval : forall w n l, 0 <= w -> array w n l -> digits w n (eval w l) = l.
Proof. intros w n l Hw [HL HF]. subst n. apply digits_eval; assumption. Qed.

Lemma eval_inj : forall w n a b, 0 <= w -> array w n a -> array w n b -> eval w a = eval w b -> a = b.
Proof.
  intros w n a b Hw Ha Hb E.
  rewrite <- (array_digits_eval w n a), <- (array_digits_eval w n b) by assumption. rewrite E. reflexivity.
Qed.

Lemma list_eqb_eq : forall a b, list_eqb a b = true <-> a = b.
Proof.
  induction a as [|x a IH]; intros [|y b]; cbn [list_eqb]; split; intro H; try reflexivity; try discriminate.
  - apply andb_true_iff in H. destruct H as [H1 H2]. apply Z.eqb_eq in H1. apply IH in H2. subst. reflexivity.
  - inversion H; subst. apply andb_true_iff. split; [apply Z.eqb_refl | apply IH; reflexivity].
Qed.

Lemma list_eqb_refl : forall a, list_eqb a a = true.
Proof. intro a. apply list_eqb_eq. reflexivity. Qed.

Lemma array_cons : forall w n x l, array w (S n) (x :: l) <-> 0 <= x < 2 ^ w /\ array w n l.
Proof.
  intros. unfold array. cbn [length]. split.
  - intros [HL HF]. inversion HF; subst. repeat split; try lia; auto.
  - intros [Hx [HL HF]]. split; [lia | constructor; assumption].
Qed.

Lemma array_app : forall w n m a b, array w n a -> array w m b -> array w (n + m) (a ++ b).
Proof.
  intros w n m a b [H1 H2] [H3 H4]. split; [rewrite app_length; lia | apply Forall_app; split; assumption].
Qed.

Lemma array_firstn : forall w n k l, (k <= n)%nat -> array w n l -> array w k (firstn k l).
Proof.
  intros w n k l Hk [HL HF]. split.
  - rewrite firstn_length. lia.
  - rewrite <- (firstn_skipn k l) in HF. apply Forall_app in HF. tauto.
Qed.

Lemma array_skipn : forall w n k l, array w n l -> array w (n - k) (skipn k l).
Proof.
  intros w n k l [HL HF]. split.
  - rewrite skipn_length. lia.
  - rewrite <- (firstn_skipn k l) in HF. apply Forall_app in HF. tauto.
Qed.

Lemma eval_firstn_skipn : forall w n k l, 0 <= w -> (k <= n)%nat -> length l = n ->
  eval w l = eval w (firstn k l) + 2 ^ (w * Z.of_nat k) * eval w (skipn k l).
Proof.
  intros w n k l Hw Hk HL. rewrite <- (firstn_skipn k l) at 1. rewrite eval_app by assumption.
  rewrite firstn_length. rewrite Nat.min_l by lia. reflexivity.
Qed.

Lemma eval_repeat_0 : forall w n, eval w (repeat 0 n) = 0.
Proof. induction n; cbn [repeat eval]; [reflexivity|]. rewrite IHn. lia. Qed.

Lemma index_ok : forall {A} (l : list A) i d, 0 <= i < Z.of_nat (length l) ->
  nth_error l (Z.to_nat i) = Some (nth (Z.to_nat i) l d).
Proof. intros. apply nth_error_nth'. lia. Qed.


Lemma skipn_add : forall {A} n m (l : list A), skipn n (skipn m l) = skipn (m + n) l.
Proof. intros A n m. induction m; intros l; [reflexivity|]. destruct l; [destruct n; reflexivity|]. cbn [skipn Nat.add]. apply IHm. Qed.
