(** The 64-bit word code: with plain integers it is the code of FiatCode.v and FieldFiatModel.v; run in two ways that preserve a
    relation (as StepRelWords.v for the 32-bit code). *)
Require Import ZArith List Bool Lia.
From Verif Require Import Base BaseProofs FieldFiatModel FiatCode Steps StepSubtle StepU32 StepFiat StepPlain StepRelWords.
Import ListNotations.
Open Scope Z_scope.
Open Scope res_scope.

(** ** Plain integers *)
Local Notation P1 f := (f panics plain).
Local Notation P := fiat_code.
Lemma e_carry_sums : forall c, P1 carry_sumsS c = carry_sums c.
Proof.
  intro c. do 8 (destruct c as [|? c]; [reflexivity|]). destruct c as [|? ?]; [|reflexivity]. unfold carry_sumsS, carry_sums. same_steps.
Qed.
Lemma e_mul56 : forall a b, P1 mul56S a b = mul56 P a b. Proof. reflexivity. Qed.
Lemma e_square56 : forall a, P1 square56S a = square56 P a. Proof. reflexivity. Qed.
Lemma e_carry56 : P1 fcode_carryS = fcode_carry. Proof. reflexivity. Qed.
Lemma e_add56 : forall a b, P1 add56S a b = add56 P a b. Proof. reflexivity. Qed.
Lemma e_sub56 : forall a b, P1 sub56S a b = sub56 P a b. Proof. reflexivity. Qed.
Lemma e_negate56 : forall a, P1 negate56S a = negate56 P a. Proof. reflexivity. Qed.
Lemma e_selectznz : P1 fcode_selectznzS = fcode_selectznz. Proof. reflexivity. Qed.
Lemma e_select56 : forall a b c, P1 conditional_select56S a b c = conditional_select56 P a b c.
Proof. intros a b [|]; reflexivity. Qed.
Lemma e_cond_negate56 : forall a c, P1 conditional_negate56S a c = conditional_negate56 P a c.
Proof.
  intros a c. change (conditional_negate56S panics plain a c) with (bind (negate56 P a) (fun n => conditional_select56S panics plain a n c)).
  refine (bind_ext _ _ _ _ _ _). intro n. apply e_select56.
Qed.
Lemma e_strong_reduce56 : forall a, P1 strong_reduce56S a = strong_reduce56 P a. Proof. reflexivity. Qed.
Lemma e_from_bytes56 : forall b, P1 from_bytes56S b = from_bytes56 P b. Proof. reflexivity. Qed.
Lemma e_limb_bytes : forall n x, P1 limb_bytesS n x = Ok (limb_bytes n x).
Proof.
  induction n; intro x; [reflexivity|].
  change (limb_bytesS panics plain (S n) x) with (bind (limb_bytesS panics plain n (Base.shr x 8)) (fun r => Ok (as_u8 (Z.land x 0xff) :: r))). rewrite IHn. reflexivity.
Qed.
Lemma e_limbs_bytes : forall l, P1 limbs_bytesS l = Ok (flat_map (limb_bytes 6) l).
Proof.
  induction l as [|x l IH]; [reflexivity|].
  change (limbs_bytesS panics plain (x :: l)) with (bind (limb_bytesS panics plain 6 x) (fun b => bind (limbs_bytesS panics plain l) (fun r => Ok (b ++ r)))). rewrite e_limb_bytes, IH. reflexivity.
Qed.
Lemma e_sub_chain : P1 sub_chainS = sub_chain. Proof. reflexivity. Qed.
Lemma e_add_chain : P1 add_chainS = add_chain. Proof. reflexivity. Qed.
Lemma e_to_bytes56 : forall a, P1 to_bytes56S a = to_bytes56 P a.
Proof.
  intro a. refine (bind_ext _ _ (sub_chain a p_limbs56 0) _ _ _). intros [x borrow]. refine (bind_ext _ _ (cmovznz_u64 borrow 0 mask64) _ _ _). intro sel.
  refine (bind_ext _ _ (add_chain x p_limbs56 sel 0) _ _ _). intros [y c]. apply e_limbs_bytes.
Qed.
Lemma e_is_negative56 : forall a, P1 is_negative56S a = is_negative56 P a.
Proof. intro a. change (is_negative56S panics plain a) with (bind (to_bytes56S panics plain a) (fun b => Ok (Z.land (nth 0 b 0) 1 =? 1))). rewrite e_to_bytes56. reflexivity. Qed.

Lemma sub_chain_length : forall a k s x s', sub_chain a k s = Ok (x, s') -> length x = length k.
Proof.
  induction a as [|u a IH]; intros [|z k] s x s' E; cbn [sub_chain] in E; try discriminate E; [injection E as <- _; reflexivity|].
  destruct (subborrowx_u56 s u z) as [[y t]|]; cbn [bind] in E; [|discriminate E]. destruct (sub_chain a k t) as [[r t']|] eqn:Er; cbn [bind] in E; [|discriminate E].
  injection E as <- _. cbn [length]. rewrite (IH _ _ _ _ Er). reflexivity.
Qed.
Lemma add_chain_length : forall a k m s x s', add_chain a k m s = Ok (x, s') -> length x = length k.
Proof.
  induction a as [|u a IH]; intros [|z k] m s x s' E; cbn [add_chain] in E; try discriminate E; [injection E as <- _; reflexivity|].
  destruct (addcarryx_u56 s u (Z.land m z)) as [[y t]|]; cbn [bind] in E; [|discriminate E]. destruct (add_chain a k m t) as [[r t']|] eqn:Er; cbn [bind] in E; [|discriminate E].
  injection E as <- _. cbn [length]. rewrite (IH _ _ _ _ _ Er). reflexivity.
Qed.
Lemma bytes_length : forall l, length (flat_map (limb_bytes 6) l) = (7 * length l)%nat.
Proof. induction l as [|x l IH]; [reflexivity|]. change (flat_map (limb_bytes 6) (x :: l)) with (limb_bytes 6 x ++ flat_map (limb_bytes 6) l). rewrite app_length, IH. change (length (limb_bytes 6 x)) with 7%nat. cbn [length]. lia. Qed.
Lemma to_bytes56_length : forall a b, to_bytes56 P a = Ok b -> length b = 56%nat.
Proof.
  intros a b E. change (to_bytes56 P a) with (fcode_to_bytes a) in E. unfold fcode_to_bytes in E. revert E. generalize (eq_refl (length p_limbs56)). change (length p_limbs56) with 8%nat at 1. generalize p_limbs56 mask64.
  intros k m Hk E. destruct (sub_chain a k 0) as [[x s]|]; cbn [bind] in E; [|discriminate E].
  destruct (cmovznz_u64 s 0 m) as [n|]; cbn [bind] in E; [|discriminate E]. destruct (add_chain x k n 0) as [[y c]|] eqn:Ey; cbn [bind] in E; [|discriminate E].
  apply add_chain_length in Ey. assert (E' : b = flat_map (limb_bytes 6) y) by congruence. rewrite E', bytes_length, Ey, <- Hk. reflexivity.
Qed.

(** ** Two ways *)
Section WordRel.
Variables M1 M2 : steps.
Variable L : logic M1 M2.
Variable W1 : cpu M1.
Variable W2 : cpu M2.
Variable Rw : word W1 -> word W2 -> Prop.
Notation rel R m m' := (rl L R m m').
Variable C : wcompat M1 M2 L W1 W2 Rw.
Notation R2 := (Forall2 Rw).
Notation RP := (Rprod R2 Rw).
Notation RW := (Rprod Rw Rw).
Local Notation q f := (f M1 M2 L W1 W2 Rw C).
Lemma p_mS64 : forall x x' y y', Rw x x' -> Rw y y' -> rel Rw (mS64 M1 W1 x y) (mS64 M2 W2 x' y').
Proof. intros. unfold mS64. apply (q p_chk2); apply p_wret; assumption. Qed.
Local Opaque lift2 lift1 mS64 w_ret.
Ltac ww := repeat first [eassumption | apply (q w_lit) | apply p_wret | apply (q p_chk2) | apply (q p_bin2) | apply (q p_un1) | apply p_mS64 | apply F2_nth | apply (l_ret L)].
Ltac bw := apply (l_bind L Rw); [solve [ww]|intros ? ? ?; cbv beta zeta].
Ltac peel H := destruct H as [|? ? ? ? ? H]; [apply (l_fail L)|].
Ltac fin := apply (l_ret L); repeat (apply Forall2_cons; [ww|]); first [assumption | apply Forall2_nil].
Ltac pair := intros [? ?] [? ?] [? ?]; cbn [fst snd] in *.
Ltac rpair := apply (l_ret L); split; cbn [fst snd].
Ltac bs := apply (l_bind L R2).
Ltac bp := apply (l_bind L RP).
Lemma p_addcarryx : forall x x' y y' z z', Rw x x' -> Rw y y' -> Rw z z' -> rel RW (addcarryx_u56S M1 W1 x y z) (addcarryx_u56S M2 W2 x' y' z').
Proof. intros. unfold addcarryx_u56S. repeat bw. rpair; assumption. Qed.
Lemma p_subborrowx : forall x x' y y' z z', Rw x x' -> Rw y y' -> Rw z z' -> rel RW (subborrowx_u56S M1 W1 x y z) (subborrowx_u56S M2 W2 x' y' z').
Proof. intros. unfold subborrowx_u56S. repeat bw. rpair; assumption. Qed.
Lemma p_cmovznz : forall x x' y y' z z', Rw x x' -> Rw y y' -> Rw z z' -> rel Rw (cmovznz_u64S M1 W1 x y z) (cmovznz_u64S M2 W2 x' y' z').
Proof. intros. unfold cmovznz_u64S. repeat bw. ww. Qed.
Lemma p_carry_sums : forall a a', R2 a a' -> rel R2 (carry_sumsS M1 W1 a) (carry_sumsS M2 W2 a').
Proof. intros a a' H. unfold carry_sumsS. do 8 peel H. destruct H; [|apply (l_fail L)]. cbv zeta. repeat bw. fin. Qed.
Local Opaque carry_sumsS.
Lemma p_mul56 : forall a a' b b', R2 a a' -> R2 b b' -> rel R2 (mul56S M1 W1 a b) (mul56S M2 W2 a' b').
Proof.
  intros a a' b b' H G. unfold mul56S, fcode_carry_mulS. do 8 peel H. destruct H; [|apply (l_fail L)]. do 8 peel G. destruct G; [|apply (l_fail L)]. cbv zeta. repeat bw.
  apply p_carry_sums. repeat (apply Forall2_cons; [assumption|]). constructor.
Qed.
Lemma p_square56 : forall a a', R2 a a' -> rel R2 (square56S M1 W1 a) (square56S M2 W2 a').
Proof.
  intros a a' H. unfold square56S, fcode_carry_squareS. do 8 peel H. destruct H; [|apply (l_fail L)]. cbv zeta. repeat bw.
  apply p_carry_sums. repeat (apply Forall2_cons; [assumption|]). constructor.
Qed.
Lemma p_fcarry : forall a a', R2 a a' -> rel R2 (fcode_carryS M1 W1 a) (fcode_carryS M2 W2 a').
Proof. intros a a' H. unfold fcode_carryS. do 8 peel H. destruct H; [|apply (l_fail L)]. cbv zeta. repeat bw. fin. Qed.
Lemma p_fadd_limbs : forall a a', R2 a a' -> forall b b', R2 b b' -> rel R2 (fadd_limbsS M1 W1 a b) (fadd_limbsS M2 W2 a' b').
Proof.
  induction 1 as [|x x' a a' Hx Ha IH]; intros b b' [|y y' l l' Hy Hl]; cbn [fadd_limbsS]; try apply (l_fail L); [fin|].
  repeat bw. bs; [apply IH; assumption|]. intros. fin.
Qed.
Lemma p_fsub_limbs : forall k k', R2 k k' -> forall a a', R2 a a' -> forall b b', R2 b b' -> rel R2 (fsub_limbsS M1 W1 k a b) (fsub_limbsS M2 W2 k' a' b').
Proof.
  induction 1 as [|z z' k k' Hz Hk IH]; intros a a' [|x x' i i' Hx Ha] b b' [|y y' l l' Hy Hl]; cbn [fsub_limbsS]; try apply (l_fail L); [fin|].
  repeat bw. bs; [apply IH; assumption|]. intros. fin.
Qed.
Lemma p_fopp_limbs : forall a a', R2 a a' -> forall b b', R2 b b' -> rel R2 (fopp_limbsS M1 W1 a b) (fopp_limbsS M2 W2 a' b').
Proof.
  induction 1 as [|x x' a a' Hx Ha IH]; intros b b' [|y y' l l' Hy Hl]; cbn [fopp_limbsS]; try apply (l_fail L); [fin|].
  repeat bw. bs; [apply IH; assumption|]. intros. fin.
Qed.
Lemma p_add56 : forall a a' b b', R2 a a' -> R2 b b' -> rel R2 (add56S M1 W1 a b) (add56S M2 W2 a' b').
Proof. intros. unfold add56S, fcode_addS. bs; [apply p_fadd_limbs; assumption|]. intros. apply p_fcarry. assumption. Qed.
Lemma p_sub56 : forall a a' b b', R2 a a' -> R2 b b' -> rel R2 (sub56S M1 W1 a b) (sub56S M2 W2 a' b').
Proof. intros. unfold sub56S, fcode_subS. bs; [apply p_fsub_limbs; [apply (q w_lits)|assumption|assumption]|]. intros. apply p_fcarry. assumption. Qed.
Lemma p_negate56 : forall a a', R2 a a' -> rel R2 (negate56S M1 W1 a) (negate56S M2 W2 a').
Proof. intros. unfold negate56S, fcode_oppS. bs; [apply p_fopp_limbs; [apply (q w_lits)|assumption]|]. intros. apply p_fcarry. assumption. Qed.
Lemma p_selectznz : forall c c', Rw c c' -> forall a a', R2 a a' -> forall b b', R2 b b' -> rel R2 (fcode_selectznzS M1 W1 c a b) (fcode_selectznzS M2 W2 c' a' b').
Proof.
  intros c c' Hc. induction 1 as [|x x' a a' Hx Ha IH]; intros b b' [|y y' l l' Hy Hl]; cbn [fcode_selectznzS]; try apply (l_fail L); [fin|].
  apply (l_bind L Rw); [apply p_cmovznz; assumption|]. intros. bs; [apply IH; assumption|]. intros. fin.
Qed.
Lemma p_select56 : forall a a' b b' c c', R2 a a' -> R2 b b' -> Sec L c c' -> rel R2 (conditional_select56S M1 W1 a b c) (conditional_select56S M2 W2 a' b' c').
Proof. intros. unfold conditional_select56S. apply (l_bind L Rw); [apply (q w_unwrap); assumption|]. intros. apply p_selectznz; assumption. Qed.
Lemma p_cneg56 : forall a a' c c', R2 a a' -> Sec L c c' -> rel R2 (conditional_negate56S M1 W1 a c) (conditional_negate56S M2 W2 a' c').
Proof. intros. unfold conditional_negate56S. bs; [apply p_negate56; assumption|]. intros. apply p_select56; assumption. Qed.
Lemma p_sub_chain : forall a a', R2 a a' -> forall b b', R2 b b' -> forall s s', Rw s s' -> rel RP (sub_chainS M1 W1 a b s) (sub_chainS M2 W2 a' b' s').
Proof.
  induction 1 as [|x x' a a' Hx Ha IH]; intros b b' [|y y' l l' Hy Hl] s s' Hs; cbn [sub_chainS]; try apply (l_fail L); [rpair; [constructor|exact Hs]|].
  apply (l_bind L RW); [apply p_subborrowx; assumption|]. pair. bp; [apply IH; assumption|]. pair. rpair; [constructor|]; assumption.
Qed.
Lemma p_add_chain : forall a a', R2 a a' -> forall b b', R2 b b' -> forall m m' s s', Rw m m' -> Rw s s' -> rel RP (add_chainS M1 W1 a b m s) (add_chainS M2 W2 a' b' m' s').
Proof.
  induction 1 as [|x x' a a' Hx Ha IH]; intros b b' [|y y' l l' Hy Hl] m m' s s' Hm Hs; cbn [add_chainS]; try apply (l_fail L); [rpair; [constructor|exact Hs]|].
  bw. apply (l_bind L RW); [apply p_addcarryx; assumption|]. pair. bp; [apply IH; assumption|]. pair. rpair; [constructor|]; assumption.
Qed.
Lemma p_limb_bytes : forall n x x', Rw x x' -> rel R2 (limb_bytesS M1 W1 n x) (limb_bytesS M2 W2 n x').
Proof. induction n; intros x x' Hx; cbn [limb_bytesS]; repeat bw; [fin|]. bs; [apply IHn; assumption|]. intros. fin. Qed.
Lemma p_limbs_bytes : forall l l', R2 l l' -> rel R2 (limbs_bytesS M1 W1 l) (limbs_bytesS M2 W2 l').
Proof.
  induction 1 as [|x x' l l' Hx Hl IH]; cbn [limbs_bytesS]; [fin|]. bs; [apply p_limb_bytes; assumption|]. intros. bs; [exact IH|]. intros. apply (l_ret L). apply Forall2_app; assumption.
Qed.
Lemma p_to_bytes56 : forall a a', R2 a a' -> rel R2 (to_bytes56S M1 W1 a) (to_bytes56S M2 W2 a').
Proof.
  intros. unfold to_bytes56S, fcode_to_bytesS. bp; [apply p_sub_chain; [assumption|apply (q w_lits)|apply (q w_lit)]|]. pair.
  apply (l_bind L Rw); [apply p_cmovznz; [assumption|apply (q w_lit)|apply (q w_lit)]|]. intros. bp; [apply p_add_chain; [assumption|apply (q w_lits)|assumption|apply (q w_lit)]|]. pair.
  apply p_limbs_bytes. assumption.
Qed.
Lemma p_load56 : forall l l', R2 l l' -> rel Rw (load56S M1 W1 l) (load56S M2 W2 l').
Proof. intros l l' H. unfold load56S. do 7 peel H. repeat bw. ww. Qed.
Lemma p_from_bytes_loop56 : forall n l l', R2 l l' -> rel R2 (fcode_from_bytes_loopS M1 W1 n l) (fcode_from_bytes_loopS M2 W2 n l').
Proof.
  induction n; intros l l' H; cbn [fcode_from_bytes_loopS]; [fin|]. apply (l_bind L Rw); [apply p_load56; assumption|]. intros.
  bs; [apply IHn; apply F2_skipn; assumption|]. intros. fin.
Qed.
Lemma p_from_bytes56 : forall l l', R2 l l' -> rel R2 (from_bytes56S M1 W1 l) (from_bytes56S M2 W2 l').
Proof. intros. apply p_from_bytes_loop56. assumption. Qed.
Lemma p_is_negative56 : forall a a', R2 a a' -> rel (Sec L) (is_negative56S M1 W1 a) (is_negative56S M2 W2 a').
Proof. intros. unfold is_negative56S. bs; [apply p_to_bytes56; assumption|]. intros. bw. apply (q w_test). assumption. Qed.
End WordRel.
