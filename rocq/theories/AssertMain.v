(** [subtle]'s debug assertion never fails: functions and programs. *)
Require Import ZArith List Bool Lia.
From Verif Require Import Base BaseProofs SpecParams FieldBackend FieldU32Model FieldFiatModel FiatCode FiatMain Backends BackendLaws ScalarModel TwistedModel ScalarMulModel EdwardsModel MontgomeryModel DecafModel ApiExpr
  EdwardsExpr ApiRun Steps StepSubtle StepU32 StepFiat StepScalar StepCurve StepPlain StepRelWords StepRelFiat StepRelCurve TraceSpec TraceSpec64 TraceLogic TraceLogicWords TraceFiat ReleaseSpec ReleaseLogic ReleaseMain AssertSpec.
Import ListNotations.
Open Scope Z_scope.

Local Notation P := fiat_code.
Local Notation byte x := (0 <= x < 2 ^ 8).

(** ** Making a choice *)
Lemma choice_bit : forall x, x = 0 \/ x = 1 -> choice_from x = Ok (x =? 1).
Proof. intros x [-> | ->]; reflexivity. Qed.
Lemma choice_only : forall x c, choice_from x = Ok c <-> (x = 0 /\ c = false) \/ (x = 1 /\ c = true).
Proof.
  intros x c. unfold choice_from. split.
  - destruct (Z.eqb_spec x 0) as [->|N]; cbn [orb]; [intro E; injection E as <-; left; split; reflexivity|].
    destruct (Z.eqb_spec x 1) as [->|N']; [intro E; injection E as <-; right; split; reflexivity|discriminate].
  - intros [(-> & ->)|(-> & ->)]; reflexivity.
Qed.
Lemma land_bit : forall x, Z.land x 1 = 0 \/ Z.land x 1 = 1.
Proof. intro x. change 1 with (Z.ones 1). rewrite Z.land_ones by lia. pose proof (Z.mod_pos_bound x (2 ^ 1) ltac:(lia)). change (2 ^ 1) with 2 in *. change (Z.ones 1) with 1. lia. Qed.
Lemma small_bits : forall w x, 0 <= w -> 0 <= x < 2 ^ w <-> 0 <= x /\ Z.shiftr x w = 0.
Proof.
  intros w x Hw. rewrite Z.shiftr_div_pow2 by exact Hw. assert (0 < 2 ^ w) by (apply Z.pow_pos_nonneg; lia). split.
  - intro H0. split; [lia|]. apply Z.div_small. exact H0.
  - intros (H0 & E). split; [exact H0|]. apply Z.div_small_iff in E; lia.
Qed.
Lemma lor_small : forall w x y, 0 <= w -> 0 <= x < 2 ^ w -> 0 <= y < 2 ^ w -> 0 <= Z.lor x y < 2 ^ w.
Proof.
  intros w x y Hw Hx Hy. apply small_bits in Hx; [|exact Hw]. apply small_bits in Hy; [|exact Hw]. apply small_bits; [exact Hw|]. destruct Hx as (Hx & Ex), Hy as (Hy & Ey).
  split; [apply Z.lor_nonneg; split; assumption|]. rewrite Z.shiftr_lor, Ex, Ey. reflexivity.
Qed.
Lemma lxor_small : forall w x y, 0 <= w -> 0 <= x < 2 ^ w -> 0 <= y < 2 ^ w -> 0 <= Z.lxor x y < 2 ^ w.
Proof.
  intros w x y Hw Hx Hy. apply small_bits in Hx; [|exact Hw]. apply small_bits in Hy; [|exact Hw]. apply small_bits; [exact Hw|]. destruct Hx as (Hx & Ex), Hy as (Hy & Ey).
  split; [apply Z.lxor_nonneg; split; intro; assumption|]. rewrite Z.shiftr_lxor, Ex, Ey. reflexivity.
Qed.

(** ** [ct_eq] *)
Lemma strict_ct_eq : forall w a b, 0 < w -> 0 <= a < 2 ^ w -> 0 <= b < 2 ^ w -> ct_eqS panics strict w a b = Ok (a =? b).
Proof.
  intros w a b Hw Ha Hb. rewrite <- (e_ct_eqS w a b Hw).
  change (choice_from (Z.lxor (Base.shr (Z.lor (Z.lxor a b) (wrap w (0 - Z.lxor a b))) (w - 1)) 1) =
    Ok (Z.lxor (Base.shr (Z.lor (Z.lxor a b) (wrap w (0 - Z.lxor a b))) (w - 1)) 1 =? 1)).
  apply choice_bit. assert (Hx : 0 <= Z.lxor a b < 2 ^ w) by (apply lxor_small; lia). revert Hx. generalize (Z.lxor a b). intros x Hx.
  assert (Hn : 0 <= wrap w (0 - x) < 2 ^ w) by (unfold wrap; apply Z.mod_pos_bound, Z.pow_pos_nonneg; lia).
  pose proof (lor_small w _ _ ltac:(lia) Hx Hn) as Hl. revert Hl. generalize (Z.lor x (wrap w (0 - x))). intros y Hy. unfold Base.shr. rewrite Z.shiftr_div_pow2 by lia.
  assert (E : 2 ^ w = 2 * 2 ^ (w - 1)) by (rewrite <- Z.pow_succ_r by lia; f_equal; lia). assert (0 < 2 ^ (w - 1)) by (apply Z.pow_pos_nonneg; lia).
  assert (H1 : 0 <= y / 2 ^ (w - 1)) by (apply Z.div_pos; lia). assert (H2 : y / 2 ^ (w - 1) < 2) by (apply Z.div_lt_upper_bound; lia).
  assert (H3 : y / 2 ^ (w - 1) = 0 \/ y / 2 ^ (w - 1) = 1) by lia. destruct H3 as [-> | ->]; [right|left]; reflexivity.
Qed.
Lemma strict_ct_eq_loop : forall a b c, length a = length b -> Forall (fun x => byte x) a -> Forall (fun x => byte x) b ->
  ct_eq_loopS panics strict a b (Z.b2z c) = Ok (Z.b2z (c && list_eqb a b)).
Proof.
  induction a as [|x a IH]; intros [|y b] c H Ha Hb; try discriminate H; [rewrite andb_true_r; reflexivity|]. inversion Ha; subst. inversion Hb; subst.
  change (ct_eq_loopS panics strict (x :: a) (y :: b) (Z.b2z c)) with
    (bind (ct_eqS panics strict 8 x y) (fun e => ct_eq_loopS panics strict a b (Z.land (Z.b2z c) (Z.b2z e)))).
  rewrite strict_ct_eq by (lia || assumption). cbn [bind list_eqb].
  replace (Z.land (Z.b2z c) (Z.b2z (x =? y))) with (Z.b2z (c && (x =? y))) by (destruct c, (x =? y); reflexivity).
  rewrite IH by first [assumption | injection H as H; exact H]. rewrite andb_assoc. reflexivity.
Qed.
Lemma strict_ct_eq_slice : forall a b, Forall (fun x => byte x) a -> Forall (fun x => byte x) b -> ct_eq_sliceS panics strict a b = Ok (list_eqb a b).
Proof.
  intros a b Ha Hb. unfold ct_eq_sliceS. change (word strict) with Z in *. destruct (Nat.eqb_spec (length a) (length b)) as [E|E].
  - change (lit strict 1) with (Z.b2z true). rewrite strict_ct_eq_loop by assumption. cbn [andthen panics bind andb]. destruct (list_eqb a b); reflexivity.
  - rewrite list_eqb_length by exact E. reflexivity.
Qed.

(** ** Bytes of field elements *)
Lemma wrap_byte : forall x, byte (as_u8 x).
Proof. intro x. apply Z.mod_pos_bound. lia. Qed.
Lemma push_bytes_byte : forall n l, Forall (fun x => byte x) (push_bytes n l).
Proof. induction n as [|n IH]; intro l; cbn [push_bytes]; constructor; [apply wrap_byte|apply IH]. Qed.
Lemma to_bytes_loop_byte : forall n a r, length a = (2 * n)%nat -> to_bytes_loop a = Ok r -> Forall (fun x => byte x) r.
Proof.
  induction n as [|n IH]; intros a r Ha H; [destruct a; [injection H as <-; constructor|discriminate Ha]|].
  destruct a as [|x [|y a]]; [discriminate Ha|cbn [length] in Ha; lia|]. cbn [to_bytes_loop] in H. destruct (u64_add x (shl_u 64 y 28)) as [l|]; [|discriminate H]. cbn [bind] in H.
  destruct (to_bytes_loop a) as [q|] eqn:E; [|discriminate H]. cbn [bind] in H. assert (R : r = push_bytes 7 l ++ q) by congruence. rewrite R.
  apply Forall_app. split; [apply push_bytes_byte|]. apply (IH a q); [cbn [length] in Ha; lia|exact E].
Qed.
Lemma to_bytes28_byte : forall a r, to_bytes28 a = Ok r -> Forall (fun x => byte x) r.
Proof.
  intros a r H. unfold to_bytes28, strong_reduce28 in H. destruct (weak_reduce28 a) as [b|]; [|discriminate H]. cbn [bind] in H.
  destruct (borrow_chain b p_limbs 0) as [[d sc]|]; [|discriminate H]. cbn [bind] in H. cbv zeta in H.
  match type of H with context [carry_chain d ?k 0] => destruct (carry_chain d k 0) as [[e c]|] eqn:E; [|discriminate H] end. cbn [bind] in H.
  apply carry_length in E. cbn [fst length] in E. destruct (negb (c <? 2)); [discriminate H|]. destruct (i64_add c sc) as [t|]; [|discriminate H]. cbn [bind] in H.
  destruct (negb (t =? 0)); [discriminate H|]. cbn [bind] in H. exact (to_bytes_loop_byte 8 e r E H).
Qed.
Lemma limb_bytes_byte : forall n x, Forall (fun x => byte x) (limb_bytes n x).
Proof. induction n as [|n IH]; intro x; cbn [limb_bytes]; constructor; try apply wrap_byte; [constructor|apply IH]. Qed.
Lemma to_bytes56_byte : forall a b, to_bytes56 P a = Ok b -> Forall (fun x => byte x) b.
Proof.
  intros a b E. change (to_bytes56 P a) with (fcode_to_bytes a) in E. unfold fcode_to_bytes in E. revert E. generalize p_limbs56 mask64.
  intros k m E. destruct (sub_chain a k 0) as [[x s]|]; cbn [bind] in E; [|discriminate E].
  destruct (cmovznz_u64 s 0 m) as [n|]; cbn [bind] in E; [|discriminate E]. destruct (add_chain x k n 0) as [[y c]|]; cbn [bind] in E; [|discriminate E].
  assert (E' : b = flat_map (limb_bytes 6) y) by congruence. rewrite E'. clear. induction y as [|z y IH]; [constructor|].
  change (flat_map (limb_bytes 6) (z :: y)) with (limb_bytes 6 z ++ flat_map (limb_bytes 6) y). apply Forall_app. split; [apply limb_bytes_byte|exact IH].
Qed.

(** ** Signs *)
Lemma strict_is_negative28 : forall a, is_negative28S panics strict a = is_negative28 a.
Proof.
  intro a. change (is_negative28S panics strict a) with (bind (to_bytes28S panics plain a) (fun b => choice_from (Z.land (nth 0 b 0) 1))). rewrite e_to_bytes28.
  refine (bind_ext _ _ _ _ _ _). intro b. apply choice_bit, land_bit.
Qed.
Lemma strict_is_negative56 : forall a, is_negative56S panics strict a = is_negative56 P a.
Proof.
  intro a. change (is_negative56S panics strict a) with (bind (to_bytes56S panics plain a) (fun b => choice_from (Z.land (nth 0 b 0) 1))). rewrite e_to_bytes56.
  refine (bind_ext _ _ _ _ _ _). intro b. apply choice_bit, land_bit.
Qed.
Lemma strict_sign_bit : forall x, byte x -> sign_bitS panics strict x = Ok (shr x 7 =? 1).
Proof.
  intros x Hx. change (sign_bitS panics strict x) with (choice_from (shr x 7)). apply choice_bit. unfold shr. rewrite Z.shiftr_div_pow2 by lia.
  assert (0 <= x / 2 ^ 7) by (apply Z.div_pos; lia). assert (x / 2 ^ 7 < 2) by (apply Z.div_lt_upper_bound; lia). lia.
Qed.
Lemma strict_digit : forall d a s, digit_absS panics strict d = Ok (a, s) -> 0 <= a < 2 ^ 32 /\ (s = 0 \/ s = 1).
Proof.
  intros d a s E. change (bind (bind (bind (i8_add d (shr d 7)) (fun t => Ok (Z.lxor t (shr d 7)))) (fun t => Ok (as_u32 t))) (fun t => Ok (t, Z.land (shr d 7) 1)) = Ok (a, s)) in E.
  destruct (i8_add d (shr d 7)) as [t|]; [|discriminate E]. cbn [bind] in E. injection E as <- <-. split; [apply Z.mod_pos_bound; lia|apply land_bit].
Qed.
Lemma strict_digit_choice : forall s, s = 0 \/ s = 1 -> digit_choiceS panics strict s = Ok (s =? 1).
Proof. intros s [-> | ->]; reflexivity. Qed.

(** ** Inversion of scalars: the loop state is another record type *)
Definition ivS (st : inv_stateS panics strict) : inv_state :=
  {| iv_result := iv_resultS panics strict st; iv_residue := iv_residueS panics strict st; iv_trailing := iv_trailingS panics strict st; iv_started := iv_startedS panics strict st |}.
Lemma strict_inv_step : forall pre i st, res_map ivS (inv_stepS panics strict pre i st) = inv_step pre i (ivS st).
Proof.
  intros pre i [r re t s]. unfold inv_stepS, inv_step. cbn [iv_resultS iv_residueS iv_trailingS iv_startedS ivS iv_result iv_residue iv_trailing iv_started].
  refine (res_bind _ _ _ ivS _ _ _ _). intro x.
  assert (E : forall (C : Type) (g : Z -> res C), bind (match inv_bit i with Ok b => @ret panics Z b | Panic => @fail panics Z end) g = bind (inv_bit i) g) by (intros C g; destruct (inv_bit i); reflexivity).
  cbn [andthen panics]. rewrite E. clear E.
  refine (res_bind _ _ _ ivS _ _ _ _). intro b. cbv zeta.
  assert (E : forall (A C : Type) (l : list A) k (g : A -> res C), bind (indexS (M := panics) l k) g = bind (index l k) g) by (intros A C l k g; unfold indexS; destruct (index l k); reflexivity).
  destruct (shr (Z.lor (shl_u 32 re 1) b) 3 =? 0).
  - destruct ((0 <? t) && (Z.land t 7 =? 0)); [|reflexivity]. rewrite E. refine (res_bind _ _ _ ivS _ _ _ _). intro q. refine (res_bind _ _ _ ivS _ _ _ _). reflexivity.
  - destruct ((0 <? Z.lor (shl_u 32 re 1) b) && (Z.land (Z.lor (shl_u 32 re 1) b) 7 =? 0)); [|reflexivity].
    rewrite E. refine (res_bind _ _ _ ivS _ _ _ _). intro q. refine (res_bind _ _ _ ivS _ _ _ _). reflexivity.
Qed.
Lemma strict_inv_loop : forall n i pre st, res_map ivS (inv_loopS panics strict n i pre st) = inv_loop n i pre (ivS st).
Proof.
  induction n as [|n IH]; intros i pre st; [reflexivity|]. cbn [inv_loopS inv_loop andthen panics]. rewrite <- strict_inv_step.
  destruct (inv_stepS panics strict pre i st); [apply IH|reflexivity].
Qed.
Local Opaque inv_loopS inv_loop montgomery_multiply montgomery_multiplyS.
Lemma strict_invert : forall s, scalar_invertS panics strict s = scalar_invert s.
Proof.
  intro s. unfold scalar_invertS, scalar_invert. change (inv_precompS panics strict s) with (inv_precomp s). destruct (inv_precomp s) as [pre|]; [|reflexivity]. cbn [bind andthen panics].
  pose proof (strict_inv_loop 449 445 pre {| iv_resultS := map (lit strict) scalar_zero; iv_residueS := 0; iv_trailingS := 0; iv_startedS := false |}) as H.
  change (ivS {| iv_resultS := map (lit strict) scalar_zero; iv_residueS := 0; iv_trailingS := 0; iv_startedS := false |})
    with {| iv_result := scalar_zero; iv_residue := 0; iv_trailing := 0; iv_started := false |} in H. rewrite <- H.
  match goal with |- context [inv_loopS ?a ?b ?c ?d ?e ?f] => destruct (inv_loopS a b c d e f) end; reflexivity.
Qed.

Local Transparent inv_loopS inv_loop montgomery_multiply montgomery_multiplyS.

(** ** Equality of scalars *)
Lemma scalar_bytes_byte : forall s, Forall (fun x => byte x) (scalar_to_bytes s).
Proof. induction s as [|l s IH]; cbn [scalar_to_bytes]; repeat constructor; try apply wrap_byte; try apply IH; apply Z.mod_pos_bound; lia. Qed.
Lemma strict_eqb : forall a b, scalar_eqbS panics strict a b = Ok (scalar_eqb a b).
Proof.
  intros a b. change (scalar_eqbS panics strict a b) with (bind (scalar_to_bytesS panics plain a) (fun x => bind (scalar_to_bytesS panics plain b) (fun y => ct_eq_sliceS panics strict x y))).
  rewrite !e_scalar_to_bytes. cbn [bind]. rewrite strict_ct_eq_slice by apply scalar_bytes_byte. reflexivity.
Qed.
Lemma strict_from_canonical : forall b : list Z, length b = 57%nat -> scalar_from_canonical_bytesS panics strict b = scalar_from_canonical_bytes b.
Proof.
  intros b Hb. unfold scalar_from_canonical_bytesS, scalar_from_canonical_bytes, indexS. change (@index (word strict)) with (@index Z).
  assert (H : forall i, 0 <= i < 57 -> exists x, index b i = Ok x).
  { intros i Hi. unfold index. destruct (nth_error b (Z.to_nat i)) as [x|] eqn:E; [exists x; destruct (i <? 0) eqn:F; [lia|reflexivity]|]. apply nth_error_None in E. lia. }
  destruct (H 56 ltac:(lia)) as [b56 E56]. destruct (H 55 ltac:(lia)) as [b55 E55]. rewrite E56, E55. cbn [andthen panics ret bind test strict test_z branch]. 
  destruct (negb (b56 =? 0)); [reflexivity|]. cbn [orb bind lift1 un un_z w_ret ret andthen].
  unfold lift1, w_ret. cbn [bind andthen ret panics]. change (un strict (UShr 6) b55) with (Ok (shr b55 6)). cbn [bind]. destruct (negb (shr b55 6 =? 0)); [reflexivity|]. change (scalar_from_bytesS panics strict (firstn 56 b)) with (scalar_from_bytesS panics plain (firstn 56 b)). rewrite e_scalar_from_bytes. cbn [bind].
  change (sub_extraS panics strict (scalar_from_bytes (firstn 56 b)) (map (lit strict) MODULUS) (lit strict 0)) with (sub_extra (scalar_from_bytes (firstn 56 b)) MODULUS 0).
  refine (bind_ext _ _ _ _ _ _). intro r. rewrite strict_eqb. reflexivity.
Qed.

(** ** What the curve code calls *)
Lemma same_keeps : forall A (R : A -> A -> Prop) (x y : run panics A), (forall a, R a a) -> x = y -> rl keeping R x y.
Proof. intros A R x y H <-. unfold rl, keeping, keeps. destruct x as [a|]; [exists a; split; [reflexivity|apply H]|exact I]. Qed.
Definition Rlist (a : fe strict32) (b : fe u32_backend) : Prop := a = b.
Definition Rword (a : word strict) (b : Z) : Prop := a = b.
Ltac subs := repeat match goal with
  | H : Rby _ _ _ _ _ _ |- _ => let a := fresh in let b := fresh in destruct H as (H & a & b); match type of H with Sec _ ?c ?d => change (c = d) in H; subst d end
  | H : Sec _ ?c ?d |- _ => change (c = d) in H; subst d
  | H : Rlist ?a ?b |- _ => change (a = b) in H; subst b
  | H : Rword ?a ?b |- _ => change (a = b) in H; subst b end.
Ltac by_plain e := apply same_keeps; [reflexivity|]; exact e.
Lemma strict_bytes : forall a : list Z, rl keeping (fun x y => x = y /\ Forall (fun z => byte z) x) (m_to_bytes strict32_machine a) (m_to_bytes (plain_machine u32_backend) a).
Proof.
  intro a. change (m_to_bytes (plain_machine u32_backend) a) with (to_bytes28 a). assert (E : m_to_bytes strict32_machine a = to_bytes28 a) by exact (eq_trans (e_out _) (e_to_bytes28 a)).
  rewrite E. unfold rl, keeping, keeps. destruct (to_bytes28 a) as [x|] eqn:Ex; [|exact I]. exists x. split; [reflexivity|]. split; [reflexivity|]. exact (to_bytes28_byte _ _ Ex).
Qed.
Lemma strict_eq : forall x y, Forall (fun z => byte z) x -> Forall (fun z => byte z) y -> rl keeping (Sec keeping) (m_bytes_eq strict32_machine x y) (m_bytes_eq (plain_machine u32_backend) x y).
Proof. intros x y Hx Hy. apply same_keeps; [reflexivity|]. exact (strict_ct_eq_slice x y Hx Hy). Qed.
Lemma F2_eq_refl : forall l : list Z, Forall2 Rword l l.
Proof. induction l; constructor; [reflexivity|assumption]. Qed.
Theorem strict32_keeps : mcompat _ _ keeping _ _ strict32_machine (plain_machine u32_backend) Rlist Rword.
Proof.
  constructor; try exact (map_id _); intros; subs.
  - by_plain (f_equal (fun f => f a b) e_add28).
  - by_plain (f_equal (fun f => f a b) e_sub28).
  - by_plain (e_mul28 a b).
  - by_plain (e_square28 a).
  - by_plain (f_equal (fun f => f a) e_negate28).
  - by_plain (e_strong_reduce28 a).
  - by_plain (e_select28 a b c).
  - by_plain (e_cond_negate28 a c).
  - by_plain (strict_is_negative28 a).
  - apply same_keeps; reflexivity.
  - by_plain (eq_trans (e_out _) (e_to_bytes28 a)).
  - apply same_keeps; [reflexivity|]. destruct H0 as (Lb & Hb).
    change (m_sign strict32_machine b) with (bind (match index b 56 with Ok x => Ok x | Panic => Panic end) (sign_bitS panics strict)). rewrite nth_56 by exact Lb. cbn [bind].
    rewrite strict_sign_bit; [reflexivity|].
    assert (N : b <> []) by (intros ->; discriminate Lb). rewrite Forall_forall in Hb. apply Hb. destruct (exists_last N) as (l & x & ->). rewrite last_last. apply in_or_app. right. left. reflexivity.
  - apply same_keeps; reflexivity.
  - by_plain (e_out (scalar_add s t)).
  - by_plain (e_out (scalar_sub s t)).
  - by_plain (e_out (scalar_mul s t)).
  - by_plain (eq_trans (e_out _) (strict_invert s)).
  - by_plain (eq_trans (e_out _) (e_scalar_halve s)).
  - by_plain (eq_trans (e_out _) (e_scalar_wide b)).
  - assert (E : m_div4 strict32_machine s = Ok (scalar_div_by_four s)) by exact (eq_trans (e_out _) (e_div_by_four s)). rewrite E. exists (scalar_div_by_four s). split; [reflexivity|].
    split; [reflexivity|]. split; apply div4_length; assumption.
  - apply same_keeps; [intro l; induction l; constructor; [reflexivity|assumption]|]. exact (e_scalar_bits s).
  - apply same_keeps; [exact F2_eq_refl|]. exact (e_to_radix_16 s).
  - destruct s as [|x s]; [discriminate|]. apply same_keeps; reflexivity.
  - apply same_keeps; [intros []; split; reflexivity|].
    change (m_digit_abs strict32_machine d) with (bind (bind (bind (i8_add d (shr d 7)) (fun t => Ok (Z.lxor t (shr d 7)))) (fun t => Ok (as_u32 t))) (fun t => Ok (t, Z.land (shr d 7) 1))).
    change (m_digit_abs (plain_machine u32_backend) d) with (bind (i8_add d (shr d 7)) (fun t => Ok (as_u32 (Z.lxor t (shr d 7)), Z.land (shr d 7) 1))).
    destruct (i8_add d (shr d 7)); reflexivity.
  - match goal with H : exists x a, _ |- _ => destruct H as (x & a & G) end. apply strict_digit in G. apply same_keeps; [reflexivity|].
    refine (eq_trans (strict_digit_choice d (proj2 G)) _). destruct (proj2 G) as [-> | ->]; reflexivity.
  - match goal with H : exists x s, _ |- _ => destruct H as (x & s & G) end. apply strict_digit in G. apply same_keeps; [reflexivity|]. exact (strict_ct_eq 32 d n ltac:(lia) (proj1 G) H0).
  - apply same_keeps; reflexivity.
  - unfold fe_ct_eqS. eapply (l_bind keeping); [apply strict_bytes|]. intros x x' (<- & Hx). eapply (l_bind keeping); [apply strict_bytes|]. intros y y' (<- & Hy). apply strict_eq; assumption.
  - eapply (l_bind keeping); [apply strict_bytes|]. intros x x' (<- & Hx). apply strict_eq; [assumption|]. match goal with H : bytes 56 _ |- _ => exact (proj2 H) end.
Qed.
Lemma strict_canonical : forall b b', b = b' -> bytes 57 b -> bytes 57 b' ->
  rl keeping (Ropt (Sec keeping)) (m_sc_canonical strict32_machine b) (m_sc_canonical (plain_machine u32_backend) b').
Proof.
  intros b b' <- Hb _. apply same_keeps; [intros [s|]; [reflexivity|exact I]|].
  assert (E : scalar_from_canonical_bytesS panics strict b = scalar_from_canonical_bytes b) by exact (strict_from_canonical b (proj1 Hb)).
  cbn [strict32_machine word_machine m_sc_canonical]. rewrite E. change (m_sc_canonical (plain_machine u32_backend) b) with (scalar_from_canonical_bytes b).
  destruct (scalar_from_canonical_bytes b) as [[s|]|]; [|reflexivity|reflexivity]. cbn [andthen panics bind]. change (reveal_all strict s) with (reveal_all plain s). rewrite e_reveal. reflexivity.
Qed.

(** 64-bit limbs. *)
Local Notation B := (fiat_backend fiat_code).
Definition Rlist64 (a : fe strict64) (b : fe B) : Prop := a = b.
Ltac subs64 := repeat match goal with H : Rlist64 ?a ?b |- _ => change (a = b) in H; subst b end; subs.
Lemma strict64_bytes : forall a : list Z, rl keeping (fun x y => x = y /\ Forall (fun z => byte z) x) (m_to_bytes strict64_machine a) (m_to_bytes (plain_machine B) a).
Proof.
  intro a. change (m_to_bytes (plain_machine B) a) with (to_bytes56 P a). assert (E : m_to_bytes strict64_machine a = to_bytes56 P a) by exact (eq_trans (e_out _) (e_to_bytes56 a)).
  rewrite E. unfold rl, keeping, keeps. destruct (to_bytes56 P a) as [x|] eqn:Ex; [|exact I]. exists x. split; [reflexivity|]. split; [reflexivity|]. exact (to_bytes56_byte _ _ Ex).
Qed.
Local Notation old c := (c _ _ _ _ _ _ _ _ _ strict32_keeps).
Theorem strict64_keeps : mcompat _ _ keeping _ _ strict64_machine (plain_machine B) Rlist64 Rword.
Proof.
  constructor; try exact (map_id _).
  - intros. subs64. by_plain (e_add56 a b).
  - intros. subs64. by_plain (e_sub56 a b).
  - intros. subs64. by_plain (e_mul56 a b).
  - intros. subs64. by_plain (e_square56 a).
  - intros. subs64. by_plain (e_negate56 a).
  - intros. subs64. by_plain (e_strong_reduce56 a).
  - intros. subs64. by_plain (e_select56 a b c).
  - intros. subs64. by_plain (e_cond_negate56 a c).
  - intros. subs64. by_plain (strict_is_negative56 a).
  - intros. subs64. by_plain (e_from_bytes56 b).
  - intros. subs64. by_plain (eq_trans (e_out _) (e_to_bytes56 a)).
  - exact (old c_sign).
  - exact (old c_sign_byte).
  - exact (old c_sc_add).
  - exact (old c_sc_sub).
  - exact (old c_sc_mul).
  - exact (old c_sc_invert).
  - exact (old c_sc_halve).
  - exact (old c_sc_wide).
  - exact (old c_div4).
  - exact (old StepRelCurve.c_bits).
  - exact (old c_radix16).
  - exact (old c_mod_four).
  - exact (old c_digit_abs).
  - exact (old c_digit_choice).
  - exact (old c_digit_ct_eq).
  - exact (old c_digit_eq).
  - intros. subs64. unfold fe_ct_eqS. eapply (l_bind keeping); [apply strict64_bytes|]. intros x x' (<- & Hx). eapply (l_bind keeping); [apply strict64_bytes|]. intros y y' (<- & Hy). apply strict_eq; assumption.
  - intros. subs64. eapply (l_bind keeping); [apply strict64_bytes|]. intros x x' (<- & Hx). apply strict_eq; [assumption|]. match goal with H : bytes 56 _ |- _ => exact (proj2 H) end.
Qed.

(** ** Programs *)
Theorem strict32_result : forall s (e : api s), api_ok e -> exists o, strict32_run e = Ok o /\ api_run u32_backend e = Ok (option_map strict32_value o).
Proof. exact (results_kept u32_backend shipped_u32 strict32 strict32_machine Rlist Rword strict32_keeps (fun c => eq_refl) strict_canonical (fun l => l) (fun a b H => H)). Qed.
Theorem strict64_result : forall s (e : api s), api_ok e -> exists o, strict64_run e = Ok o /\ api_run (fiat_backend fiat_code) e = Ok (option_map strict64_value o).
Proof. exact (results_kept (fiat_backend fiat_code) shipped_code strict64 strict64_machine Rlist64 Rword strict64_keeps (fun c => eq_refl) strict_canonical (fun l => l) (fun a b H => H)). Qed.

(** ** Functions *)
Theorem strict_comparisons :
  (forall a b, 0 <= a < 2 ^ 32 -> 0 <= b < 2 ^ 32 -> ct_eqS panics strict 32 a b = Ok (a =? b)) /\
  (forall a b, Forall (fun x => byte x) a -> Forall (fun x => byte x) b -> ct_eq_sliceS panics strict a b = Ok (list_eqb a b)) /\
  (forall a b, scalar_eqbS panics strict a b = Ok (scalar_eqb a b)) /\
  (forall b, length b = 57%nat -> scalar_from_canonical_bytesS panics strict b = scalar_from_canonical_bytes b).
Proof. split; [intros; apply strict_ct_eq; lia|]. split; [exact strict_ct_eq_slice|]. split; [exact strict_eqb|exact strict_from_canonical]. Qed.
Theorem strict_signs :
  (forall a, is_negative28S panics strict a = is_negative28 a) /\ (forall a, is_negative56S panics strict a = is_negative56 P a) /\
  (forall x, byte x -> sign_bitS panics strict x = Ok (shr x 7 =? 1)) /\
  (forall d a s, digit_absS panics strict d = Ok (a, s) -> digit_choiceS panics strict s = Ok (s =? 1)).
Proof.
  split; [exact strict_is_negative28|]. split; [exact strict_is_negative56|]. split; [exact strict_sign_bit|].
  intros d a s E. apply strict_digit_choice. exact (proj2 (strict_digit _ _ _ E)).
Qed.
(** The mask of a negative digit in place of its sign, and a byte compared with something larger. *)
Lemma strict_stops : digit_absS panics strict (-3) = Ok (3, 1) /\ digit_choiceS panics strict 1 = Ok true /\ digit_choiceS panics strict (shr (-3) 7) = Panic /\
  digit_choiceS panics plain (shr (-3) 7) = Ok false.
Proof. repeat split. Qed.
Lemma strict_wide : exists a b, 0 <= a < 2 ^ 8 /\ 0 <= b < 2 ^ 32 /\ ct_eqS panics strict 8 a b = Panic.
Proof. exists 1, 259. repeat split; discriminate || reflexivity. Qed.
Lemma strict_program : api_ok (AEdCompress (AEdMul (AEdDecompress (repeat 255 57)) (repeat (2 ^ 32 - 1) 14))).
Proof. repeat split; try reflexivity; repeat constructor; discriminate. Qed.
