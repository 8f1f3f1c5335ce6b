(** With [panics] and plain integers, the code of StepU32.v, StepScalar.v and StepCurve.v is the code of the models. *)
Require Import ZArith List Bool Lia.
From Verif Require Import Base BaseProofs FieldBackend FieldU32Model Backends FieldModel ScalarModel TwistedModel ScalarMulModel EdwardsModel EdwardsExpr MontgomeryModel DecafModel ApiExpr
  Steps StepSubtle StepU32 StepScalar StepCurve.
Import ListNotations.
Open Scope Z_scope.
Open Scope res_scope.

Lemma bind_ext : forall A B (m : res A) (f g : A -> res B), (forall x, f x = g x) -> bind m f = bind m g.
Proof. intros A B [x|] f g H; [exact (H x)|reflexivity]. Qed.

(** ** [subtle] *)
Lemma e_selectS : forall c a b, selectS panics plain c a b = Ok (if c then b else a).
Proof.
  intros [|] a b.
  - change (Ok (Z.lxor a (Z.land (-1) (Z.lxor a b))) = Ok b). rewrite Z.land_m1_l, <- Z.lxor_assoc, Z.lxor_nilpotent, Z.lxor_0_l. reflexivity.
  - change (Ok (Z.lxor a (Z.land 0 (Z.lxor a b))) = Ok a). rewrite Z.land_0_l, Z.lxor_0_r. reflexivity.
Qed.
Lemma or_bound : forall x y k, 0 <= k -> 2 ^ k <= x -> 0 <= y -> 0 < Z.shiftr (Z.lor x y) k.
Proof.
  intros x y k Hk Hx Hy. rewrite Z.shiftr_lor. assert (Hp : 0 < 2 ^ k) by (apply Z.pow_pos_nonneg; lia).
  assert (H1 : 1 <= Z.shiftr x k) by (rewrite Z.shiftr_div_pow2 by lia; apply Z.div_le_lower_bound; lia).
  assert (H2 : 0 <= Z.shiftr y k) by (apply Z.shiftr_nonneg; lia).
  assert (H3 : 0 <= Z.lor (Z.shiftr x k) (Z.shiftr y k)) by (apply Z.lor_nonneg; lia).
  destruct (Z.eq_dec (Z.lor (Z.shiftr x k) (Z.shiftr y k)) 0) as [E|E]; [|lia]. apply Z.lor_eq_0_iff in E. lia.
Qed.
Lemma e_ct_eqS : forall w a b, 0 < w -> ct_eqS panics plain w a b = Ok (a =? b).
Proof.
  intros w a b Hw. change (Ok (Z.lxor (Base.shr (Z.lor (Z.lxor a b) (wrap w (0 - Z.lxor a b))) (w - 1)) 1 =? 1) = Ok (a =? b)). f_equal.
  destruct (Z.eqb_spec a b) as [->|N].
  - rewrite Z.lxor_nilpotent. cbn [Z.sub Z.opp Z.add]. unfold wrap. rewrite Z.mod_0_l by (apply Z.pow_nonzero; lia). cbn [Z.lor]. unfold Base.shr. rewrite Z.shiftr_0_l. reflexivity.
  - assert (X : Z.lxor a b <> 0) by (intro E; apply Z.lxor_eq in E; contradiction). set (x := Z.lxor a b) in *.
    assert (Y : Base.shr (Z.lor x (wrap w (0 - x))) (w - 1) <> 0).
    { unfold Base.shr, wrap. assert (P : 2 ^ w = 2 * 2 ^ (w - 1)) by (rewrite <- Z.pow_succ_r by lia; f_equal; lia). assert (Q : 0 < 2 ^ (w - 1)) by (apply Z.pow_pos_nonneg; lia).
      pose proof (Z.mod_pos_bound (0 - x) (2 ^ w) ltac:(lia)) as B.
      destruct (Z_lt_le_dec x 0) as [L|L].
      { intro E. assert (N0 : Z.shiftr (Z.lor x ((0 - x) mod 2 ^ w)) (w - 1) < 0) by (apply Z.shiftr_neg, Z.lor_neg; lia). lia. }
      destruct (Z_lt_le_dec x (2 ^ (w - 1))) as [K|K].
      - assert (E : (0 - x) mod 2 ^ w = 2 ^ w - x) by (symmetry; apply Z.mod_unique with (q := -1); lia).
        rewrite Z.lor_comm. pose proof (or_bound ((0 - x) mod 2 ^ w) x (w - 1)). lia.
      - pose proof (or_bound x ((0 - x) mod 2 ^ w) (w - 1)). lia. }
    apply Z.eqb_neq. intro E. apply Y. apply (f_equal (fun z => Z.lxor z 1)) in E. rewrite Z.lxor_assoc, Z.lxor_nilpotent, Z.lxor_0_r in E. exact E.
Qed.
Lemma e_ct_eq_loop : forall a b c, length a = length b -> ct_eq_loopS panics plain a b (Z.b2z c) = Ok (Z.b2z (c && list_eqb a b)).
Proof.
  induction a as [|x a IH]; intros [|y b] c H; try discriminate H; [rewrite andb_true_r; reflexivity|]. cbn [ct_eq_loopS list_eqb].
  rewrite e_ct_eqS by lia. cbn [andthen panics bind]. change (bin plain BAnd (Z.b2z c) (Z.b2z (x =? y))) with (Ok (Z.land (Z.b2z c) (Z.b2z (x =? y)))).
  change (unwrap plain (x =? y)) with (Ok (Z.b2z (x =? y))). cbn [bind]. change (bin plain BAnd (Z.b2z c) (Z.b2z (x =? y))) with (Ok (Z.land (Z.b2z c) (Z.b2z (x =? y)))). cbn [bind].
  replace (Z.land (Z.b2z c) (Z.b2z (x =? y))) with (Z.b2z (c && (x =? y))) by (destruct c, (x =? y); reflexivity).
  rewrite IH by (injection H as H; exact H). rewrite andb_assoc. reflexivity.
Qed.
Lemma list_eqb_length : forall a b, length a <> length b -> list_eqb a b = false.
Proof. induction a as [|x a IH]; intros [|y b] H; cbn [length list_eqb] in *; try reflexivity; [contradiction|]. rewrite IH by (intro E; apply H; rewrite E; reflexivity). apply andb_false_r. Qed.
Lemma e_ct_eq_slice : forall a b, ct_eq_sliceS panics plain a b = Ok (list_eqb a b).
Proof.
  intros a b. unfold ct_eq_sliceS. destruct (Nat.eqb_spec (length (a : list Z)) (length (b : list Z))) as [E|E].
  - change (lit plain 1) with (Z.b2z true). change (word plain) with Z in *. rewrite E, Nat.eqb_refl. rewrite e_ct_eq_loop by exact E. cbn [andthen panics bind andb]. destruct (list_eqb a b); reflexivity.
  - change (word plain) with Z in *. rewrite (proj2 (Nat.eqb_neq _ _) E). rewrite list_eqb_length by exact E. reflexivity.
Qed.

(** ** The 32-bit field *)
Local Notation P1 f := (f panics plain).
Lemma e_weak_reduce28 : P1 weak_reduce28S = weak_reduce28. Proof. reflexivity. Qed.
Lemma e_add28 : P1 add28S = add28. Proof. reflexivity. Qed.
Lemma e_sub28 : P1 sub28S = sub28. Proof. reflexivity. Qed.
Lemma e_negate28 : P1 negate28S = negate28. Proof. reflexivity. Qed.
Lemma e_borrow_chain : P1 borrow_chainS = borrow_chain. Proof. reflexivity. Qed.
Lemma e_carry_chain : P1 carry_chainS = carry_chain. Proof. reflexivity. Qed.
Lemma e_strong_reduce28 : forall a, P1 strong_reduce28S a = strong_reduce28 a.
Proof.
  intro a. refine (bind_ext _ _ (weak_reduce28 a) _ _ _). intro a1. refine (bind_ext _ _ (borrow_chain a1 p_limbs 0) _ _ _). intros [a2 sc].
  refine (bind_ext _ _ (carry_chain a2 _ 0) _ _ _). intros [a3 c].
  change (bind (if negb (c <? 2) then Panic else Ok tt) (fun _ => bind (i64_add c sc) (fun t => bind (if negb (t =? 0) then Panic else Ok tt) (fun _ => Ok a3)))
    = if negb (c <? 2) then Panic else bind (i64_add c sc) (fun t => if negb (t =? 0) then Panic else Ok a3)).
  destruct (negb (c <? 2)); [reflexivity|]. cbn [bind]. refine (bind_ext _ _ (i64_add c sc) _ _ _). intro t. destruct (negb (t =? 0)); reflexivity.
Qed.
Lemma step_ok : forall A B (e : res A) v (f : A -> res B) r, e = Ok v -> f v = r -> @andthen panics A B e f = r.
Proof. intros A B e v f r -> H. exact H. Qed.
Lemma step_eq : forall A B (e e' : res A) (f g : A -> res B), e = e' -> (forall x, f x = g x) -> @andthen panics A B e f = bind e' g.
Proof. intros A B e e' f g -> H. exact (bind_ext _ _ e' f g H). Qed.
Lemma lift2_eq : forall o f x y x' y', chk plain o = f -> x = x' -> y = y' -> @Steps.lift2 panics Z Z Z (chk plain o) x y = FieldU32Model.lift2 f x' y'.
Proof. intros o f x y x' y' <- -> ->. reflexivity. Qed.
Ltac lifts := first [refine (lift2_eq _ _ _ _ _ _ eq_refl _ _); lifts | reflexivity].
Ltac same_steps := cbv beta zeta; lazymatch goal with
  | |- andthen ?e ?f = bind ?e' ?g => first [refine (step_eq _ _ e e' f g _ _); [lifts | intro; same_steps] | refine (step_ok _ _ e _ f _ eq_refl _); same_steps]
  | |- andthen ?e ?f = _ => refine (step_ok _ _ e _ f _ eq_refl _); same_steps
  | |- _ => reflexivity
  end.
Ltac limbs16 a := let a := constr:(a) in
  destruct a as [|?a a]; [reflexivity|]; destruct a as [|?a a]; [reflexivity|]; destruct a as [|?a a]; [reflexivity|]; destruct a as [|?a a]; [reflexivity|];
  destruct a as [|?a a]; [reflexivity|]; destruct a as [|?a a]; [reflexivity|]; destruct a as [|?a a]; [reflexivity|]; destruct a as [|?a a]; [reflexivity|];
  destruct a as [|?a a]; [reflexivity|]; destruct a as [|?a a]; [reflexivity|]; destruct a as [|?a a]; [reflexivity|]; destruct a as [|?a a]; [reflexivity|];
  destruct a as [|?a a]; [reflexivity|]; destruct a as [|?a a]; [reflexivity|]; destruct a as [|?a a]; [reflexivity|]; destruct a as [|?a a]; [reflexivity|];
  destruct a as [|? ?]; [|reflexivity].
Lemma e_mul28 : forall a b, P1 mul28S a b = mul28 a b.
Proof. intros a b. limbs16 a. limbs16 b. unfold mul28S, mul28. same_steps. Qed.
Lemma e_square28 : forall a, P1 square28S a = square28 a. Proof. reflexivity. Qed.
Lemma e_from_bytes28 : P1 from_bytes28S = from_bytes28. Proof. reflexivity. Qed.
Lemma e_to_bytes_loop : P1 to_bytes_loopS = to_bytes_loop. Proof. reflexivity. Qed.
Lemma e_to_bytes28 : forall a, P1 to_bytes28S a = to_bytes28 a.
Proof. intro a. change (to_bytes28S panics plain a) with (bind (strong_reduce28S panics plain a) to_bytes_loop). rewrite e_strong_reduce28. reflexivity. Qed.
Lemma e_is_negative28 : forall a, P1 is_negative28S a = is_negative28 a.
Proof. intro a. change (is_negative28S panics plain a) with (bind (to_bytes28S panics plain a) (fun b => Ok (Z.land (nth 0 b 0) 1 =? 1))). rewrite e_to_bytes28. reflexivity. Qed.
Lemma e_select28 : forall a b c, P1 conditional_select28S a b c = Ok (conditional_select28 a b c).
Proof.
  induction a as [|x a IH]; intros [|y b] c; try reflexivity.
  change (conditional_select28S panics plain (x :: a) (y :: b) c) with (bind (selectS panics plain c x y) (fun z => bind (conditional_select28S panics plain a b c) (fun r => Ok (z :: r)))).
  rewrite e_selectS, IH. reflexivity.
Qed.
Lemma e_cond_negate28 : forall a c, P1 conditional_negate28S a c = conditional_negate28 a c.
Proof.
  intros a c. change (conditional_negate28S panics plain a c) with (bind (negate28 a) (fun n => conditional_select28S panics plain a n c)).
  refine (bind_ext _ _ _ _ _ _). intro n. apply e_select28.
Qed.

(** ** Scalars *)
Lemma e_sub_extra : P1 sub_extraS = sub_extra. Proof. reflexivity. Qed.
Lemma e_scalar_add : P1 scalar_addS = scalar_add. Proof. reflexivity. Qed.
Lemma e_scalar_sub : P1 scalar_subS = scalar_sub. Proof. reflexivity. Qed.
Lemma e_montgomery_multiply : P1 montgomery_multiplyS = montgomery_multiply. Proof. reflexivity. Qed.
Lemma e_scalar_mul : P1 scalar_mulS = scalar_mul. Proof. reflexivity. Qed.
Lemma e_halve_shift : forall s c, P1 halve_shift_loopS s c = Ok (shift_loop 1 s c).
Proof.
  induction s as [|x s IH]; intro c; [reflexivity|]. destruct s as [|y s]; [reflexivity|].
  change (halve_shift_loopS panics plain (x :: y :: s) c) with (bind (halve_shift_loopS panics plain (y :: s) c) (fun r => Ok (Z.lor (shr x 1) (shl_u 32 y 31) :: r))).
  rewrite IH. reflexivity.
Qed.
Lemma e_scalar_halve : forall s, P1 scalar_halveS s = scalar_halve s.
Proof.
  intro s. refine (bind_ext _ _ (halve_add_loop s MODULUS (wrap 32 (0 - Z.land (hd 0 s) 1)) 0) _ _ _). intros [r c]. exact (e_halve_shift r c).
Qed.
Lemma e_div_by_four : forall s, P1 scalar_div_by_fourS s = Ok (scalar_div_by_four s).
Proof.
  induction s as [|x s IH]; [reflexivity|]. destruct s as [|y s].
  - change (Ok [shr x 2] = Ok [Z.lor (shr x 2) (shl_u 32 0 30)]). change (shl_u 32 0 30) with 0. rewrite Z.lor_0_r. reflexivity.
  - change (scalar_div_by_fourS panics plain (x :: y :: s)) with (bind (scalar_div_by_fourS panics plain (y :: s)) (fun r => Ok (Z.lor (shl_u 32 y 30) (shr x 2) :: r))).
    rewrite IH, Z.lor_comm. reflexivity.
Qed.
Lemma e_from_bytes : forall n b, (length b <= n)%nat -> P1 scalar_from_bytesS b = Ok (scalar_from_bytes b).
Proof.
  induction n as [|n IH]; intros b Hb; destruct b as [|b0 [|b1 [|b2 [|b3 b]]]]; try reflexivity; [cbn in Hb; lia|].
  change (scalar_from_bytesS panics plain (b0 :: b1 :: b2 :: b3 :: b)) with
    (bind (scalar_from_bytesS panics plain b) (fun r => Ok (as_u32 (Z.lor (Z.lor (Z.lor b0 (shl_u 64 b1 8)) (shl_u 64 b2 16)) (shl_u 64 b3 24)) :: r))).
  rewrite IH by (apply le_S_n in Hb; cbn [length] in Hb |- *; refine (Nat.le_trans _ _ _ _ Hb); auto). reflexivity.
Qed.
Lemma e_scalar_from_bytes : forall b, P1 scalar_from_bytesS b = Ok (scalar_from_bytes b).
Proof. intro b. exact (e_from_bytes _ b (le_n _)). Qed.
Lemma e_scalar_to_bytes : forall s, P1 scalar_to_bytesS s = Ok (scalar_to_bytes s).
Proof.
  induction s as [|l s IH]; [reflexivity|].
  change (scalar_to_bytesS panics plain (l :: s)) with
    (bind (scalar_to_bytesS panics plain s) (fun r => Ok (as_u8 l :: as_u8 (shr l 8) :: as_u8 (shr (shr l 8) 8) :: as_u8 (shr (shr (shr l 8) 8) 8) :: r))).
  rewrite IH. reflexivity.
Qed.
Lemma e_reveal : forall l : list Z, reveal_all plain l = Ok l.
Proof. induction l as [|x l IH]; [reflexivity|]. change (reveal_all plain (x :: l)) with (bind (reveal_all plain l) (fun r => Ok (x :: r))). rewrite IH. reflexivity. Qed.
Lemma e_scalar_eqb : forall a b, P1 scalar_eqbS a b = Ok (scalar_eqb a b).
Proof. intros a b. unfold scalar_eqbS. cbn [andthen panics]. rewrite !e_scalar_to_bytes. cbn [bind]. apply e_ct_eq_slice. Qed.
Lemma e_tests : forall js (l : Z), P1 testsS js l = Ok (map (fun j => negb (Z.land l (shl_u 32 1 (Z.of_nat j)) =? 0)) js).
Proof.
  induction js as [|j js IH]; intro l; [reflexivity|].
  change (testsS panics plain (j :: js) l) with (bind (testsS panics plain js l) (fun r => Ok (negb (Z.land l (shl_u 32 1 (Z.of_nat j)) =? 0) :: r))). rewrite IH. reflexivity.
Qed.
Lemma e_scalar_bits : forall s, P1 scalar_bitsS s = Ok (scalar_bits s).
Proof.
  induction s as [|l s IH]; [reflexivity|].
  change (scalar_bitsS panics plain (l :: s)) with (bind (testsS panics plain (seq 0 32) l) (fun b => bind (scalar_bitsS panics plain s) (fun r => Ok (b ++ r)))).
  rewrite e_tests, IH. reflexivity.
Qed.
(** The source reads byte 55 only if byte 56 is zero. *)
Lemma e_scalar_canonical : forall b : list Z, length b = 57%nat -> P1 scalar_from_canonical_bytesS b = scalar_from_canonical_bytes b.
Proof.
  intros b Hb. unfold scalar_from_canonical_bytesS, scalar_from_canonical_bytes, indexS. change (@index (word plain)) with (@index Z).
  assert (H : forall i, 0 <= i < 57 -> exists x, index b i = Ok x).
  { intros i Hi. unfold index. destruct (nth_error b (Z.to_nat i)) as [x|] eqn:E; [exists x; destruct (i <? 0) eqn:F; [lia|reflexivity]|]. apply nth_error_None in E. lia. }
  destruct (H 56 ltac:(lia)) as [b56 E56]. destruct (H 55 ltac:(lia)) as [b55 E55]. rewrite E56, E55. cbn [andthen panics ret bind test plain test_z branch]. 
  destruct (negb (b56 =? 0)); [reflexivity|]. cbn [orb bind lift1 un un_z w_ret ret andthen].
  unfold lift1, w_ret. cbn [bind andthen ret panics]. change (un plain (UShr 6) b55) with (Ok (shr b55 6)). cbn [bind]. destruct (negb (shr b55 6 =? 0)); [reflexivity|]. rewrite e_scalar_from_bytes. cbn [bind].
  change (sub_extraS panics plain (scalar_from_bytes (firstn 56 b)) (map (lit plain) MODULUS) (lit plain 0)) with (sub_extra (scalar_from_bytes (firstn 56 b)) MODULUS 0).
  refine (bind_ext _ _ _ _ _ _). intro r. rewrite e_scalar_eqb. reflexivity.
Qed.
Lemma e_scalar_wide : forall b, P1 scalar_from_bytes_mod_order_wideS b = scalar_from_bytes_mod_order_wide b.
Proof.
  intro b. unfold scalar_from_bytes_mod_order_wideS. cbn [andthen panics]. rewrite !e_scalar_from_bytes. cbn [bind]. 
  reflexivity.
Qed.
Lemma e_nibbles : forall b, P1 nibblesS b = Ok (nibbles b).
Proof.
  induction b as [|x b IH]; [reflexivity|].
  change (nibblesS panics plain (x :: b)) with (bind (nibblesS panics plain b) (fun r => Ok (Z.land (shr x 0) 15 :: Z.land (shr x 4) 15 :: r))). rewrite IH. reflexivity.
Qed.
Lemma e_recenter : forall l x c, bind (i8_add x c) (fun y => P1 recenterS y l) = recenter (x :: l) c.
Proof.
  induction l as [|z l IH]; intros x c; [reflexivity|].
  change (recenter (x :: z :: l) c) with (bind (i8_add x c) (fun y => bind (i8_add y 8) (fun t => bind (i8_sub y (Z.shiftl (shr t 4) 4)) (fun d => bind (recenter (z :: l) (shr t 4)) (fun r => Ok (d :: r)))))).
  refine (bind_ext _ _ _ _ _ _). intro y.
  change (recenterS panics plain y (z :: l)) with
    (bind (bind (i8_add y 8) (fun t => Ok (shr t 4))) (fun c => bind (i8_sub y (Z.shiftl c 4)) (fun d => bind (i8_add z c) (fun z' => bind (recenterS panics plain z' l) (fun r => Ok (d :: r)))))).
  destruct (i8_add y 8) as [t|]; [|reflexivity]. cbn [bind]. refine (bind_ext _ _ _ _ _ _). intro d. rewrite <- IH. destruct (i8_add z (shr t 4)); reflexivity.
Qed.
Lemma e_to_radix_16 : forall s, P1 to_radix_16S s = to_radix_16 s.
Proof.
  intro s. unfold to_radix_16S, to_radix_16. cbn [andthen panics]. rewrite e_scalar_to_bytes. cbn [bind]. rewrite e_nibbles. cbn [bind].
  destruct (scalar_to_bytes s) as [|x b]; [reflexivity|]. cbn [nibbles app]. rewrite <- e_recenter.
  assert (E : i8_add (Z.land (shr x 0) 15) 0 = Ok (Z.land (shr x 0) 15)).
  { unfold i8_add. rewrite Z.add_0_r. change 15 with (Z.ones 4). rewrite Z.land_ones by lia. pose proof (Z.mod_pos_bound (shr x 0) (2 ^ 4) ltac:(lia)).
    apply chk_i_ok. change (2 ^ 4) with 16 in *. change (2 ^ (8 - 1)) with 128 in *. lia. }
  rewrite E. reflexivity.
Qed.

(** Inversion: the loop state is another record type. *)
Definition iv (st : inv_stateS panics plain) : inv_state :=
  {| iv_result := iv_resultS panics plain st; iv_residue := iv_residueS panics plain st; iv_trailing := iv_trailingS panics plain st; iv_started := iv_startedS panics plain st |}.
Definition res_map {A B} (f : A -> B) (r : res A) : res B := match r with Ok a => Ok (f a) | Panic => Panic end.
Lemma res_bind : forall A B C (h : B -> C) (m : res A) f g, (forall x, res_map h (f x) = g x) -> res_map h (bind m f) = bind m g.
Proof. intros A B C h [x|] f g H; [exact (H x)|reflexivity]. Qed.
Lemma e_inv_step : forall pre i st, res_map iv (inv_stepS panics plain pre i st) = inv_step pre i (iv st).
Proof.
  intros pre i [r re t s]. unfold inv_stepS, inv_step. cbn [iv_resultS iv_residueS iv_trailingS iv_startedS iv iv_result iv_residue iv_trailing iv_started].
  refine (res_bind _ _ _ iv _ _ _ _). intro x.
  assert (E : forall (C : Type) (g : Z -> res C), bind (match inv_bit i with Ok b => @ret panics Z b | Panic => @fail panics Z end) g = bind (inv_bit i) g) by (intros C g; destruct (inv_bit i); reflexivity).
  cbn [andthen panics]. rewrite E. clear E.
  refine (res_bind _ _ _ iv _ _ _ _). intro b. cbv zeta.
  assert (E : forall (A C : Type) (l : list A) k (g : A -> res C), bind (indexS (M := panics) l k) g = bind (index l k) g) by (intros A C l k g; unfold indexS; destruct (index l k); reflexivity).
  destruct (shr (Z.lor (shl_u 32 re 1) b) 3 =? 0).
  - destruct ((0 <? t) && (Z.land t 7 =? 0)); [|reflexivity]. rewrite E. refine (res_bind _ _ _ iv _ _ _ _). intro q. refine (res_bind _ _ _ iv _ _ _ _). reflexivity.
  - destruct ((0 <? Z.lor (shl_u 32 re 1) b) && (Z.land (Z.lor (shl_u 32 re 1) b) 7 =? 0)); [|reflexivity].
    rewrite E. refine (res_bind _ _ _ iv _ _ _ _). intro q. refine (res_bind _ _ _ iv _ _ _ _). reflexivity.
Qed.
Lemma e_inv_loop : forall n i pre st, res_map iv (inv_loopS panics plain n i pre st) = inv_loop n i pre (iv st).
Proof.
  induction n as [|n IH]; intros i pre st; [reflexivity|]. cbn [inv_loopS inv_loop andthen panics]. rewrite <- e_inv_step.
  destruct (inv_stepS panics plain pre i st); [apply IH|reflexivity].
Qed.
Local Opaque inv_loopS inv_loop montgomery_multiply montgomery_multiplyS.
Lemma e_scalar_invert : forall s, P1 scalar_invertS s = scalar_invert s.
Proof.
  intro s. unfold scalar_invertS, scalar_invert. change (inv_precompS panics plain s) with (inv_precomp s). destruct (inv_precomp s) as [pre|]; [|reflexivity]. cbn [bind andthen panics].
  pose proof (e_inv_loop 449 445 pre {| iv_resultS := map (lit plain) scalar_zero; iv_residueS := 0; iv_trailingS := 0; iv_startedS := false |}) as H.
  change (iv {| iv_resultS := map (lit plain) scalar_zero; iv_residueS := 0; iv_trailingS := 0; iv_startedS := false |})
    with {| iv_result := scalar_zero; iv_residue := 0; iv_trailing := 0; iv_started := false |} in H. rewrite <- H.
  match goal with |- context [inv_loopS ?a ?b ?c ?d ?e ?f] => destruct (inv_loopS a b c d e f) end; reflexivity.
Qed.
Local Transparent inv_loopS inv_loop montgomery_multiply montgomery_multiplyS.

(** ** Curves, over any backend *)
Definition plain_machine (B : backend) : machine panics B := mkMachine panics B
  (fe_add B) (fe_sub B) (fe_mul B) (fe_square B) (fe_negate B) (fe_strong_reduce B) (fe_select B) (fe_cond_negate B) (fe_is_negative B)
  (fe_from_bytes B) (fe_to_bytes B)
  (fun c => Ok c)
  (fun b => Ok (shr (last b 0) 7 =? 1))
  (fun c => Ok (shl_u 8 (Z.b2z c) 7))
  scalar_add scalar_sub scalar_mul scalar_invert scalar_halve scalar_from_canonical_bytes scalar_from_bytes_mod_order_wide
  (fun s => Ok (scalar_div_by_four s))
  (fun s => Ok (scalar_bits s))
  Z
  to_radix_16
  (fun s => Ok (Z.land (hd 0 s) 3))
  (fun d => t <- i8_add d (shr d 7) ;; Ok (as_u32 (Z.lxor t (shr d 7)), Z.land (shr d 7) 1))
  (fun s => Ok (as_u8 s =? 1))
  (fun d n => Ok (d =? n))
  (fun d n => Ok (d =? n))
  (fun a b => Ok (list_eqb a b)).

Section Curves.
Variable B : backend.
Local Notation K := (plain_machine B).
Local Notation P2 f := (f panics B K).
Lemma e_vb_loop : forall t ds r, P2 vb_loopS t ds r = vb_loop B t ds r.
Proof.
  intros t ds. induction ds as [|d ds IH]; intro r; [reflexivity|]. cbn [vb_loopS vb_loop andthen panics].
  refine (bind_ext _ _ (xt_double B r) _ _ _). clear r. intro r. refine (bind_ext _ _ (xt_double B r) _ _ _). clear r. intro r.
  refine (bind_ext _ _ (xt_double B r) _ _ _). clear r. intro r. refine (bind_ext _ _ (xt_double B r) _ _ _). clear r. intro r.
  cbn [m_digit_abs plain_machine]. destruct (i8_add d (shr d 7)) as [u|]; [|reflexivity]. cbn [bind m_digit_choice plain_machine andthen].
  refine (bind_ext _ _ (lookup_select B t (as_u32 (Z.lxor u (shr d 7)))) _ _ _). intro q.
  refine (bind_ext _ _ (pn_cond_negate B q (as_u8 (Z.land (shr d 7) 1) =? 1)) _ _ _). intro q'.
  refine (bind_ext _ _ (xt_add_projective_niels B r q') _ _ _). intro r'. apply IH.
Qed.
Lemma e_variable_base : forall P s, P2 variable_baseS P s = variable_base B P s.
Proof.
  intros P s. refine (bind_ext _ _ (to_radix_16 s) _ _ _). intro ds. refine (bind_ext _ _ (lookup_from B P) _ _ _). intro t.
  change (bind (P2 vb_loopS t (rev ds) (xt_identity B)) (xt_to_extended B) = bind (vb_loop B t (rev ds) (xt_identity B)) (xt_to_extended B)). rewrite e_vb_loop. reflexivity.
Qed.
Lemma e_ed_scalar_mul : forall P s, P2 ed_scalar_mulS P s = ed_scalar_mul B P s.
Proof.
  intros P s. refine (bind_ext _ _ (ed_to_twisted B P) _ _ _). intro t.
  change (bind (P2 variable_baseS t (scalar_div_by_four s)) (fun v => bind (tw_to_untwisted B v) (fun q => bind (ed_scalar_mod_four B P s) (fun r => ed_add B q r)))
    = bind (variable_base B t (scalar_div_by_four s)) (fun v => bind (tw_to_untwisted B v) (fun q => bind (ed_scalar_mod_four B P s) (fun r => ed_add B q r)))).
  rewrite e_variable_base. reflexivity.
Qed.
Lemma e_torsion_free : forall P, P2 ed_is_torsion_freeS P = ed_is_torsion_free B P.
Proof. intro P. unfold ed_is_torsion_freeS, ed_is_torsion_free. rewrite e_ed_scalar_mul. reflexivity. Qed.
Lemma e_ed_decompress : forall b, P2 ed_decompressS b = ed_decompress B b.
Proof.
  intro b. unfold ed_decompressS, ed_preS, ed_decompress. cbn [andthen panics ret].
  change (m_from_bytes K) with (fe_from_bytes B). destruct (fe_from_bytes B (removelast b)) as [y|]; [|reflexivity]. cbn [bind].
  change (m_square K) with (fe_square B). destruct (fe_square B y) as [yy|]; [|reflexivity]. cbn [bind].
  change (m_mul K) with (fe_mul B). destruct (fe_mul B (EDWARDS_D B) yy) as [dyy|]; [|reflexivity]. cbn [bind].
  change (m_sub K) with (fe_sub B). destruct (fe_sub B (fe_one B) yy) as [n|]; [|reflexivity]. cbn [bind].
  destruct (fe_sub B (fe_one B) dyy) as [d|]; [|reflexivity]. cbn [bind].
  change (fe_sqrt_ratioS panics B K n d) with (fe_sqrt_ratio B n d). destruct (fe_sqrt_ratio B n d) as [[x r]|]; [|reflexivity]. cbn [bind m_branch plain_machine].
  destruct r; [|reflexivity]. cbn [negb]. unfold ed_postS. cbn [andthen panics m_sign plain_machine bind]. 
  change (m_is_negative K) with (fe_is_negative B). destruct (fe_is_negative B x) as [s|]; [|reflexivity]. cbn [bind].
  change (m_cond_negate K) with (fe_cond_negate B). destruct (fe_cond_negate B x (xorb (shr (last b 0) 7 =? 1) s)) as [x'|]; [|reflexivity]. cbn [bind]. reflexivity.
Qed.
Lemma e_dc_decompress : forall b, P2 dc_decompressS b = dc_decompress B b.
Proof.
  intro b. unfold dc_decompressS, dc_preS, dc_decompress. cbn [andthen panics ret].
  change (m_from_bytes K) with (fe_from_bytes B). destruct (fe_from_bytes B b) as [s|]; [|reflexivity]. cbn [bind].
  change (m_to_bytes K) with (fe_to_bytes B). destruct (fe_to_bytes B s) as [sb|]; [|reflexivity]. cbn [bind m_bytes_eq plain_machine].
  change (m_is_negative K) with (fe_is_negative B). destruct (fe_is_negative B s) as [n|] eqn:En; [|reflexivity]. cbn [bind m_branch plain_machine].
  destruct (list_eqb sb b); [|reflexivity]. cbn [negb bind]. change (m_is_negative K) with (fe_is_negative B). rewrite ?En. cbn [bind]. destruct n; [reflexivity|]. unfold dc_midS. cbn [andthen panics ret].
  change (m_square K) with (fe_square B). destruct (fe_square B s) as [ss|]; [|reflexivity]. cbn [bind].
  change (m_sub K) with (fe_sub B). destruct (fe_sub B (fe_one B) ss) as [u1|]; [|reflexivity]. cbn [bind].
  change (m_add K) with (fe_add B). destruct (fe_add B (fe_one B) ss) as [u2|]; [|reflexivity]. cbn [bind].
  destruct (fe_square B u1) as [u1s|]; [|reflexivity]. cbn [bind].
  change (m_mul K) with (fe_mul B). destruct (fe_mul B ss (NEG_FOUR_TIMES_TWISTED_D B)) as [t|]; [|reflexivity]. cbn [bind].
  destruct (fe_add B t u1s) as [v|]; [|reflexivity]. cbn [bind]. destruct (fe_mul B v u1s) as [t'|]; [|reflexivity]. cbn [bind].
  change (fe_inverse_square_rootS panics B K t') with (fe_inverse_square_root B t'). destruct (fe_inverse_square_root B t') as [[I_ ok]|]; [|reflexivity]. cbn [bind m_branch plain_machine].
  destruct ok; [|reflexivity]. cbn [negb]. unfold dc_postS. cbn [andthen panics ret].
  change (m_mul K) with (fe_mul B). change (m_add K) with (fe_add B). change (m_is_negative K) with (fe_is_negative B). change (m_cond_negate K) with (fe_cond_negate B).
  repeat match goal with |- bind (bind ?e _) _ = _ => destruct e; [cbn [bind]|reflexivity] end. reflexivity.
Qed.
Lemma e_obind : forall A C (r : res (option A)) (f g : A -> res (option C)), (forall a, f a = g a) -> obindS panics r f = obind r g.
Proof. intros A C [[a|]|] f g H; [exact (H a)|reflexivity|reflexivity]. Qed.
Lemma e_api_run : forall s (e : api s), P2 api_runS e = api_run B e.
Proof.
  induction e; cbn [api_runS api_run]; try reflexivity;
    repeat match goal with
    | IH : api_runS _ _ _ ?e = api_run B ?e |- context [api_runS _ _ _ ?e] => rewrite IH; clear IH
    | |- obindS _ _ _ = obind _ _ => apply e_obind; intro
    end; try reflexivity.
  all: first [apply H | apply e_ed_decompress | apply e_dc_decompress | unfold osomeS; rewrite e_ed_scalar_mul; reflexivity | unfold osomeS; rewrite e_torsion_free; reflexivity | idtac].
Qed.
End Curves.
