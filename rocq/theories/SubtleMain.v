(** Proofs for C74. *)
Require Import ZArith List Bool Lia.
From Verif Require Import Base BaseProofs FieldU32Model ScalarModel ScalarProofs2 Steps StepSubtle StepPlain SubtleModel.
Import ListNotations.
Open Scope Z_scope.

Lemma bit_choice : forall c : bool, choice_from (Z.b2z c) = Ok (Z.b2z c) /\ choice_bool (Z.b2z c) = Ok c.
Proof. intros []; split; reflexivity. Qed.
Lemma choice_ops : forall a b : bool,
  choice_and (Z.b2z a) (Z.b2z b) = Ok (Z.b2z (a && b)) /\ choice_or (Z.b2z a) (Z.b2z b) = Ok (Z.b2z (a || b)) /\
  choice_xor (Z.b2z a) (Z.b2z b) = Ok (Z.b2z (xorb a b)) /\ choice_not (Z.b2z a) = Ok (Z.b2z (negb a)).
Proof. intros [] []; repeat split; reflexivity. Qed.
Lemma choice_only : forall z, (exists c, choice_from z = Ok c) <-> exists b : bool, z = Z.b2z b.
Proof.
  intro z. unfold choice_from. split.
  - intros (c & H). destruct (Z.eqb_spec z 0) as [->|]; [exists false; reflexivity|]. destruct (Z.eqb_spec z 1) as [->|]; [exists true; reflexivity|]. discriminate H.
  - intros ([] & ->); eexists; reflexivity.
Qed.

(** ** Selection *)
Lemma mask_zero : forall w, mask_of w 0 = 0.
Proof. intro w. unfold mask_of, wrap. cbn [Z.opp]. destruct (Z.eq_dec (2 ^ w) 0) as [E|E]; [rewrite E; apply Zmod_0_r|apply Z.mod_0_l; exact E]. Qed.
Lemma mask_one : forall w z, 0 <= w -> 0 <= z < 2 ^ w -> Z.land (mask_of w 1) z = z.
Proof.
  intros w z Hw Hz. unfold mask_of, wrap. assert (E : (- 1) mod 2 ^ w = Z.ones w).
  { rewrite Z.ones_equiv. symmetry. apply Z.mod_unique with (q := -1); lia. }
  change (- (1)) with (-1) in *. rewrite E, Z.land_comm, Z.land_ones by exact Hw. apply Z.mod_small. exact Hz.
Qed.
Lemma lxor_range : forall w a b, 0 <= w -> 0 <= a < 2 ^ w -> 0 <= b < 2 ^ w -> 0 <= Z.lxor a b < 2 ^ w.
Proof.
  intros w a b Hw Ha Hb. assert (N : 0 <= Z.lxor a b) by (apply Z.lxor_nonneg; lia). split; [exact N|].
  destruct (Z.eq_dec (Z.lxor a b) 0) as [E|E]; [rewrite E; lia|]. apply Z.log2_lt_pow2; [lia|]. pose proof (Z.log2_lxor a b ltac:(lia) ltac:(lia)) as L.
  assert (Q : forall x, 0 <= x < 2 ^ w -> Z.log2 x < w \/ x = 0).
  { intros x Hx. destruct (Z.eq_dec x 0) as [->|Nx]; [right; reflexivity|left; apply Z.log2_lt_pow2; lia]. }
  destruct (Q a Ha) as [A|A], (Q b Hb) as [B|B]; try lia; subst; rewrite ?Z.lxor_0_l, ?Z.lxor_0_r in *; lia.
Qed.
Lemma lxor_back : forall a b, Z.lxor a (Z.lxor a b) = b.
Proof. intros a b. rewrite <- Z.lxor_assoc, Z.lxor_nilpotent, Z.lxor_0_l. reflexivity. Qed.
Theorem word_select_ok : forall w a b (c : bool), 0 <= w -> 0 <= a < 2 ^ w -> 0 <= b < 2 ^ w -> word_select w a b (Z.b2z c) = if c then b else a.
Proof.
  intros w a b [|] Hw Ha Hb; unfold word_select; cbn [Z.b2z].
  - rewrite mask_one by (exact Hw || apply lxor_range; assumption). apply lxor_back.
  - rewrite mask_zero, Z.land_0_l, Z.lxor_0_r. reflexivity.
Qed.
Theorem word_swap_ok : forall w a b (c : bool), 0 <= w -> 0 <= a < 2 ^ w -> 0 <= b < 2 ^ w -> word_swap w a b (Z.b2z c) = if c then (b, a) else (a, b).
Proof.
  intros w a b [|] Hw Ha Hb; unfold word_swap; cbn [Z.b2z]; cbv zeta.
  - rewrite mask_one by (exact Hw || apply lxor_range; assumption). rewrite lxor_back, (Z.lxor_comm a b), lxor_back. reflexivity.
  - rewrite mask_zero, Z.land_0_l, !Z.lxor_0_r. reflexivity.
Qed.
Theorem default_swap_ok : forall T (f : T -> T -> Z -> T), (forall a b (c : bool), f a b (Z.b2z c) = if c then b else a) ->
  forall a b (c : bool), default_assign T f a b (Z.b2z c) = (if c then b else a) /\ default_swap T f a b (Z.b2z c) = if c then (b, a) else (a, b).
Proof. intros T f H a b c. unfold default_swap, default_assign. rewrite !H. destruct c; split; reflexivity. Qed.

(** ** Comparison *)
Lemma word_ct_eq_ok : forall w a b, 0 < w -> 0 <= a < 2 ^ w -> 0 <= b < 2 ^ w -> word_ct_eq w a b = Ok (Z.b2z (a =? b)).
Proof.
  intros w a b Hw Ha Hb. pose proof (lxor_range w a b ltac:(lia) Ha Hb) as R. pose proof (e_ct_eqS w a b Hw) as E.
  change (Ok (Z.lxor (Base.shr (Z.lor (Z.lxor a b) (wrap w (0 - Z.lxor a b))) (w - 1)) 1 =? 1) = Ok (a =? b)) in E. injection E as E.
  unfold word_ct_eq. cbv zeta. assert (Wx : wrap w (Z.lxor a b) = Z.lxor a b) by (apply Z.mod_small; exact R). rewrite Wx.
  set (x := Z.lxor a b) in *. change (0 - x) with (- x) in E. set (y := shr (Z.lor x (wrap w (- x))) (w - 1)) in *.
  assert (Y : 0 <= y < 2).
  { subst y. unfold shr. rewrite Z.shiftr_div_pow2 by lia. assert (P : 2 ^ w = 2 * 2 ^ (w - 1)) by (rewrite <- Z.pow_succ_r by lia; f_equal; lia). assert (Q : 0 < 2 ^ (w - 1)) by (apply Z.pow_pos_nonneg; lia).
    assert (N : 0 <= wrap w (- x) < 2 ^ w) by (apply Z.mod_pos_bound; lia).
    assert (O : 0 <= Z.lor x (wrap w (- x)) < 2 ^ w).
    { split; [apply Z.lor_nonneg; lia|]. destruct (Z.eq_dec (Z.lor x (wrap w (- x))) 0) as [Z0|Z0]; [rewrite Z0; lia|].
      assert (Nn : 0 <= Z.lor x (wrap w (- x))) by (apply Z.lor_nonneg; lia). apply Z.log2_lt_pow2; [lia|]. rewrite Z.log2_lor by lia.
      assert (G : forall z, 0 <= z < 2 ^ w -> Z.log2 z < w). { intros z Hz. destruct (Z.eq_dec z 0) as [->|]; [rewrite Z.log2_nonpos; lia|apply Z.log2_lt_pow2; lia]. }
      apply Z.max_lub_lt; apply G; assumption. }
    split; [apply Z.div_pos; lia|]. apply Z.div_lt_upper_bound; lia. }
  assert (D : y = 0 \/ y = 1) by lia. rewrite <- E. destruct D as [D|D]; rewrite D; reflexivity.
Qed.
Theorem slice_ct_eq_ok : forall a b, Forall (fun x => 0 <= x < 256) a -> Forall (fun x => 0 <= x < 256) b -> slice_ct_eq a b = Ok (Z.b2z (list_eqb a b)).
Proof.
  assert (G : forall a b (c : bool), length a = length b -> Forall (fun x => 0 <= x < 256) a -> Forall (fun x => 0 <= x < 256) b -> slice_loop a b (Z.b2z c) = Ok (Z.b2z (c && list_eqb a b))).
  { induction a as [|x a IH]; intros [|y b] c L Ha Hb; try discriminate L; [rewrite andb_true_r; reflexivity|]. inversion Ha; inversion Hb; subst. cbn [slice_loop list_eqb].
    rewrite word_ct_eq_ok by (lia || assumption). cbn [bind]. replace (Z.land (Z.b2z c) (Z.b2z (x =? y))) with (Z.b2z (c && (x =? y))) by (destruct c, (x =? y); reflexivity).
    rewrite IH by (assumption || (injection L as L; exact L)). rewrite andb_assoc. reflexivity. }
  intros a b Ha Hb. unfold slice_ct_eq. destruct (Nat.eqb_spec (length a) (length b)) as [E|E]; cbn [negb].
  - pose proof (G a b true E Ha Hb) as K. cbn [Z.b2z] in K. rewrite K. cbn [bind andb]. destruct (list_eqb a b); reflexivity.
  - rewrite list_eqb_length by exact E. reflexivity.
Qed.

(** ** The steps of StepSubtle.v *)
Theorem steps_subtle : 
  (forall a b c, 0 <= a < 2 ^ 32 -> 0 <= b < 2 ^ 32 -> selectS panics plain c a b = Ok (word_select 32 a b (Z.b2z c))) /\
  (forall w a b, 0 < w -> 0 <= a < 2 ^ w -> 0 <= b < 2 ^ w -> ct_eqS panics plain w a b = bind (word_ct_eq w a b) choice_bool) /\
  (forall a b, Forall (fun x => 0 <= x < 256) a -> Forall (fun x => 0 <= x < 256) b -> ct_eq_sliceS panics plain a b = bind (slice_ct_eq a b) choice_bool).
Proof.
  split; [|split].
  - intros a b c Ha Hb. rewrite e_selectS, word_select_ok by (lia || assumption). reflexivity.
  - intros w a b Hw Ha Hb. rewrite e_ct_eqS, word_ct_eq_ok by assumption. cbn [bind]. rewrite (proj2 (bit_choice _)). reflexivity.
  - intros a b Ha Hb. rewrite e_ct_eq_slice, slice_ct_eq_ok by assumption. cbn [bind]. rewrite (proj2 (bit_choice _)). reflexivity.
Qed.

(** ** Words the crate makes into choices *)
Lemma low_bit : forall x, choice_from (Z.land x 1) = Ok (Z.b2z (Z.odd x)).
Proof. intro x. change 1 with (Z.ones 1) at 1. rewrite Z.land_ones by lia. change (2 ^ 1) with 2. rewrite Zmod_odd. destruct (Z.odd x); reflexivity. Qed.
Lemma top_bit : forall x, 0 <= x < 256 -> choice_from (shr x 7) = Ok (Z.b2z (128 <=? x)).
Proof.
  intros x Hx. unfold shr. rewrite Z.shiftr_div_pow2 by lia. change (2 ^ 7) with 128.
  destruct (Z.leb_spec 128 x) as [G|G]; [replace (x / 128) with 1 by (apply Z.div_unique with (r := x - 128); lia)|rewrite Z.div_small by lia]; reflexivity.
Qed.
Lemma digit_sign : forall d, - 128 <= d < 128 -> choice_from (as_u8 (Z.land (shr d 7) 1)) = Ok (Z.b2z (d <? 0)).
Proof.
  intros d Hd. unfold shr. rewrite Z.shiftr_div_pow2 by lia. change (2 ^ 7) with 128.
  destruct (Z.ltb_spec d 0) as [G|G]; [replace (d / 128) with (-1) by (apply Z.div_unique with (r := d + 128); lia)|rewrite Z.div_small by lia]; reflexivity.
Qed.

Theorem slice_equal : forall a b, Forall (fun x => 0 <= x < 256) a -> Forall (fun x => 0 <= x < 256) b ->
  (slice_ct_eq a b = Ok 1 <-> a = b) /\ (slice_ct_eq a b = Ok 0 <-> a <> b).
Proof.
  intros a b Ha Hb. rewrite slice_ct_eq_ok by assumption. pose proof (list_eqb_eq a b) as H. destruct (list_eqb a b); cbn [Z.b2z].
  - assert (E : a = b) by (apply H; reflexivity). split; split; intro X; [exact E|reflexivity|discriminate X|contradiction].
  - assert (E : a <> b) by (intro E; apply H in E; discriminate E). split; split; intro X; [discriminate X|contradiction|exact E|reflexivity].
Qed.
Theorem field_select_subtle : forall a b c, array 32 16 a -> array 32 16 b ->
  conditional_select28 a b c = map (fun xy => word_select 32 (fst xy) (snd xy) (Z.b2z c)) (combine a b).
Proof.
  intros a b c (_ & Ha) (_ & Hb). revert b Hb. induction Ha as [|x a Hx Ha IH]; intros b Hb; destruct Hb as [|y b Hy Hb]; try reflexivity.
  cbn [combine map fst snd]. rewrite <- IH by exact Hb. rewrite word_select_ok by (lia || assumption). reflexivity.
Qed.
Theorem digit_signs : forall s, is_scalar s -> exists d, to_radix_16 s = Ok d /\
  Forall (fun x => choice_from (as_u8 (Z.land (shr x 7) 1)) = Ok (Z.b2z (x <? 0))) d.
Proof.
  intros s Hs. destruct (to_radix_16_ok s Hs) as (d & E & Len & Fd & (k & Ek & Hk) & V). exists d. split; [exact E|].
  rewrite <- (firstn_skipn 112 d), Ek. apply Forall_app. split; [|constructor; [apply digit_sign; lia|constructor]].
  eapply Forall_impl; [|exact Fd]. intros x Hx. cbv beta in Hx. apply digit_sign. lia.
Qed.
