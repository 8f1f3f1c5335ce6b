(** Both multiplication routines compute [s]P on the valid points of the twisted curve. *)
Require Import ZArith List Bool Lia Ring Field.
From Verif Require Import Base BaseProofs SpecParams SpecField SpecCurve FieldTheory FieldBackend FieldModel BackendLaws FieldProofs Wp
  ScalarModel ScalarProofs ScalarProofs2 EdwardsTheory CurveTheory TwistedModel PointSpec TwistedProofs ScalarMulModel.
Import ListNotations.
Open Scope Z_scope.
Open Scope res_scope.
Local Opaque fadd fsub fmul fopp fdiv finv fpow of_Z padd.

(** ** Bits *)
Fixpoint bits_val (l : list bool) : Z :=
  match l with [] => 0 | b :: l' => Z.b2z b + 2 * bits_val l' end.
Definition bits_acc (l : list bool) (n : Z) : Z := fold_left (fun acc b => 2 * acc + Z.b2z b) l n.
Lemma bits_acc_rev : forall l n, bits_acc (rev l) n = bits_val l + 2 ^ Z.of_nat (length l) * n.
Proof.
  induction l as [|b l IH]; intro n; [cbn [rev bits_acc bits_val fold_left length Z.of_nat]; lia|].
  unfold bits_acc. cbn [rev]. rewrite fold_left_app. cbn [fold_left bits_val]. fold (bits_acc (rev l) n). rewrite IH. cbn [length].
  rewrite Nat2Z.inj_succ, Z.pow_succ_r by lia. ring.
Qed.
Lemma bits_val_spec : forall l v, 0 <= v < 2 ^ Z.of_nat (length l) ->
  (forall i, (i < length l)%nat -> nth i l false = Z.testbit v (Z.of_nat i)) -> bits_val l = v.
Proof.
  induction l as [|b l IH]; intros v Hv H.
  - cbn in *. lia.
  - cbn [bits_val]. cbn [length] in *. rewrite Nat2Z.inj_succ, Z.pow_succ_r in Hv by lia.
    assert (B0 : b = Z.odd v). { rewrite <- Z.bit0_odd. apply (H 0%nat). lia. }
    rewrite (IH (v / 2)).
    + rewrite B0. rewrite (Z.div_mod v 2) at 3 by lia. rewrite Zmod_odd. destruct (Z.odd v); cbn [Z.b2z]; lia.
    + split; [apply Z.div_pos; lia|apply Z.div_lt_upper_bound; lia].
    + intros i Hi. specialize (H (S i) ltac:(lia)). cbn [nth] in H. rewrite H. rewrite Nat2Z.inj_succ.
      rewrite <- Z.div2_div. rewrite Z.div2_spec, Z.shiftr_spec by lia. f_equal.
Qed.
Lemma scalar_bits_val : forall s, is_scalar s -> bits_acc (rev (scalar_bits s)) 0 = sval s.
Proof.
  intros s Hs. rewrite bits_acc_rev, Z.mul_0_r, Z.add_0_r. destruct (scalar_bits_ok 14 s Hs) as [Len N].
  apply bits_val_spec.
  - rewrite Len. change (Z.of_nat (32 * 14)) with 448. apply scalar_range. exact Hs.
  - rewrite Len. exact N.
Qed.

(** ** Signed digits *)
Definition digits_acc (l : list Z) (n : Z) : Z := fold_left (fun acc d => 16 * acc + d) l n.
Lemma digits_acc_rev : forall l n, digits_acc (rev l) n = eval 4 l + 16 ^ Z.of_nat (length l) * n.
Proof.
  induction l as [|d l IH]; intro n; [cbn [rev digits_acc eval fold_left length Z.of_nat]; lia|].
  unfold digits_acc. cbn [rev]. rewrite fold_left_app. cbn [fold_left eval]. fold (digits_acc (rev l) n). rewrite IH. cbn [length].
  rewrite Nat2Z.inj_succ, Z.pow_succ_r by lia. change (2 ^ 4) with 16. ring.
Qed.
Lemma digit_parts : forall d, -8 <= d <= 8 ->
  exists t, i8_add d (shr d 7) = Ok t /\ as_u32 (Z.lxor t (shr d 7)) = Z.abs d /\ (as_u8 (Z.land (shr d 7) 1) =? 1) = (d <? 0).
Proof.
  intros d Hd.
  assert (C : d = -8 \/ d = -7 \/ d = -6 \/ d = -5 \/ d = -4 \/ d = -3 \/ d = -2 \/ d = -1 \/ d = 0 \/ d = 1 \/ d = 2 \/ d = 3 \/
    d = 4 \/ d = 5 \/ d = 6 \/ d = 7 \/ d = 8) by lia.
  repeat (destruct C as [->|C]; [eexists; repeat split; reflexivity|]). subst d. eexists; repeat split; reflexivity.
Qed.

Section Mul.
Variable B : backend.
Hypothesis L : laws B.
Local Notation tw_rep := (tw_rep B).
Local Notation xt_rep := (xt_rep B).
Local Notation pn_rep := (pn_rep B).
Local Notation "n • P" := (pmul tw_a tw_d n P) (at level 40).
Local Notation "n ∘ P" := (zmul tw_a tw_d n P) (at level 40).

Lemma tw_rep_even : forall P Q, tw_rep P Q -> even_tw Q.
Proof. intros P Q H. apply H. Qed.

Lemma daa_loop_ok : forall point Q, tw_rep point Q -> forall bits n R, 0 <= n -> tw_rep R (n • Q) ->
  okp (daa_loop B point bits R) (fun R' => tw_rep R' (bits_acc bits n • Q)).
Proof.
  intros point Q HP. pose proof (tw_rep_even _ _ HP) as HQ. induction bits as [|b bits IH]; intros n R Hn HR.
  - apply okp_ret. exact HR.
  - cbn [daa_loop]. eapply okp_bind; [apply (tw_double_ok B L); exact HR|]. intros R1 H1.
    rewrite (tw_select_ok B L _ _ _ _ b (tw_identity_rep B L) HP). cbn [bind].
    rewrite <- (pmul_add _ _ _ tw_group) in H1 by assumption.
    eapply okp_bind.
    + apply (tw_add_ok B L R1 _ _ (Z.b2z b • Q) H1). destruct b; cbn [Z.b2z].
      * rewrite pmul_1. exact HP.
      * apply (tw_identity_rep B L).
    + intros R2 H2. rewrite <- (pmul_add _ _ _ tw_group) in H2 by (try assumption; destruct b; cbn [Z.b2z]; lia).
      replace (n + n + Z.b2z b) with (2 * n + Z.b2z b) in H2 by ring. cbn [bits_acc fold_left]. apply IH; [|exact H2].
      destruct b; cbn [Z.b2z]; lia.
Qed.
Theorem double_and_add_ok : forall point Q s, tw_rep point Q -> is_scalar s ->
  okp (double_and_add B point s) (fun R => tw_rep R (sval s • Q)).
Proof.
  intros point Q s HP Hs. unfold double_and_add. rewrite <- (scalar_bits_val s Hs). apply daa_loop_ok; [exact HP|lia|].
  apply (tw_identity_rep B L).
Qed.

(** ** The lookup table *)
Lemma table_loop_ok : forall P Q, xt_rep P Q -> forall n k prev, 1 <= k -> pn_rep prev (k • Q) ->
  okp (table_loop B n P prev) (fun t => length t = S n /\
    forall i, (i <= n)%nat -> pn_rep (nth i t prev) ((k + Z.of_nat i) • Q)).
Proof.
  intros P Q HP. assert (HQ : even_tw Q) by apply HP. induction n as [|n IH]; intros k prev Hk Hprev.
  - apply okp_ret. split; [reflexivity|]. intros i Hi. replace i with 0%nat by lia. cbn. rewrite Z.add_0_r. exact Hprev.
  - cbn [table_loop]. eapply okp_bind; [apply (xt_add_projective_niels_ok B L _ _ _ _ HP Hprev)|]. intros s Hs.
    eapply okp_bind; [apply (xt_to_projective_niels_ok B L _ _ Hs)|]. intros next Hn.
    rewrite <- pmul_succ in Hn by lia. eapply okp_bind; [apply (IH (k + 1) next); [lia|exact Hn]|].
    intros rest [Len Hrest]. apply okp_ret. split; [cbn [length]; lia|]. intros [|i] Hi.
    + cbn [nth]. rewrite Z.add_0_r. exact Hprev.
    + cbn [nth]. replace (k + Z.of_nat (S i)) with (k + 1 + Z.of_nat i) by lia.
      rewrite (nth_indep rest prev next) by lia. apply Hrest. lia.
Qed.
Definition table_ok (t : list (PNiels B)) (Q : point) : Prop :=
  length t = 8%nat /\ forall i d, (i < 8)%nat -> pn_rep (nth i t d) ((1 + Z.of_nat i) • Q).
Lemma lookup_from_ok : forall P Q, tw_rep P Q -> okp (lookup_from B P) (fun t => table_ok t Q).
Proof.
  intros P Q HP. unfold lookup_from. pose proof (tw_to_extensible_ok B L P Q HP) as HX.
  eapply okp_bind; [apply (xt_to_projective_niels_ok B L _ _ HX)|]. intros first Hf.
  eapply okp_weaken; [apply (table_loop_ok _ _ HX 7 1 first); [lia|rewrite pmul_1; exact Hf]|].
  intros t [Len Ht]. split; [exact Len|]. intros i d Hi. rewrite (nth_indep t d first) by lia. apply Ht. lia.
Qed.

Definition pn_tight (N : PNiels B) : Prop :=
  fe_tight B (pnYpX N) /\ fe_tight B (pnYmX N) /\ fe_tight B (pnTd N) /\ fe_tight B (pnZ N).
Lemma pn_rep_tight : forall N Q, pn_rep N Q -> pn_tight N. Proof. intros N Q H. apply H. Qed.
Lemma select_loop_ok : forall t i k r, Forall pn_tight t -> pn_tight r ->
  select_loop B t i k r = Ok (if (i <=? k) && (k <? i + Z.of_nat (length t)) then nth (Z.to_nat (k - i)) t r else r).
Proof.
  induction t as [|e t IH]; intros i k r Ft Tr.
  - cbn [select_loop length Z.of_nat]. rewrite Z.add_0_r. destruct (Z.leb_spec i k), (Z.ltb_spec k i); try lia; reflexivity.
  - inversion Ft as [|? ? Te Ft']; subst. cbn [select_loop length]. rewrite (pn_select_ok B L r e (k =? i) Tr Te). cbn [bind].
    rewrite IH; [|exact Ft'|destruct (k =? i); assumption]. f_equal. rewrite Nat2Z.inj_succ.
    destruct (Z.eqb_spec k i) as [->|N].
    + destruct (Z.leb_spec (i + 1) i); [lia|]. cbn [andb]. destruct (Z.leb_spec i i); [|lia].
      destruct (Z.ltb_spec i (i + Z.succ (Z.of_nat (length t)))); [|lia]. rewrite Z.sub_diag. reflexivity.
    + destruct (Z.leb_spec i k), (Z.leb_spec (i + 1) k); try lia; cbn [andb]; [|reflexivity].
      destruct (Z.ltb_spec k (i + 1 + Z.of_nat (length t))), (Z.ltb_spec k (i + Z.succ (Z.of_nat (length t)))); try lia; try reflexivity.
      replace (Z.to_nat (k - i)) with (S (Z.to_nat (k - (i + 1)))) by lia. reflexivity.
Qed.
Lemma lookup_select_ok : forall t Q k, table_ok t Q -> 0 <= k <= 8 -> okp (lookup_select B t k) (fun N => pn_rep N (k • Q)).
Proof.
  intros t Q k [Len Ht] Hk. unfold lookup_select. eapply okp_bind; [apply (pn_identity_ok B L)|]. intros r Hr.
  rewrite select_loop_ok.
  - rewrite Len. apply okp_ret. destruct (Z.leb_spec 1 k).
    + destruct (Z.ltb_spec k (1 + Z.of_nat 8)); [|lia]. cbn [andb].
      replace k with (1 + Z.of_nat (Z.to_nat (k - 1))) at 2 by lia. apply Ht. lia.
    + cbn [andb]. replace k with 0 by lia. exact Hr.
  - apply Forall_forall. intros e He. apply (In_nth _ _ r) in He. destruct He as (i & Hi & <-). rewrite Len in Hi.
    eapply pn_rep_tight. apply Ht. exact Hi.
  - eapply pn_rep_tight. exact Hr.
Qed.

(** ** The window method *)
Lemma zmul_even : forall n Q, even_tw Q -> even_tw (n ∘ Q).
Proof. intros n Q H. apply (zmul_S _ _ _ tw_group). exact H. Qed.
Lemma xt_double_zmul : forall R Q n, even_tw Q -> xt_rep R (n ∘ Q) -> okp (xt_double B R) (fun R' => xt_rep R' ((2 * n) ∘ Q)).
Proof.
  intros R Q n HQ HR. eapply okp_weaken; [apply (xt_double_ok B L); exact HR|]. cbv beta. intros R' H.
  rewrite <- (zmul_add _ _ _ tw_group) in H by exact HQ. replace (2 * n) with (n + n) by ring. exact H.
Qed.
Lemma vb_loop_ok : forall t Q, even_tw Q -> table_ok t Q -> forall ds n R, Forall (fun d => -8 <= d <= 8) ds -> xt_rep R (n ∘ Q) ->
  okp (vb_loop B t ds R) (fun R' => xt_rep R' (digits_acc ds n ∘ Q)).
Proof.
  intros t Q HQ Ht. induction ds as [|d ds IH]; intros n R Hd HR.
  - apply okp_ret. exact HR.
  - inversion Hd as [|? ? Hd0 Hds]; subst. cbn [vb_loop].
    eapply okp_bind; [apply xt_double_zmul; eassumption|]. cbv beta. intros R1 H1.
    eapply okp_bind; [apply xt_double_zmul; eassumption|]. cbv beta. intros R2 H2.
    eapply okp_bind; [apply xt_double_zmul; eassumption|]. cbv beta. intros R3 H3.
    eapply okp_bind; [apply xt_double_zmul; eassumption|]. cbv beta. intros R4 H4.
    destruct (digit_parts d Hd0) as (tt & E1 & E2 & E3). rewrite E1. cbn [bind]. cbv zeta. rewrite E2, E3.
    eapply okp_bind; [apply (lookup_select_ok t Q (Z.abs d) Ht); lia|]. cbv beta. intros N HN.
    eapply okp_bind; [apply (pn_cond_negate_ok B L N _ (d <? 0) HN)|]. cbv beta. intros N' HN'.
    assert (E : (if d <? 0 then pneg (Z.abs d • Q) else Z.abs d • Q) = d ∘ Q).
    { unfold zmul. destruct (Z.ltb_spec d 0); [rewrite Z.abs_neq by lia|rewrite Z.abs_eq by lia]; reflexivity. }
    rewrite E in HN'. eapply okp_bind; [apply (xt_add_projective_niels_ok B L _ _ _ _ H4 HN')|]. cbv beta. intros R5 H5.
    rewrite <- (zmul_add _ _ _ tw_group) in H5 by exact HQ. cbn [digits_acc fold_left]. apply IH; [exact Hds|].
    replace (16 * n + d) with (2 * (2 * (2 * (2 * n))) + d) by ring. exact H5.
Qed.
Theorem variable_base_ok : forall point Q s, tw_rep point Q -> is_scalar s ->
  okp (variable_base B point s) (fun R => tw_rep R (sval s • Q)).
Proof.
  intros point Q s HP Hs. pose proof (tw_rep_even _ _ HP) as HQ. unfold variable_base.
  destruct (to_radix_16_ok s Hs) as (d & E & Len & Fd & (k & Ek & Hk) & V). rewrite E. cbn [bind].
  eapply okp_bind; [apply lookup_from_ok; exact HP|]. intros t Ht.
  eapply okp_bind.
  - apply (vb_loop_ok t Q HQ Ht (rev d) 0).
    + apply Forall_rev. rewrite <- (firstn_skipn 112 d). apply Forall_app. split.
      * eapply Forall_impl; [|exact Fd]. cbv beta. intros; lia.
      * rewrite Ek. constructor; [lia|constructor].
    + rewrite zmul_nonneg by lia. apply (xt_identity_rep B L).
  - intros R HR. rewrite digits_acc_rev, Z.mul_0_r, Z.add_0_r, V in HR.
    rewrite zmul_nonneg in HR by (apply scalar_range; exact Hs). apply (xt_to_extended_ok B L). exact HR.
Qed.

End Mul.
