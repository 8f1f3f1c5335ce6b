(** How many bits the multiplication of the 32-bit backend takes. *)
Require Import ZArith List Bool Lia.
From Verif Require Import Base BaseProofs SpecParams FieldU32Model Wp FieldU32Mul Steps StepU32 StepPlain StepRelWords ReleaseLogic WidthSpec.
Import ListNotations.
Open Scope Z_scope.

(** What a narrow machine returns, a wider one returns as well. *)
Lemma chk_narrow_kept : forall w w' o x y v, w <= w' -> chk_narrow w o x y = Ok v -> chk_narrow w' o x y = Ok v.
Proof.
  intros w w' o x y v Hw. assert (L : 2 ^ (w - 1) <= 2 ^ (w' - 1)) by (apply Z.pow_le_mono_r; lia).
  assert (K : forall z, chk_i w z = Ok v -> chk_i w' z = Ok v).
  { intros z H. unfold chk_i in H. destruct ((- 2 ^ (w - 1) <=? z) && (z <? 2 ^ (w - 1))) eqn:E; [|discriminate H]. injection H as <-.
    apply andb_prop in E. destruct E as [E1 E2]. apply Z.leb_le in E1. apply Z.ltb_lt in E2. apply chk_i_ok. lia. }
  destruct o; intro H; try exact H; exact (K _ H).
Qed.
Definition Neq (w' w : Z) (x : word (narrow w')) (y : word (narrow w)) : Prop := x = y.
Lemma narrow_keeps : forall w w', w <= w' -> wcompat _ _ keeping (narrow w') (narrow w) (Neq w' w).
Proof.
  intros w w' Hw. constructor; intros; unfold Neq in *; subst; try reflexivity; try (eexists; split; reflexivity).
  - cbn [chk narrow]. unfold rl, keeping, keeps. destruct (chk_narrow w o x' y') eqn:E; [|exact I].
    exists a. split; [exact (chk_narrow_kept _ _ _ _ _ _ Hw E)|reflexivity].
  - cbn [guard narrow]. unfold rl, keeping, keeps. destruct (negb _); [exact I|]. exists tt. split; [reflexivity|exact I].
  - match goal with H : Sec _ _ _ |- _ => change (c = c') in H; subst end. eexists; split; reflexivity.
Qed.
Lemma narrow_mul : forall w w' a b c, w <= w' -> mul28S panics (narrow w) a b = Ok c -> mul28S panics (narrow w') a b = Ok c.
Proof.
  intros w w' a b c Hw E. assert (S : forall l : list Z, Forall2 (Neq w' w) l l) by (induction l; constructor; [reflexivity|assumption]).
  pose proof (p_mul28 _ _ keeping (narrow w') (narrow w) (Neq w' w) (narrow_keeps w w' Hw) a a b b (S a) (S b)) as H.
  unfold rl, keeping, keeps in H. rewrite E in H. destruct H as (d & -> & H). f_equal.
  clear - H. induction H as [|x y l l' H _ IH]; [reflexivity|]. unfold Neq in H. rewrite H, IH. reflexivity.
Qed.
Definition Peq (x : word plain) (y : word (narrow 128)) : Prop := x = y.
Lemma plain_keeps : wcompat _ _ keeping plain (narrow 128) Peq.
Proof.
  constructor; intros; unfold Peq in *; subst; try reflexivity; try (eexists; split; reflexivity).
  - cbn [chk narrow plain]. unfold rl, keeping, keeps. replace (chk_narrow 128 o x' y') with (chk_z o x' y') by (destruct o; reflexivity).
    destruct (chk_z o x' y') eqn:E; [|exact I]. exists a. split; reflexivity.
  - cbn [guard narrow plain]. unfold rl, keeping, keeps. destruct (negb _); [exact I|]. exists tt. split; [reflexivity|exact I].
  - match goal with H : Sec _ _ _ |- _ => change (c = c') in H; subst end. eexists; split; reflexivity.
Qed.
Lemma narrow_128 : forall a b c, mul28S panics (narrow 128) a b = Ok c -> mul28 a b = Ok c.
Proof.
  intros a b c E. assert (S : forall l : list Z, Forall2 Peq l l) by (induction l; constructor; [reflexivity|assumption]).
  pose proof (p_mul28 _ _ keeping plain (narrow 128) Peq plain_keeps a a b b (S a) (S b)) as H. rewrite e_mul28 in H.
  unfold rl, keeping, keeps in H. rewrite E in H. destruct H as (d & -> & H). f_equal.
  clear - H. induction H as [|x y l l' H _ IH]; [reflexivity|]. unfold Peq in H. rewrite H, IH. reflexivity.
Qed.

(** ** Intervals *)
(** Between [lo] and [hi] times the unit [U]. *)
Definition iv (U lo hi v : Z) : Prop := lo * U <= v <= hi * U.
Definition hold {A} (r : res A) (Q : A -> Prop) : Prop := match r with Ok v => Q v | Panic => False end.
Definition bo (U : Z) (e : run panics Z) (lo hi : Z) : Prop := hold (e : res Z) (iv U lo hi).
Definition fits (w U lo hi : Z) : bool := (- 2 ^ (w - 1) <=? lo * U) && (hi * U <? 2 ^ (w - 1)).
Lemma fits_ok : forall w U lo hi v, fits w U lo hi = true -> iv U lo hi v -> chk_i w v = Ok v.
Proof.
  intros w U lo hi v F [H1 H2]. apply andb_prop in F. destruct F as [F1 F2]. apply Z.leb_le in F1. apply Z.ltb_lt in F2. apply chk_i_ok. lia.
Qed.
Section Run.
(** Limbs are less than [L], sums of two of them, taken in u32, less than [L']. *)
Variables w L L' U K : Z.
Definition li (x : Z) : Prop := 0 <= x < L.
Definition lf (x : Z) : Prop := 0 <= x < L'.
Variable HU : L * L <= U.
Variable HK : L' * L' <= K * U.
Variable HL : forall x y, li x -> li y -> lf (wrap 32 (x + y)).
Variable HC : 2 ^ 28 <= U.
Variable HS : 64 * U < 2 ^ 28 * U.
Variable F1 : fits w U 0 1 = true.
Variable FK : fits w U 0 K = true.
Notation W := (narrow w).
Lemma bo_li : forall x y, li x -> li y -> bo U (lift2 (chk W CI128Mul) (w_ret (W := W) x) (w_ret (W := W) y)) 0 1.
Proof.
  intros x y Hx Hy. assert (I : iv U 0 1 (x * y)) by (unfold li, iv in *; nia). change (hold (chk_i w (x * y)) (iv U 0 1)). rewrite (fits_ok w U 0 1 _ F1 I). exact I.
Qed.
Lemma bo_lf : forall x y, lf x -> lf y -> bo U (lift2 (chk W CI128Mul) (w_ret (W := W) x) (w_ret (W := W) y)) 0 K.
Proof.
  intros x y Hx Hy. assert (I : iv U 0 K (x * y)) by (unfold lf, iv in *; nia). change (hold (chk_i w (x * y)) (iv U 0 K)). rewrite (fits_ok w U 0 K _ FK I). exact I.
Qed.
Lemma bo_add : forall e lo hi e' lo' hi', bo U e lo hi -> bo U e' lo' hi' -> fits w U (lo + lo') (hi + hi') = true ->
  bo U (lift2 (chk W CI128Add) e e') (lo + lo') (hi + hi').
Proof.
  intros e lo hi e' lo' hi' H H' F. unfold bo in *. destruct (e : res Z) as [x|]; [|destruct H]. destruct (e' : res Z) as [y|]; [|destruct H'].
  assert (I : iv U (lo + lo') (hi + hi') (x + y)) by (cbn in H, H'; unfold iv in *; lia).
  change (hold (chk_i w (x + y)) (iv U (lo + lo') (hi + hi'))). rewrite (fits_ok w U _ _ _ F I). exact I.
Qed.
Lemma bo_sub : forall e lo hi e' lo' hi', bo U e lo hi -> bo U e' lo' hi' -> fits w U (lo - hi') (hi - lo') = true ->
  bo U (lift2 (chk W CI128Sub) e e') (lo - hi') (hi - lo').
Proof.
  intros e lo hi e' lo' hi' H H' F. unfold bo in *. destruct (e : res Z) as [x|]; [|destruct H]. destruct (e' : res Z) as [y|]; [|destruct H'].
  assert (I : iv U (lo - hi') (hi - lo') (x - y)) by (cbn in H, H'; unfold iv in *; lia).
  change (hold (chk_i w (x - y)) (iv U (lo - hi') (hi - lo'))). rewrite (fits_ok w U _ _ _ F I). exact I.
Qed.
Lemma bo_var : forall z lo hi, iv U lo hi z -> bo U (ret (s := panics) z) lo hi.
Proof. intros. assumption. Qed.
Lemma bo_low : forall z, 0 <= z < 2 ^ 28 -> bo U (ret (s := panics) z) 0 1.
Proof. intros z H. change (iv U 0 1 z). unfold iv. lia. Qed.
Lemma bo_zero : bo U (ret (s := panics) 0) 0 0.
Proof. change (iv U 0 0 0). unfold iv. lia. Qed.

Lemma then_bo : forall A (e : run panics Z) lo hi (f : Z -> run panics A) Q, bo U e lo hi -> (forall z, iv U lo hi z -> hold (f z : res A) Q) -> hold (andthen e f : res A) Q.
Proof. intros A e lo hi f Q H G. unfold bo in H. destruct (e : res Z) as [z|]; [|destruct H]. exact (G z H). Qed.
Lemma then_fold : forall A x y (f : Z -> run panics A) Q, li x -> li y -> (forall z, lf z -> hold (f z : res A) Q) ->
  hold (andthen (lift2 (bin W (BAdd 32)) (w_ret (W := W) x) (w_ret (W := W) y)) f : res A) Q.
Proof. intros A x y f Q Hx Hy G. exact (G _ (HL x y Hx Hy)). Qed.
Lemma then_low : forall A z (f : Z -> run panics A) Q, (forall c, 0 <= c < 2 ^ 28 -> hold (f c : res A) Q) ->
  hold (andthen (lift1 (un W (UCast 32)) (lift2 (bin W BAnd) (w_ret (W := W) z) (w_ret (W := W) (lit W mask28)))) f : res A) Q.
Proof.
  intros A z f Q G. apply (G (wrap 32 (Z.land z mask28))). unfold mask28, wrap. rewrite land_mask by lia.
  pose proof (Z.mod_pos_bound z (2 ^ 28) ltac:(lia)). rewrite Z.mod_small; lia.
Qed.
Lemma then_shr : forall A z lo hi (f : Z -> run panics A) Q, iv U lo hi z -> (-64 <=? lo) && (hi <=? 64) = true -> (forall c, iv U (-1) 1 c -> hold (f c : res A) Q) ->
  hold (andthen (lift1 (un W (UShr 28)) (w_ret (W := W) z)) f : res A) Q.
Proof.
  intros A z lo hi f Q Hz B G. apply andb_prop in B. destruct B as [B1 B2]. apply Z.leb_le in B1, B2.
  apply (G (shr z 28)). rewrite shr_div by lia. unfold iv in *. assert (-64 * U <= z <= 64 * U) by nia.
  split; [apply Z.div_le_lower_bound; lia|apply Z.div_le_upper_bound; lia].
Qed.
Lemma then_u32 : forall A c (e : run panics Z) (f : Z -> run panics A) Q, 0 <= c < 2 ^ 28 -> hold (e : res Z) (fun d => 0 <= d < 2 ^ 28) -> (forall z, hold (f z : res A) Q) ->
  hold (andthen (lift2 (chk W CU32Add) (w_ret (W := W) c) e) f : res A) Q.
Proof.
  intros A c e f Q Hc He G. destruct (e : res Z) as [d|]; [|destruct He]. change (hold (bind (chk_u 32 (c + d)) f) Q). cbn in He.
  rewrite chk_u_ok by lia. exact (G _).
Qed.
End Run.

Ltac solve_bo H1 HK HC :=
  lazymatch goal with
  | |- bo _ (lift2 (chk _ CI128Add) _ _) _ _ => eapply bo_add; [solve_bo H1 HK HC|solve_bo H1 HK HC|vm_compute; reflexivity]
  | |- bo _ (lift2 (chk _ CI128Sub) _ _) _ _ => eapply bo_sub; [solve_bo H1 HK HC|solve_bo H1 HK HC|vm_compute; reflexivity]
  | |- bo _ (mS _ _ _ _) _ _ => first [eapply H1; eassumption | eapply HK; eassumption]
  | |- bo _ (lift2 (chk _ CI128Mul) _ _) _ _ => first [eapply H1; eassumption | eapply HK; eassumption]
  | |- bo _ (ret (lit _ 0)) _ _ => exact (bo_zero _)
  | |- bo _ (ret _) _ _ => first [eapply bo_var; eassumption | eapply (bo_low _ HC); assumption]
  end.
Ltac one H1 HK HF HC HS :=
  cbv zeta;
  lazymatch goal with
  | |- hold (andthen (lift2 (bin _ (BAdd 32)) _ _) _) _ => eapply HF; [eassumption|eassumption|]; intros ? ?; cbv beta
  | |- hold (andthen (lift1 (un _ (UCast 32)) _) _) _ => eapply then_low; intros ? ?; cbv beta
  | |- hold (andthen (lift1 (un _ (UShr 28)) _) _) _ => eapply (then_shr _ _ HC HS); [eassumption|vm_compute; reflexivity|]; intros ? ?; cbv beta
  | |- hold (andthen (lift2 (chk _ CU32Add) _ _) _) _ => eapply then_u32; [assumption|eapply then_low; intros ? ?; eassumption|]; intros ?; cbv beta
  | |- hold (andthen _ _) _ => eapply then_bo; [solve_bo H1 HK HC|]; intros ? ?; cbv beta
  end.
Ltac limbs F := repeat (let H := fresh "L" in apply Forall_cons_iff in F; destruct F as [H F]); clear F.

Ltac all_steps w L L' U K HF :=
  let M1 := fresh "M1" in let MK := fresh "MK" in let TF := fresh "TF" in let HC := fresh "HC" in let HS := fresh "HS" in
  assert (HC : 2 ^ 28 <= U) by (vm_compute; discriminate);
  assert (HS : 64 * U < 2 ^ 28 * U) by (vm_compute; reflexivity);
  pose proof (bo_li w L U ltac:(vm_compute; discriminate) HC HS eq_refl) as M1;
  pose proof (bo_lf w L' U K ltac:(vm_compute; discriminate) HC HS eq_refl) as MK;
  pose proof (then_fold w L L' HF) as TF;
  unfold mul28S; repeat one M1 MK TF HC HS; exact I.

(** Operands as they occur: 63 bits. *)
Lemma runs63 : forall a b, wf28 a -> wf28 b -> hold (mul28S panics (narrow 63) a b : res (list Z)) (fun _ => True).
Proof.
  intros a b Ha Hb.
  destruct (wf28_inv a Ha) as (a0&a1&a2&a3&a4&a5&a6&a7&a8&a9&a10&a11&a12&a13&a14&a15&->&Fa).
  destruct (wf28_inv b Hb) as (b0&b1&b2&b3&b4&b5&b6&b7&b8&b9&b10&b11&b12&b13&b14&b15&->&Fb).
  change (fun x => 0 <= x < limb_bound) with (li limb_bound) in Fa, Fb. clear Ha Hb. limbs Fa. limbs Fb.
  assert (HF : forall x y, li limb_bound x -> li limb_bound y -> lf (2 * limb_bound) (wrap 32 (x + y))).
  { unfold li, lf, limb_bound. intros x y Hx Hy. rewrite wrap_small by lia. lia. }
  all_steps 63 limb_bound (2 * limb_bound) (limb_bound * limb_bound) 4 HF.
Qed.
(** Any operands: 70 bits. *)
Lemma runs70 : forall a b, length a = 16%nat -> length b = 16%nat -> Forall (fun x => 0 <= x < 2 ^ 32) a -> Forall (fun x => 0 <= x < 2 ^ 32) b ->
  hold (mul28S panics (narrow 70) a b : res (list Z)) (fun _ => True).
Proof.
  intros a b Ha Hb Fa Fb.
  destruct (list16_inv a Ha) as (a0&a1&a2&a3&a4&a5&a6&a7&a8&a9&a10&a11&a12&a13&a14&a15&->).
  destruct (list16_inv b Hb) as (b0&b1&b2&b3&b4&b5&b6&b7&b8&b9&b10&b11&b12&b13&b14&b15&->).
  change (fun x => 0 <= x < 2 ^ 32) with (li (2 ^ 32)) in Fa, Fb. clear Ha Hb. limbs Fa. limbs Fb.
  assert (HF : forall x y, li (2 ^ 32) x -> li (2 ^ 32) y -> lf (2 ^ 32) (wrap 32 (x + y))) by (intros; apply Z.mod_pos_bound; reflexivity).
  all_steps 70 (2 ^ 32) (2 ^ 32) (2 ^ 32 * 2 ^ 32) 1 HF.
Qed.

Lemma enough : forall k w a b, k <= w <= 128 -> hold (mul28S panics (narrow k) a b : res (list Z)) (fun _ => True) ->
  exists c, mul28S panics (narrow w) a b = Ok c /\ mul28 a b = Ok c.
Proof.
  intros k w a b Hw H. destruct (mul28S panics (narrow k) a b) as [c|] eqn:E; [|destruct H]. exists c.
  split; [apply (narrow_mul k); [lia|exact E]|]. apply narrow_128, (narrow_mul k); [lia|exact E].
Qed.
Lemma too_narrow : forall k w a b, w <= k -> mul28S panics (narrow k) a b = Panic -> mul28S panics (narrow w) a b = Panic.
Proof.
  intros k w a b Hw H. destruct (mul28S panics (narrow w) a b) as [c|] eqn:E; [|reflexivity]. rewrite (narrow_mul w k _ _ _ Hw E) in H. discriminate H.
Qed.
Lemma full28_fails : forall w, w <= 62 -> mul28S panics (narrow w) full28 full28 = Panic.
Proof. intros w Hw. apply (too_narrow 62); [exact Hw|vm_compute; reflexivity]. Qed.
Lemma full32_fails : forall w, w <= 69 -> mul28S panics (narrow w) full32 full32 = Panic.
Proof. intros w Hw. apply (too_narrow 69); [exact Hw|vm_compute; reflexivity]. Qed.

Theorem bits_reduced : forall w, w <= 128 -> ((forall a b, wf28 a -> wf28 b -> exists c, mul28S panics (narrow w) a b = Ok c /\ mul28 a b = Ok c) <-> 63 <= w).
Proof.
  intros w Hw. split.
  - intro H. destruct (Z_le_gt_dec 63 w) as [L|L]; [exact L|].
    assert (W : wf28 full28) by (split; [reflexivity|]; repeat constructor; discriminate).
    destruct (H full28 full28 W W) as (c & E & _). rewrite (full28_fails w) in E by lia. discriminate E.
  - intros L a b Ha Hb. exact (enough 63 w a b (conj L Hw) (runs63 a b Ha Hb)).
Qed.
Theorem bits_any : forall w, w <= 128 -> ((forall a b, words16 a -> words16 b -> exists c, mul28S panics (narrow w) a b = Ok c /\ mul28 a b = Ok c) <-> 70 <= w).
Proof.
  intros w Hw. split.
  - intro H. destruct (Z_le_gt_dec 70 w) as [L|L]; [exact L|].
    assert (W : words16 full32) by (split; [reflexivity|]; repeat constructor; discriminate).
    destruct (H full32 full32 W W) as (c & E & _). rewrite (full32_fails w) in E by lia. discriminate E.
  - intros L a b [La Fa] [Lb Fb]. exact (enough 70 w a b (conj L Hw) (runs70 a b La Lb Fa Fb)).
Qed.
Lemma any_wrong : exists a b c, words16 a /\ words16 b /\ mul28 a b = Ok c /\ val28 c mod p <> (val28 a * val28 b) mod p.
Proof.
  exists full32, full32. eexists. assert (W : words16 full32) by (split; [reflexivity|]; repeat constructor; discriminate).
  split; [exact W|]. split; [exact W|]. split; [vm_compute; reflexivity|]. vm_compute. discriminate.
Qed.
