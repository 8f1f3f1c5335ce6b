(** How many bits the strong reduction and the serialisation of the 32-bit backend take. *)
Require Import ZArith List Bool Lia.
From Verif Require Import Base BaseProofs SpecParams FieldU32Model Wp FieldU32Mul FieldU32Proofs Steps StepU32 StepPlain StepRelWords ReleaseLogic WidthSpec RoomSpec RoomMain WidthScalarSpec WidthScalar.
Import ListNotations.
Open Scope Z_scope.

Lemma chk_u_same : forall w w' z, 0 <= z < 2 ^ w -> w <= w' -> chk_u w' z = chk_u w z.
Proof. intros w w' z H L. assert (2 ^ w <= 2 ^ w') by (apply Z.pow_le_mono_r; lia). rewrite !chk_u_ok by lia. reflexivity. Qed.
Lemma chk_i_same : forall w w' z, - 2 ^ (w - 1) <= z < 2 ^ (w - 1) -> w <= w' -> chk_i w' z = chk_i w z.
Proof. intros w w' z H L. assert (2 ^ (w - 1) <= 2 ^ (w' - 1)) by (apply Z.pow_le_mono_r; lia). rewrite !chk_i_ok by lia. reflexivity. Qed.
Lemma bind_first : forall A B (e e' : res A) (f : A -> res B), e = e' -> bind e f = bind e' f.
Proof. intros A B e e' f ->. reflexivity. Qed.
Lemma low28 : forall x, 0 <= Z.land x mask28 < 2 ^ 28. Proof. intros x. unfold mask28. rewrite land_mask by lia. apply Z.mod_pos_bound. lia. Qed.

Section Same.
Variables u i r : Z.
Hypothesis Hu : 29 <= u <= 64.
Hypothesis Hi : 29 <= i <= 64.
Definition k28 (k : Z) : Prop := 2 ^ 28 - 2 <= k < 2 ^ 28.
Lemma same_borrow : forall a ks c, Forall (fun x => 0 <= x < 2 ^ 28 + 16) a -> Forall k28 ks -> -1 <= c <= 0 ->
  borrow_chainS panics (short u i r) a ks c = borrow_chain a ks c /\
  forall v, borrow_chain a ks c = Ok v -> Forall (fun x => 0 <= x < 2 ^ 28) (fst v) /\ -1 <= snd v <= 0.
Proof.
  induction a as [|x a IH]; intros ks c Ha Hk Hc; destruct ks as [|k ks].
  { split; [reflexivity|]. intros v E. injection E as <-. split; [constructor|exact Hc]. }
  { split; [reflexivity|]. intros v E. discriminate E. }
  { split; [reflexivity|]. intros v E. discriminate E. }
  inversion Ha as [|? ? Hx Ha']; subst. inversion Hk as [|? ? Hk1 Hk']; subst. unfold k28 in Hk1.
  cbn [borrow_chain borrow_chainS]. open. unfold i64_sub, i64_add.
  rewrite (chk_i_same 29 i (x - k)), (chk_i_same 29 64 (x - k)), (chk_i_ok 29 (x - k)) by lia. open.
  rewrite (chk_i_same 29 i (c + (x - k))), (chk_i_same 29 64 (c + (x - k))), (chk_i_ok 29 (c + (x - k))) by lia. open.
  assert (D : -1 <= shr (c + (x - k)) 28 <= 0).
  { rewrite shr_div by lia. split; [apply Z.div_le_lower_bound; lia|apply Z.lt_succ_r, Z.div_lt_upper_bound; lia]. }
  destruct (IH ks _ Ha' Hk' D) as [E F]. split.
  - exact (bind_first _ _ _ _ _ E).
  - intros v. destruct (borrow_chain a ks _) as [[rs s]|]; [|discriminate]. cbn [bind]. intros G. injection G as <-. destruct (F _ eq_refl) as [F1 F2]. cbn [fst snd] in *.
    split; [constructor; [apply low28|exact F1]|exact F2].
Qed.
Lemma same_carry : forall a ms c, Forall (fun x => 0 <= x < 2 ^ 28) a -> Forall (fun x => 0 <= x < 2 ^ 28) ms -> 0 <= c <= 1 ->
  carry_chainS panics (short u i r) a ms c = carry_chain a ms c /\
  forall v, carry_chain a ms c = Ok v -> Forall (fun x => 0 <= x < 2 ^ 28) (fst v) /\ 0 <= snd v <= 1.
Proof.
  induction a as [|x a IH]; intros ks c Ha Hk Hc; destruct ks as [|k ks].
  { split; [reflexivity|]. intros v E. injection E as <-. split; [constructor|exact Hc]. }
  { split; [reflexivity|]. intros v E. discriminate E. }
  { split; [reflexivity|]. intros v E. discriminate E. }
  inversion Ha as [|? ? Hx Ha']; subst. inversion Hk as [|? ? Hk1 Hk']; subst.
  cbn [carry_chain carry_chainS]. open. unfold u64_add.
  rewrite (chk_u_same 29 u (x + k)), (chk_u_same 29 64 (x + k)), (chk_u_ok 29 (x + k)) by lia. open.
  rewrite (chk_u_same 29 u (c + (x + k))), (chk_u_same 29 64 (c + (x + k))), (chk_u_ok 29 (c + (x + k))) by lia. open.
  assert (D : 0 <= shr (c + (x + k)) 28 <= 1).
  { rewrite shr_div by lia. split; [apply Z.div_pos; lia|apply Z.lt_succ_r, Z.div_lt_upper_bound; lia]. }
  destruct (IH ks _ Ha' Hk' D) as [E F]. split.
  - exact (bind_first _ _ _ _ _ E).
  - intros v. destruct (carry_chain a ks _) as [[rs s]|]; [|discriminate]. cbn [bind]. intros G. injection G as <-. destruct (F _ eq_refl) as [F1 F2]. cbn [fst snd] in *.
    split; [constructor; [apply low28|exact F1]|exact F2].
Qed.
Lemma p_limbs_28 : Forall k28 p_limbs. Proof. unfold p_limbs, k28. repeat constructor; lia. Qed.
Lemma masked : forall m, 0 <= m < 2 ^ 28 -> 0 <= Z.land m 0xfffffffffffffffe < 2 ^ 28.
Proof. intros m H. pose proof (Z.land_nonneg m 0xfffffffffffffffe). assert (E : Z.land m 0xfffffffffffffffe = Z.land (Z.land m 0xfffffffffffffffe) mask28).
  { unfold mask28. rewrite <- Z.land_assoc, (Z.land_comm 0xfffffffffffffffe), Z.land_assoc, (land_mask m), Z.mod_small by lia. reflexivity. }
  rewrite E. apply low28.
Qed.
Definition strong_with (bc : list Z -> res (list Z * Z)) (cc : list Z -> list Z -> res (list Z * Z)) (w : Z) (b : list Z) : res (list Z) :=
  bind (bc b) (fun v => let '(d, s) := v in let m := Z.land (as_u32 s) mask28 in let m' := Z.land m 0xfffffffffffffffe in
  bind (cc d [m; m; m; m; m; m; m; m; m'; m; m; m; m; m; m; m]) (fun v => let '(e, c) := v in
  bind (if negb (c <? 2) then Panic else Ok tt) (fun _ => bind (chk_i w (c + s)) (fun t => bind (if negb (t =? 0) then Panic else Ok tt) (fun _ => Ok e))))).
Lemma strong_short : forall a, strong_reduce28S panics (short u i r) a =
  bind (weak_reduce28 a) (strong_with (fun b => borrow_chainS panics (short u i r) b p_limbs 0) (fun d ms => carry_chainS panics (short u i r) d ms 0) i).
Proof. reflexivity. Qed.
Lemma strong_plain : forall a, strong_reduce28 a = bind (weak_reduce28 a) (strong_with (fun b => borrow_chain b p_limbs 0) (fun d ms => carry_chain d ms 0) 64).
Proof. intros a. rewrite <- e_strong_reduce28. reflexivity. Qed.
Lemma same_strong : forall a, words16 a -> strong_reduce28S panics (short u i r) a = strong_reduce28 a /\
  forall v, strong_reduce28 a = Ok v -> Forall (fun x => 0 <= x < 2 ^ 28) v.
Proof.
  intros a Ha. rewrite strong_plain, strong_short. pose proof (weak_exact a Ha) as K. destruct (_ <? _) in K; [|rewrite K; split; [reflexivity|discriminate]].
  destruct K as (b & -> & [_ Hb] & _). cbn [bind]. unfold strong_with.
  destruct (same_borrow b p_limbs 0 Hb p_limbs_28 ltac:(lia)) as [E1 F1]. cbv beta. rewrite (bind_first _ _ _ _ _ E1). clear E1.
  destruct (borrow_chain b p_limbs 0) as [[d s]|]; [|split; [reflexivity|discriminate]]. destruct (F1 _ eq_refl) as [Hd Hs]. cbn [fst snd] in Hd, Hs. cbn [bind]. cbv zeta.
  set (m := Z.land (as_u32 s) mask28). assert (Hm : 0 <= m < 2 ^ 28) by apply low28. pose proof (masked m Hm) as Hm'.
  set (m' := Z.land m 0xfffffffffffffffe) in *. clearbody m m'.
  assert (Hms : Forall (fun x => 0 <= x < 2 ^ 28) [m; m; m; m; m; m; m; m; m'; m; m; m; m; m; m; m]) by (repeat (apply Forall_cons; [assumption|]); apply Forall_nil).
  destruct (same_carry d _ 0 Hd Hms ltac:(lia)) as [E2 F2]. rewrite (bind_first _ _ _ _ _ E2). clear E2.
  destruct (carry_chain d _ 0) as [[e c]|]; [|split; [reflexivity|discriminate]]. destruct (F2 _ eq_refl) as [He Hc]. cbn [fst snd] in He, Hc. cbn [bind].
  rewrite (chk_i_same 29 i (c + s)), (chk_i_same 29 64 (c + s)), (chk_i_ok 29 (c + s)) by lia. split; [reflexivity|].
  intros v. destruct (negb (c <? 2)); [discriminate|]. cbn [bind]. destruct (negb (c + s =? 0)); [discriminate|]. cbn [bind]. intros G. injection G as <-. exact He.
Qed.
Lemma same_push : forall n x, push_bytesS panics (short u i r) n x = push_bytesS panics plain n x.
Proof. induction n as [|n IH]; intros x; [reflexivity|]. exact (bind_first _ _ _ _ _ (IH _)). Qed.
Lemma same_loop : forall n a, (length a <= n)%nat -> 56 <= u -> Forall (fun x => 0 <= x < 2 ^ 28) a -> to_bytes_loopS panics (short u i r) a = to_bytes_loop a.
Proof.
  induction n as [|n IH]; intros a Hn H56 Ha; [destruct a; [reflexivity|cbn in Hn; lia]|].
  destruct a as [|x [|y a]]; [reflexivity|reflexivity|]. inversion Ha as [|? ? Hx Ha1]; subst. inversion Ha1 as [|? ? Hy Ha2]; subst. cbn in Hn.
  assert (S : Base.shl_u 64 y 28 = y * 2 ^ 28) by (unfold Base.shl_u, wrap; rewrite Z.shiftl_mul_pow2 by lia; apply Z.mod_small; lia).
  change (bind (chk_u u (x + Base.shl_u 64 y 28)) (fun l => bind (push_bytesS panics (short u i r) 7 l) (fun b => bind (to_bytes_loopS panics (short u i r) a) (fun t => Ok (b ++ t)))) =
    bind (chk_u 64 (x + Base.shl_u 64 y 28)) (fun l => bind (push_bytesS panics plain 7 l) (fun b => bind (to_bytes_loop a) (fun t => Ok (b ++ t))))).
  rewrite S, (chk_u_same 56 u), (chk_u_same 56 64), chk_u_ok by lia. cbn [bind]. rewrite (bind_first _ _ _ _ _ (same_push 7 _)). apply bind_ext. intros b. apply bind_first. apply IH; [lia|exact H56|exact Ha2].
Qed.
Lemma same_bytes : forall a, words16 a -> 56 <= u -> to_bytes28S panics (short u i r) a = to_bytes28 a.
Proof.
  intros a Ha H. rewrite <- e_to_bytes28. unfold to_bytes28S. destruct (same_strong a Ha) as [E F].
  change (bind (strong_reduce28S panics (short u i r) a) (to_bytes_loopS panics (short u i r)) = bind (strong_reduce28S panics plain a) to_bytes_loop).
  rewrite (bind_first _ _ _ _ _ E), (bind_first _ _ _ _ _ (e_strong_reduce28 a)). destruct (strong_reduce28 a) as [v|]; [|reflexivity]. cbn [bind].
  apply (same_loop (length v)); [apply Nat.le_refl|exact H|exact (F v eq_refl)].
Qed.
End Same.

(** ** Exactly the widths *)
Section Keep.
Variables u i r u' i' r' : Z.
Hypothesis HW : wider u i r u' i' r'.
Lemma k_strong : same (fun a _ => strong_reduce28S panics (short u' i' r') a) (fun a _ => strong_reduce28S panics (short u i r) a).
Proof. intros a b c E. cbv beta in *. keep (p_strong_reduce28 _ _ keeping _ _ _ (short_keeps u i r u' i' r' HW) a a (same_seq _ _ _ _ _ _ a)). Qed.
Lemma k_bytes : same (fun a _ => to_bytes28S panics (short u' i' r') a) (fun a _ => to_bytes28S panics (short u i r) a).
Proof. intros a b c E. cbv beta in *. keep (p_to_bytes28 _ _ keeping _ _ _ (short_keeps u i r u' i' r' HW) a a (same_seq _ _ _ _ _ _ a)). Qed.
End Keep.
Definition high28 : list Z := [0; 2 ^ 28 - 1; 0; 0; 0; 0; 0; 0; 0; 0; 0; 0; 0; 0; 0; 0].
Lemma n_strong_u : strong_reduce28S panics (short 28 64 8) zero28 = Panic. Proof. vm_compute. reflexivity. Qed.
Lemma n_strong_i : strong_reduce28S panics (short 64 28 8) zero28 = Panic. Proof. vm_compute. reflexivity. Qed.
Lemma n_bytes_u : to_bytes28S panics (short 55 64 8) high28 = Panic. Proof. vm_compute. reflexivity. Qed.
Lemma n_bytes_i : to_bytes28S panics (short 64 28 8) zero28 = Panic. Proof. vm_compute. reflexivity. Qed.
Lemma o_strong : strong_reduce28 zero28 = Ok zero28. Proof. vm_compute. reflexivity. Qed.
Lemma zero_room : forall L, 2 ^ 28 - 1 <= L -> room L zero28. Proof. intros L H. split; [reflexivity|]. unfold zero28. repeat (apply Forall_cons; [lia|]). apply Forall_nil. Qed.
Lemma high_room : forall L, 2 ^ 28 - 1 <= L -> room L high28. Proof. intros L H. split; [reflexivity|]. unfold high28. repeat (apply Forall_cons; [lia|]). apply Forall_nil. Qed.
Lemma room_words : forall L a, L < 2 ^ 32 -> room L a -> words16 a.
Proof. intros L a HL [H1 H2]. split; [exact H1|]. eapply Forall_impl; [|exact H2]. cbn. intros x. lia. Qed.
Ltac wide := unfold wider; lia.

Theorem strong_exact : forall L u i r, 2 ^ 28 - 1 <= L < 2 ^ 32 -> u <= 64 /\ i <= 64 /\ r <= 8 ->
  ((forall a, room L a -> strong_reduce28S panics (short u i r) a = strong_reduce28 a) <-> 29 <= u /\ 29 <= i).
Proof.
  intros L u i r HL (Hu & Hi & Hr). split.
  - intros H. pose proof (H zero28 (zero_room L ltac:(lia))) as E. rewrite o_strong in E. split.
    + destruct (Z_le_gt_dec 29 u) as [G|G]; [exact G|exfalso]. pose proof (k_strong u i r 28 64 8 ltac:(wide) _ [] _ E) as K. cbv beta in K. rewrite n_strong_u in K. discriminate K.
    + destruct (Z_le_gt_dec 29 i) as [G|G]; [exact G|exfalso]. pose proof (k_strong u i r 64 28 8 ltac:(wide) _ [] _ E) as K. cbv beta in K. rewrite n_strong_i in K. discriminate K.
  - intros (Gu & Gi) a Ha. apply same_strong; [lia|lia|]. apply (room_words L); [lia|exact Ha].
Qed.
Theorem bytes_exact : forall L u i r, 2 ^ 28 - 1 <= L < 2 ^ 32 -> u <= 64 /\ i <= 64 /\ r <= 8 ->
  ((forall a, room L a -> to_bytes28S panics (short u i r) a = to_bytes28 a) <-> 56 <= u /\ 29 <= i).
Proof.
  intros L u i r HL (Hu & Hi & Hr). split.
  - intros H. split.
    + pose proof (H high28 (high_room L ltac:(lia))) as E. assert (O : exists c, to_bytes28 high28 = Ok c) by (eexists; vm_compute; reflexivity). destruct O as (c & O). rewrite O in E.
      destruct (Z_le_gt_dec 56 u) as [G|G]; [exact G|exfalso]. pose proof (k_bytes u i r 55 64 8 ltac:(wide) _ [] _ E) as K. cbv beta in K. rewrite n_bytes_u in K. discriminate K.
    + pose proof (H zero28 (zero_room L ltac:(lia))) as E. assert (O : exists c, to_bytes28 zero28 = Ok c) by (eexists; vm_compute; reflexivity). destruct O as (c & O). rewrite O in E.
      destruct (Z_le_gt_dec 29 i) as [G|G]; [exact G|exfalso]. pose proof (k_bytes u i r 64 28 8 ltac:(wide) _ [] _ E) as K. cbv beta in K. rewrite n_bytes_i in K. discriminate K.
  - intros (Gu & Gi) a Ha. apply same_bytes; [lia|lia| |exact Gu]. apply (room_words L); [lia|exact Ha].
Qed.
