(** How many bits the scalar arithmetic takes. *)
Require Import ZArith List Bool Lia.
From Verif Require Import Base BaseProofs SpecParams ScalarModel ScalarProofs ScalarMain Wp Steps StepScalar StepPlain StepRelWords ReleaseLogic WidthScalarSpec.
Import ListNotations.
Open Scope Z_scope.

(** ** What a narrow machine returns, a wider one returns as well *)
Lemma chk_u_kept : forall w w' z v, w <= w' -> chk_u w z = Ok v -> chk_u w' z = Ok v.
Proof.
  intros w w' z v Hw H. assert (L : 2 ^ w <= 2 ^ w') by (apply Z.pow_le_mono_r; lia). unfold chk_u in H. destruct ((0 <=? z) && (z <? 2 ^ w)) eqn:E; [|discriminate H]. injection H as <-.
  apply andb_prop in E. destruct E as [E1 E2]. apply Z.leb_le in E1. apply Z.ltb_lt in E2. apply chk_u_ok. lia.
Qed.
Lemma chk_i_kept : forall w w' z v, w <= w' -> chk_i w z = Ok v -> chk_i w' z = Ok v.
Proof.
  intros w w' z v Hw H. assert (L : 2 ^ (w - 1) <= 2 ^ (w' - 1)) by (apply Z.pow_le_mono_r; lia). unfold chk_i in H. destruct ((- 2 ^ (w - 1) <=? z) && (z <? 2 ^ (w - 1))) eqn:E; [|discriminate H]. injection H as <-.
  apply andb_prop in E. destruct E as [E1 E2]. apply Z.leb_le in E1. apply Z.ltb_lt in E2. apply chk_i_ok. lia.
Qed.
Definition wider (u i r u' i' r' : Z) : Prop := u <= u' /\ i <= i' /\ r <= r'.
Lemma chk_short_kept : forall u i r u' i' r' o x y v, wider u i r u' i' r' -> chk_short u i r o x y = Ok v -> chk_short u' i' r' o x y = Ok v.
Proof. intros u i r u' i' r' o x y v (H1 & H2 & H3) H. destruct o; try exact H; cbn [chk_short] in *; first [exact (chk_u_kept _ _ _ _ H1 H)|exact (chk_i_kept _ _ _ _ H2 H)|exact (chk_i_kept _ _ _ _ H3 H)]. Qed.
Definition Seq (u i r u' i' r' : Z) (x : word (short u' i' r')) (y : word (short u i r)) : Prop := x = y.
Lemma short_keeps : forall u i r u' i' r', wider u i r u' i' r' -> wcompat _ _ keeping (short u' i' r') (short u i r) (Seq u i r u' i' r').
Proof.
  intros u i r u' i' r' Hw. constructor; intros; unfold Seq in *; subst; try reflexivity; try (eexists; split; reflexivity).
  - cbn [chk short]. unfold rl, keeping, keeps. destruct (chk_short u i r o x' y') eqn:E; [|exact I].
    exists a. split; [exact (chk_short_kept _ _ _ _ _ _ _ _ _ _ Hw E)|reflexivity].
  - cbn [guard short]. unfold rl, keeping, keeps. destruct (negb _); [exact I|]. exists tt. split; [reflexivity|exact I].
  - match goal with H : Sec _ _ _ |- _ => change (c = c') in H; subst end. eexists; split; reflexivity.
Qed.
Definition Peq (x : word plain) (y : word (short 64 64 8)) : Prop := x = y.
Lemma plain_keeps : wcompat _ _ keeping plain (short 64 64 8) Peq.
Proof.
  constructor; intros; unfold Peq in *; subst; try reflexivity; try (eexists; split; reflexivity).
  - cbn [chk short plain]. unfold rl, keeping, keeps. replace (chk_short 64 64 8 o x' y') with (chk_z o x' y') by (destruct o; reflexivity).
    destruct (chk_z o x' y') eqn:E; [|exact I]. exists a. split; reflexivity.
  - cbn [guard short plain]. unfold rl, keeping, keeps. destruct (negb _); [exact I|]. exists tt. split; [reflexivity|exact I].
  - match goal with H : Sec _ _ _ |- _ => change (c = c') in H; subst end. eexists; split; reflexivity.
Qed.
Lemma same_seq : forall u i r u' i' r' (l : list Z), Forall2 (Seq u i r u' i' r') l l. Proof. induction l; constructor; [reflexivity|assumption]. Qed.
Lemma same_peq : forall l : list Z, Forall2 Peq l l. Proof. induction l; constructor; [reflexivity|assumption]. Qed.
Lemma seq_same : forall u i r u' i' r' (l l' : list Z), Forall2 (Seq u i r u' i' r') l l' -> l = l'.
Proof. intros u i r u' i' r' l l' H. induction H as [|x y l l' H _ IH]; [reflexivity|]. unfold Seq in H. rewrite H, IH. reflexivity. Qed.
Lemma peq_same : forall l l' : list Z, Forall2 Peq l l' -> l = l'.
Proof. intros l l' H. induction H as [|x y l l' H _ IH]; [reflexivity|]. unfold Peq in H. rewrite H, IH. reflexivity. Qed.

(** A function of the scalars, on any machine. *)
Definition same (f : list Z -> list Z -> res (list Z)) (g : list Z -> list Z -> res (list Z)) : Prop := forall a b c, g a b = Ok c -> f a b = Ok c.
Ltac keep lem := let H := fresh in let d := fresh in
  pose proof lem as H; unfold rl, keeping, keeps in H; cbv beta in H; lazymatch goal with E : _ = Ok _ |- _ => rewrite E in H end; destruct H as (d & -> & H); f_equal; first [exact (seq_same _ _ _ _ _ _ _ _ H)|exact (peq_same _ _ H)].
Section Keep.
Variables u i r u' i' r' : Z.
Hypothesis HW : wider u i r u' i' r'.
Lemma k_add : same (scalar_addS panics (short u' i' r')) (scalar_addS panics (short u i r)).
Proof. intros a b c E. cbv beta in *. keep (p_scalar_add _ _ keeping _ _ _ (short_keeps u i r u' i' r' HW) a a b b (same_seq _ _ _ _ _ _ a) (same_seq _ _ _ _ _ _ b)). Qed.
Lemma k_sub : same (scalar_subS panics (short u' i' r')) (scalar_subS panics (short u i r)).
Proof. intros a b c E. cbv beta in *. keep (p_scalar_sub _ _ keeping _ _ _ (short_keeps u i r u' i' r' HW) a a b b (same_seq _ _ _ _ _ _ a) (same_seq _ _ _ _ _ _ b)). Qed.
Lemma k_mont : same (montgomery_multiplyS panics (short u' i' r')) (montgomery_multiplyS panics (short u i r)).
Proof. intros a b c E. cbv beta in *. keep (p_mont _ _ keeping _ _ _ (short_keeps u i r u' i' r' HW) a a b b (same_seq _ _ _ _ _ _ a) (same_seq _ _ _ _ _ _ b)). Qed.
Lemma k_mul : same (scalar_mulS panics (short u' i' r')) (scalar_mulS panics (short u i r)).
Proof. intros a b c E. cbv beta in *. keep (p_scalar_mul _ _ keeping _ _ _ (short_keeps u i r u' i' r' HW) a a b b (same_seq _ _ _ _ _ _ a) (same_seq _ _ _ _ _ _ b)). Qed.
Lemma k_halve : same (fun a _ => scalar_halveS panics (short u' i' r') a) (fun a _ => scalar_halveS panics (short u i r) a).
Proof. intros a b c E. cbv beta in *. keep (p_scalar_halve _ _ keeping _ _ _ (short_keeps u i r u' i' r' HW) a a (same_seq _ _ _ _ _ _ a)). Qed.
Lemma k_radix : same (fun a _ => to_radix_16S panics (short u' i' r') a) (fun a _ => to_radix_16S panics (short u i r) a).
Proof. intros a b c E. cbv beta in *. keep (p_to_radix_16 _ _ keeping _ _ _ (short_keeps u i r u' i' r' HW) a a (same_seq _ _ _ _ _ _ a)). Qed.
End Keep.
Lemma m_add : same scalar_add (scalar_addS panics (short 64 64 8)).
Proof. intros a b c E. cbv beta in *. rewrite <- e_scalar_add. keep (p_scalar_add _ _ keeping _ _ _ plain_keeps a a b b (same_peq a) (same_peq b)). Qed.
Lemma m_sub : same scalar_sub (scalar_subS panics (short 64 64 8)).
Proof. intros a b c E. cbv beta in *. rewrite <- e_scalar_sub. keep (p_scalar_sub _ _ keeping _ _ _ plain_keeps a a b b (same_peq a) (same_peq b)). Qed.
Lemma m_mont : same montgomery_multiply (montgomery_multiplyS panics (short 64 64 8)).
Proof. intros a b c E. cbv beta in *. rewrite <- e_montgomery_multiply. keep (p_mont _ _ keeping _ _ _ plain_keeps a a b b (same_peq a) (same_peq b)). Qed.
Lemma m_mul : same scalar_mul (scalar_mulS panics (short 64 64 8)).
Proof. intros a b c E. cbv beta in *. rewrite <- e_scalar_mul. keep (p_scalar_mul _ _ keeping _ _ _ plain_keeps a a b b (same_peq a) (same_peq b)). Qed.
Lemma m_halve : same (fun a _ => scalar_halve a) (fun a _ => scalar_halveS panics (short 64 64 8) a).
Proof. intros a b c E. cbv beta in *. rewrite <- e_scalar_halve. keep (p_scalar_halve _ _ keeping _ _ _ plain_keeps a a (same_peq a)). Qed.
Lemma m_radix : same (fun a _ => to_radix_16 a) (fun a _ => to_radix_16S panics (short 64 64 8) a).
Proof. intros a b c E. cbv beta in *. rewrite <- e_to_radix_16. keep (p_to_radix_16 _ _ keeping _ _ _ plain_keeps a a (same_peq a)). Qed.

(** ** Widths that are enough *)
Open Scope res_scope.
Definition in32s (l : list Z) : Prop := Forall (fun x => 0 <= x < 2 ^ 32) l.
Lemma cast32 : forall x, 0 <= wrap 32 x < 2 ^ 32. Proof. intros x. unfold wrap. apply Z.mod_pos_bound. lia. Qed.
Lemma land_low : forall x y, 0 <= x < 2 ^ 32 -> 0 <= Z.land x y < 2 ^ 32.
Proof.
  intros x y H. assert (E : Z.land x y = Z.land (Z.land x y) (Z.ones 32)).
  { rewrite <- Z.land_assoc, (Z.land_comm y), Z.land_assoc, (Z.land_ones x), Z.mod_small by lia. reflexivity. }
  rewrite E, Z.land_ones by lia. apply Z.mod_pos_bound. lia.
Qed.
Lemma shr32 : forall x, Z.shiftr x 32 = x / 2 ^ 32. Proof. intros x. apply Z.shiftr_div_pow2. lia. Qed.
Lemma okp_chk_u : forall w z (Q : Z -> Prop), 0 <= z < 2 ^ w -> Q z -> okp (chk_u w z) Q.
Proof. intros w z Q H K. rewrite chk_u_ok by exact H. apply okp_ret. exact K. Qed.
Lemma okp_chk_i : forall w z (Q : Z -> Prop), - 2 ^ (w - 1) <= z < 2 ^ (w - 1) -> Q z -> okp (chk_i w z) Q.
Proof. intros w z Q H K. rewrite chk_i_ok by exact H. apply okp_ret. exact K. Qed.
Lemma okp_then : forall {A B} (e : res A) (f : A -> res B) Q, okp e (fun a => okp (f a) Q) -> okp (bind e f) Q.
Proof. intros A B e f Q (a & -> & H). exact H. Qed.
Ltac open := cbn [andthen panics ret chk bin un word lit short w_ret lift1 lift2 chk_short bin_z un_z bind Base.bind].
Ltac shrink := unfold shr; rewrite shr32.
Section Enough.
Variable r : Z.
Lemma w_add_loop : forall i a b c, in32s a -> in32s b -> 0 <= c <= 1 ->
  okp (add_loopS panics (short 33 i r) a b c) (fun p => in32s (fst p) /\ 0 <= snd p <= 1).
Proof.
  intros i. induction a as [|x a IH]; intros b c Ha Hb Hc; [destruct b; apply okp_ret; repeat split; try constructor; cbn; lia|].
  destruct b as [|y b]; [apply okp_ret; repeat split; try constructor; cbn; lia|].
  inversion Ha as [|? ? Hx Ha']; subst. inversion Hb as [|? ? Hy Hb']; subst. cbn [add_loopS]. open.
  apply okp_then, okp_chk_u; [lia|]. open. apply okp_then, okp_chk_u; [lia|]. open. shrink.
  assert (D : 0 <= (c + (x + y)) / 2 ^ 32 <= 1) by (split; [apply Z.div_pos; lia|apply Z.lt_succ_r, Z.div_lt_upper_bound; lia]).
  apply okp_then. refine (okp_weaken _ _ _ (IH b _ Ha' Hb' D) _). intros [l o] (H1 & H2). apply okp_ret. cbn [fst snd] in *. split; [|exact H2]. constructor; [apply cast32|exact H1].
Qed.
Lemma w_sub_loop : forall u a b c, in32s a -> in32s b -> -1 <= c <= 0 ->
  okp (sub_loopS panics (short u 34 r) a b c) (fun p => in32s (fst p) /\ -1 <= snd p <= 0).
Proof.
  intros u. induction a as [|x a IH]; intros b c Ha Hb Hc; [destruct b; apply okp_ret; repeat split; try constructor; cbn; lia|].
  destruct b as [|y b]; [apply okp_ret; repeat split; try constructor; cbn; lia|].
  inversion Ha as [|? ? Hx Ha']; subst. inversion Hb as [|? ? Hy Hb']; subst. cbn [sub_loopS]. open.
  apply okp_then, okp_chk_i; [lia|]. open. apply okp_then, okp_chk_i; [lia|]. open. shrink.
  assert (D : -1 <= (c + (x - y)) / 2 ^ 32 <= 0) by (split; [apply Z.div_le_lower_bound; lia|apply Z.lt_succ_r, Z.div_lt_upper_bound; lia]).
  apply okp_then. refine (okp_weaken _ _ _ (IH b _ Ha' Hb' D) _). intros [l o] (H1 & H2). apply okp_ret. cbn [fst snd] in *. split; [|exact H2]. constructor; [apply cast32|exact H1].
Qed.
Lemma w_addback_loop : forall u a m k c, in32s a -> in32s m -> 0 <= c <= 1 ->
  okp (addback_loopS panics (short u 34 r) a m k c) in32s.
Proof.
  intros u. induction a as [|x a IH]; intros b k c Ha Hb Hc; [destruct b; apply okp_ret; constructor|].
  destruct b as [|y b]; [apply okp_ret; constructor|].
  inversion Ha as [|? ? Hx Ha']; subst. inversion Hb as [|? ? Hy Hb']; subst. cbn [addback_loopS]. open. pose proof (land_low y k Hy) as Hl.
  apply okp_then, okp_chk_i; [lia|]. open. apply okp_then, okp_chk_i; [lia|]. open. shrink.
  assert (D : 0 <= (c + (x + Z.land y k)) / 2 ^ 32 <= 1) by (split; [apply Z.div_pos; lia|apply Z.lt_succ_r, Z.div_lt_upper_bound; lia]).
  apply okp_then. refine (okp_weaken _ _ _ (IH b k _ Ha' Hb' D) _). intros l H1. apply okp_ret. constructor; [apply cast32|exact H1].
Qed.
Lemma MODULUS_in : in32s MODULUS. Proof. exact (proj2 MODULUS_scalar). Qed.
Lemma lits : forall u i (l : list Z), map (lit (short u i r)) l = l. Proof. intros u i. exact (map_id (A:=Z)). Qed.
Lemma w_sub_extra : forall u a b c, in32s a -> in32s b -> 0 <= c < 2 ^ 32 -> okp (sub_extraS panics (short u 34 r) a b c) in32s.
Proof.
  intros u a b c Ha Hb Hc. unfold sub_extraS. rewrite lits. apply okp_then. refine (okp_weaken _ _ _ (w_sub_loop u a b 0 Ha Hb ltac:(lia)) _). intros [l o] (H1 & H2).
  cbn [fst snd] in *. open. apply okp_then, okp_chk_i; [lia|]. apply w_addback_loop; [exact H1|exact MODULUS_in|cbn; lia].
Qed.
Lemma w_add : forall a b, in32s a -> in32s b -> okp (scalar_addS panics (short 33 34 r) a b) in32s.
Proof.
  intros a b Ha Hb. unfold scalar_addS. rewrite lits. apply okp_then. refine (okp_weaken _ _ _ (w_add_loop 34 a b 0 Ha Hb ltac:(lia)) _). intros [l o] (H1 & H2). open.
  apply w_sub_extra; [exact H1|exact MODULUS_in|apply cast32].
Qed.
Lemma w_sub : forall u a b, in32s a -> in32s b -> okp (scalar_subS panics (short u 34 r) a b) in32s.
Proof. intros u a b Ha Hb. apply w_sub_extra; [exact Ha|exact Hb|cbn; lia]. Qed.
Lemma w_mac_loop : forall i x y l c, 0 <= x < 2 ^ 32 -> in32s y -> in32s l -> 0 <= c < 2 ^ 32 ->
  okp (mac_loopS panics (short 64 i r) x y l c) (fun p => in32s (fst p) /\ 0 <= snd p < 2 ^ 32).
Proof.
  intros i x. induction y as [|v y IH]; intros b c Hx Ha Hb Hc; [destruct b; apply okp_ret; repeat split; try constructor; cbn; lia|].
  destruct b as [|w b]; [apply okp_ret; repeat split; try constructor; cbn; lia|].
  inversion Ha as [|? ? Hv Ha']; subst. inversion Hb as [|? ? Hw Hb']; subst. cbn [mac_loopS]. unfold mul_addS. open.
  assert (P : 0 <= x * v <= (2 ^ 32 - 1) * (2 ^ 32 - 1)) by (split; [apply Z.mul_nonneg_nonneg; lia|apply Z.mul_le_mono_nonneg; lia]).
  apply okp_then, okp_then, okp_chk_u; [lia|]. open. apply okp_chk_u; [lia|]. open. apply okp_then, okp_chk_u; [lia|]. open. shrink.
  assert (D : 0 <= (c + (x * v + w)) / 2 ^ 32 < 2 ^ 32) by (split; [apply Z.div_pos; lia|apply Z.div_lt_upper_bound; lia]).
  apply okp_then. refine (okp_weaken _ _ _ (IH b _ Hx Ha' Hb' D) _). intros [l o] (H1 & H2). apply okp_ret. cbn [fst snd] in *. split; [|exact H2]. constructor; [apply cast32|exact H1].
Qed.
Lemma w_mont_loop : forall i x y l c, in32s x -> in32s y -> in32s l -> 0 <= c < 2 ^ 32 ->
  okp (mont_loopS panics (short 64 i r) x y (l, c)) (fun p => in32s (fst p) /\ 0 <= snd p < 2 ^ 32).
Proof.
  intros i. induction x as [|xi x IH]; intros y l c Hx Hy Hl Hc; [apply okp_ret; split; [exact Hl|exact Hc]|].
  inversion Hx as [|? ? Hi Hx']; subst. cbn [mont_loopS]. unfold mont_stepS. rewrite lits. apply okp_then, okp_then.
  refine (okp_weaken _ _ _ (w_mac_loop i xi y l 0 Hi Hy Hl ltac:(lia)) _). intros [l1 o1] (H1 & H2). cbn [fst snd] in *. open.
  apply okp_then. refine (okp_weaken _ _ _ (w_mac_loop i _ MODULUS l1 0 (cast32 _) MODULUS_in H1 ltac:(lia)) _). intros [l2 o2] (H3 & H4). cbn [fst snd] in *. open.
  pose proof (cast32 o1) as C1. apply okp_then, okp_chk_u; [lia|]. open. apply okp_then, okp_chk_u; [lia|]. open. apply okp_ret.
  apply IH; [exact Hx'|exact Hy| |apply cast32]. apply Forall_app. split; [destruct H3; [constructor|assumption]|]. constructor; [apply cast32|constructor].
Qed.
Lemma w_mont : forall a b, in32s a -> in32s b -> okp (montgomery_multiplyS panics (short 64 34 r) a b) in32s.
Proof.
  intros a b Ha Hb. unfold montgomery_multiplyS. rewrite !lits. apply okp_then.
  refine (okp_weaken _ _ _ (w_mont_loop 34 a b scalar_zero 0 Ha Hb (proj2 (proj1 scalar_zero_ok)) ltac:(lia)) _). intros [l o] (H1 & H2).
  apply w_sub_extra; [exact H1|exact MODULUS_in|exact H2].
Qed.
Lemma w_mul : forall a b, in32s a -> in32s b -> okp (scalar_mulS panics (short 64 34 r) a b) in32s.
Proof.
  intros a b Ha Hb. unfold scalar_mulS. rewrite lits. apply okp_then. refine (okp_weaken _ _ _ (w_mont a b Ha Hb) _). intros l H. apply w_mont; [exact H|exact (proj2 (proj1 R2_ok))].
Qed.
Lemma w_halve_add : forall i a m k c, in32s a -> in32s m -> 0 <= c <= 1 ->
  okp (halve_add_loopS panics (short 33 i r) a m k c) (fun _ => True).
Proof.
  intros i. induction a as [|x a IH]; intros b k c Ha Hb Hc; [destruct b; apply okp_ret; exact I|].
  destruct b as [|y b]; [apply okp_ret; exact I|].
  inversion Ha as [|? ? Hx Ha']; subst. inversion Hb as [|? ? Hy Hb']; subst. cbn [halve_add_loopS]. open. pose proof (land_low y k Hy) as Hl.
  apply okp_then, okp_chk_u; [lia|]. open. apply okp_then, okp_chk_u; [lia|]. open. shrink.
  assert (D : 0 <= (c + (x + Z.land y k)) / 2 ^ 32 <= 1) by (split; [apply Z.div_pos; lia|apply Z.lt_succ_r, Z.div_lt_upper_bound; lia]).
  apply okp_then. refine (okp_weaken _ _ _ (IH b k _ Ha' Hb' D) _). intros [l o] _. apply okp_ret. exact I.
Qed.
Lemma w_halve_shift : forall u i l c, okp (halve_shift_loopS panics (short u i r) l c) (fun _ => True).
Proof.
  intros u i. induction l as [|x l IH]; intros c; [apply okp_ret; exact I|]. destruct l as [|y l]; [apply okp_ret; exact I|].
  cbn [halve_shift_loopS] in *. open. apply okp_then. refine (okp_weaken _ _ _ (IH c) _). intros l' _. apply okp_ret. exact I.
Qed.
Lemma w_halve : forall i a, in32s a -> okp (scalar_halveS panics (short 33 i r) a) (fun _ => True).
Proof.
  intros i a Ha. unfold scalar_halveS. rewrite lits. open. apply okp_then. refine (okp_weaken _ _ _ (w_halve_add i a MODULUS _ 0 Ha MODULUS_in ltac:(lia)) _). intros [l o] _. apply w_halve_shift.
Qed.
End Enough.
Lemma w_to_bytes : forall u i r l, okp (scalar_to_bytesS panics (short u i r) l) (fun _ => True).
Proof. intros u i r. induction l as [|x l IH]; [apply okp_ret; exact I|]. cbn [scalar_to_bytesS]. open. apply okp_then. refine (okp_weaken _ _ _ IH _). intros b _. apply okp_ret. exact I. Qed.
Definition nibble (x : Z) : Prop := 0 <= x <= 15.
Lemma land15 : forall x, nibble (Z.land x 15). Proof. intros x. change 15 with (Z.ones 4). rewrite Z.land_ones by lia. pose proof (Z.mod_pos_bound x (2 ^ 4) ltac:(lia)). unfold nibble. lia. Qed.
Lemma w_nibbles : forall u i r l, okp (nibblesS panics (short u i r) l) (Forall nibble).
Proof.
  intros u i r. induction l as [|x l IH]; [apply okp_ret; constructor|]. cbn [nibblesS]. open. apply okp_then. refine (okp_weaken _ _ _ IH _). intros b Hb. apply okp_ret.
  constructor; [apply land15|]. constructor; [apply land15|exact Hb].
Qed.
Lemma w_recenter : forall u i l x, 0 <= x <= 16 -> Forall nibble l -> okp (recenterS panics (short u i 6) x l) (fun _ => True).
Proof.
  intros u i. induction l as [|y l IH]; intros x Hx Hl; [apply okp_ret; exact I|]. inversion Hl as [|? ? Hy Hl']; subst. unfold nibble in Hy.
  cbn [recenterS]. open. apply okp_then, okp_then, okp_chk_i; [lia|]. open. unfold shr. rewrite Z.shiftr_div_pow2 by lia.
  assert (D : 0 <= (x + 8) / 2 ^ 4 <= 1) by (split; [apply Z.div_pos; lia|apply Z.lt_succ_r, Z.div_lt_upper_bound; lia]).
  apply okp_ret. apply okp_then, okp_chk_i; [rewrite ?Z.shiftl_mul_pow2 by lia; lia|]. apply okp_then, okp_chk_i; [lia|].
  apply okp_then. refine (okp_weaken _ _ _ (IH (y + (x + 8) / 2 ^ 4) ltac:(lia) Hl') _). intros b _. apply okp_ret. exact I.
Qed.
Lemma w_recenter_all : forall u i (l : list Z), Forall nibble l -> okp (match l with [] => @Ok (list Z) [] | x :: l' => recenterS panics (short u i 6) x l' end) (fun _ => True).
Proof. intros u i l H. destruct H as [|x l Hx Hl]; [apply okp_ret; exact I|]. apply w_recenter; [unfold nibble in Hx; lia|exact Hl]. Qed.
Lemma w_radix : forall u i a, okp (to_radix_16S panics (short u i 6) a) (fun _ => True).
Proof.
  intros u i a. unfold to_radix_16S. apply okp_then. refine (okp_weaken _ _ _ (w_to_bytes u i 6 a) _). intros b _. apply okp_then. refine (okp_weaken _ _ _ (w_nibbles u i 6 b) _). intros l Hl.
  apply w_recenter_all, Forall_app. split; [exact Hl|]. constructor; [unfold nibble; cbn; lia|constructor].
Qed.

(** ** Widths that are needed *)
Definition full : list Z := 0xab5844f1 :: tl MODULUS.
Lemma full_scalar : is_scalar full. Proof. split; [reflexivity|]. repeat constructor; cbn; lia. Qed.
Lemma full_small : forall B, ell <= B -> sval full < B. Proof. intros B H. apply Z.lt_le_trans with ell; [vm_compute; reflexivity|exact H]. Qed.
Lemma zero_small : forall B, ell <= B -> sval scalar_zero < B. Proof. intros B H. apply Z.lt_le_trans with ell; [vm_compute; reflexivity|exact H]. Qed.
Lemma one_small : forall B, ell <= B -> sval scalar_one < B. Proof. intros B H. apply Z.lt_le_trans with ell; [vm_compute; reflexivity|exact H]. Qed.
Lemma n_add_u : scalar_addS panics (short 32 64 8) full full = Panic. Proof. vm_compute. reflexivity. Qed.
Lemma n_add_i : scalar_addS panics (short 64 33 8) scalar_zero scalar_zero = Panic. Proof. vm_compute. reflexivity. Qed.
Lemma n_sub_i : scalar_subS panics (short 64 33 8) scalar_zero scalar_one = Panic. Proof. vm_compute. reflexivity. Qed.
Lemma n_mont_u : montgomery_multiplyS panics (short 63 64 8) full full = Panic. Proof. vm_compute. reflexivity. Qed.
Lemma n_mont_i : montgomery_multiplyS panics (short 64 33 8) scalar_zero scalar_zero = Panic. Proof. vm_compute. reflexivity. Qed.
Lemma n_mul_u : scalar_mulS panics (short 63 64 8) full full = Panic. Proof. vm_compute. reflexivity. Qed.
Lemma n_mul_i : scalar_mulS panics (short 64 33 8) scalar_zero scalar_zero = Panic. Proof. vm_compute. reflexivity. Qed.
Lemma n_halve_u : scalar_halveS panics (short 32 64 8) full = Panic. Proof. vm_compute. reflexivity. Qed.
Lemma n_radix : to_radix_16S panics (short 64 64 5) full = Panic. Proof. vm_compute. reflexivity. Qed.

(** ** Exactly the widths *)
Definition fits (u i r : Z) : Prop := u <= 64 /\ i <= 64 /\ r <= 8.
Lemma agreed : forall (f g : list Z -> list Z -> res (list Z)) h Q a b, same f h -> same g h -> okp (h a b) Q -> exists c, f a b = Ok c /\ g a b = Ok c.
Proof. intros f g h Q a b H K (c & E & _). exists c. split; [exact (H a b c E)|exact (K a b c E)]. Qed.
Lemma stuck : forall (f g : list Z -> list Z -> res (list Z)) h a b, same f h -> f a b = Panic -> ~ exists c, h a b = Ok c /\ g a b = Ok c.
Proof. intros f g h a b H E (c & K & _). apply H in K. rewrite E in K. discriminate K. Qed.
Ltac wide := unfold wider; lia.

Lemma add_exact : forall B u i r, ell <= B -> fits u i r ->
  ((forall a b, is_scalar a -> is_scalar b -> sval a < B -> sval b < B -> exists c, scalar_addS panics (short u i r) a b = Ok c /\ scalar_add a b = Ok c) <-> 33 <= u /\ 34 <= i).
Proof.
  intros B u i r HB (Hu & Hi & Hr). split.
  - intros H. split.
    + destruct (Z_le_gt_dec 33 u) as [L|G]; [exact L|exfalso]. refine (stuck _ scalar_add _ full full (k_add u i r 32 64 8 ltac:(wide)) n_add_u (H _ _ full_scalar full_scalar (full_small B HB) (full_small B HB))).
    + destruct (Z_le_gt_dec 34 i) as [L|G]; [exact L|exfalso]. pose proof (proj1 scalar_zero_ok) as Z0. refine (stuck _ scalar_add _ _ _ (k_add u i r 64 33 8 ltac:(wide)) n_add_i (H _ _ Z0 Z0 (zero_small B HB) (zero_small B HB))).
  - intros (Lu & Li) a b Ha Hb _ _. refine (agreed _ _ _ _ a b (k_add 33 34 r u i r ltac:(wide)) _ (w_add r a b (proj2 Ha) (proj2 Hb))). intros x y c E. exact (m_add x y c (k_add 33 34 r 64 64 8 ltac:(wide) x y c E)).
Qed.
Lemma sub_exact : forall B u i r, ell <= B -> fits u i r ->
  ((forall a b, is_scalar a -> is_scalar b -> sval a < B -> sval b < B -> exists c, scalar_subS panics (short u i r) a b = Ok c /\ scalar_sub a b = Ok c) <-> 34 <= i).
Proof.
  intros B u i r HB (Hu & Hi & Hr). split.
  - intros H. destruct (Z_le_gt_dec 34 i) as [L|G]; [exact L|exfalso]. refine (stuck _ scalar_sub _ _ _ (k_sub u i r 64 33 8 ltac:(wide)) n_sub_i (H _ _ (proj1 scalar_zero_ok) (proj1 scalar_one_ok) (zero_small B HB) (one_small B HB))).
  - intros Li a b Ha Hb _ _. refine (agreed _ _ _ _ a b (k_sub u 34 r u i r ltac:(wide)) _ (w_sub r u a b (proj2 Ha) (proj2 Hb))). intros x y c E. exact (m_sub x y c (k_sub u 34 r 64 64 8 ltac:(wide) x y c E)).
Qed.
Lemma mont_exact : forall B u i r, ell <= B -> fits u i r ->
  ((forall a b, is_scalar a -> is_scalar b -> sval a < B -> sval b < B -> exists c, montgomery_multiplyS panics (short u i r) a b = Ok c /\ montgomery_multiply a b = Ok c) <-> u = 64 /\ 34 <= i).
Proof.
  intros B u i r HB (Hu & Hi & Hr). split.
  - intros H. split.
    + destruct (Z_le_gt_dec 64 u) as [L|G]; [lia|exfalso]. refine (stuck _ montgomery_multiply _ full full (k_mont u i r 63 64 8 ltac:(wide)) n_mont_u (H _ _ full_scalar full_scalar (full_small B HB) (full_small B HB))).
    + destruct (Z_le_gt_dec 34 i) as [L|G]; [exact L|exfalso]. pose proof (proj1 scalar_zero_ok) as Z0. refine (stuck _ montgomery_multiply _ _ _ (k_mont u i r 64 33 8 ltac:(wide)) n_mont_i (H _ _ Z0 Z0 (zero_small B HB) (zero_small B HB))).
  - intros (-> & Li) a b Ha Hb _ _. refine (agreed _ _ _ _ a b (k_mont 64 34 r 64 i r ltac:(wide)) _ (w_mont r a b (proj2 Ha) (proj2 Hb))). intros x y c E. exact (m_mont x y c (k_mont 64 34 r 64 64 8 ltac:(wide) x y c E)).
Qed.
Lemma mul_exact : forall B u i r, ell <= B -> fits u i r ->
  ((forall a b, is_scalar a -> is_scalar b -> sval a < B -> sval b < B -> exists c, scalar_mulS panics (short u i r) a b = Ok c /\ scalar_mul a b = Ok c) <-> u = 64 /\ 34 <= i).
Proof.
  intros B u i r HB (Hu & Hi & Hr). split.
  - intros H. split.
    + destruct (Z_le_gt_dec 64 u) as [L|G]; [lia|exfalso]. refine (stuck _ scalar_mul _ full full (k_mul u i r 63 64 8 ltac:(wide)) n_mul_u (H _ _ full_scalar full_scalar (full_small B HB) (full_small B HB))).
    + destruct (Z_le_gt_dec 34 i) as [L|G]; [exact L|exfalso]. pose proof (proj1 scalar_zero_ok) as Z0. refine (stuck _ scalar_mul _ _ _ (k_mul u i r 64 33 8 ltac:(wide)) n_mul_i (H _ _ Z0 Z0 (zero_small B HB) (zero_small B HB))).
  - intros (-> & Li) a b Ha Hb _ _. refine (agreed _ _ _ _ a b (k_mul 64 34 r 64 i r ltac:(wide)) _ (w_mul r a b (proj2 Ha) (proj2 Hb))). intros x y c E. exact (m_mul x y c (k_mul 64 34 r 64 64 8 ltac:(wide) x y c E)).
Qed.
Lemma halve_exact : forall B u i r, ell <= B -> fits u i r ->
  ((forall a, is_scalar a -> sval a < B -> exists c, scalar_halveS panics (short u i r) a = Ok c /\ scalar_halve a = Ok c) <-> 33 <= u).
Proof.
  intros B u i r HB (Hu & Hi & Hr). split.
  - intros H. destruct (Z_le_gt_dec 33 u) as [L|G]; [exact L|exfalso]. refine (stuck _ (fun a _ => scalar_halve a) _ full full (k_halve u i r 32 64 8 ltac:(wide)) n_halve_u (H _ full_scalar (full_small B HB))).
  - intros Lu a Ha _. refine (agreed _ (fun a _ => scalar_halve a) _ _ a a (k_halve 33 i r u i r ltac:(wide)) _ (w_halve r i a (proj2 Ha))). intros x y c E. exact (m_halve x y c (k_halve 33 i r 64 64 8 ltac:(wide) x y c E)).
Qed.
Lemma radix_exact : forall B u i r, ell <= B -> fits u i r ->
  ((forall a, is_scalar a -> sval a < B -> exists c, to_radix_16S panics (short u i r) a = Ok c /\ to_radix_16 a = Ok c) <-> 6 <= r).
Proof.
  intros B u i r HB (Hu & Hi & Hr). split.
  - intros H. destruct (Z_le_gt_dec 6 r) as [L|G]; [exact L|exfalso]. refine (stuck _ (fun a _ => to_radix_16 a) _ full full (k_radix u i r 64 64 5 ltac:(wide)) n_radix (H _ full_scalar (full_small B HB))).
  - intros Lr a Ha _. refine (agreed _ (fun a _ => to_radix_16 a) _ _ a a (k_radix u i 6 u i r ltac:(wide)) _ (w_radix u i a)). intros x y c E. exact (m_radix x y c (k_radix u i 6 64 64 8 ltac:(wide) x y c E)).
Qed.
