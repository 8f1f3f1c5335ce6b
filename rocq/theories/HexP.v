(** Hexadecimal arithmetic modulo the Goldilocks prime (Solinas reduction). *)
Require Import ZArith Znumtheory List Bool Lia.
From Verif Require Import SpecParams NumTheory HexNum.
Import ListNotations.
Open Scope Z_scope.

Lemma p_gt1 : 1 < p. Proof. reflexivity. Qed.

(** [a + b], and [a + b + 1]. *)
Fixpoint hadd (a b : list dig) : list dig :=
  match a, b with
  | [], _ => b
  | _, [] => a
  | x :: a', y :: b' => match addT x y with C0 l => l :: hadd a' b' | C1 l => l :: hadd1 a' b' end
  end
with hadd1 (a b : list dig) : list dig :=
  match a, b with
  | [], _ => prop b x1
  | _, [] => prop a x1
  | x :: a', y :: b' =>
      match addT x y with
      | C0 l => match addT l x1 with C0 l1 => l1 :: hadd a' b' | C1 l1 => l1 :: hadd1 a' b' end
      | C1 l => inc l :: hadd1 a' b'
      end
  end.

Lemma hadd_both : forall a b, hval (hadd a b) = hval a + hval b /\ hval (hadd1 a b) = hval a + hval b + 1.
Proof.
  induction a as [|x a IH]; intros b.
  - split; [destruct b; reflexivity|]. destruct b; unfold hadd1; rewrite prop_ok; reflexivity.
  - destruct b as [|y b].
    + split; [cbn [hadd hval]; lia|]. cbn [hadd1]. rewrite prop_ok. cbn [hval]. change (dval x1) with 1. lia.
    + destruct (IH b) as [I0 I1]. cbn [hadd hadd1].
      pose proof (dval_range x). pose proof (dval_range y).
      destruct (addT x y) as [l|l] eqn:E; [apply addT_ok0 in E|apply addT_ok1 in E]; pose proof (dval_range l).
      * split; [cbn [hval]; lia|]. destruct (addT l x1) as [l1|l1] eqn:E1; [apply addT_ok0 in E1|apply addT_ok1 in E1];
          change (dval x1) with 1 in E1; cbn [hval]; lia.
      * split; [cbn [hval]; lia|]. cbn [hval]. rewrite inc_ok by lia. lia.
Qed.
Lemma hadd_ok : forall a b, hval (hadd a b) = hval a + hval b.
Proof. intros. apply hadd_both. Qed.

(** Product and square. *)
Fixpoint hmul (a b : list dig) : list dig :=
  match a with [] => [] | x :: a' => mac x b (x0 :: hmul a' b) x0 end.

Lemma hmul_ok : forall a b, hval (hmul a b) = hval a * hval b.
Proof.
  induction a as [|x a IH]; intro b; [reflexivity|]. cbn [hmul]. rewrite mac_ok. cbn [hval]. rewrite IH.
  change (dval x0) with 0. ring.
Qed.

Fixpoint tri (x : list dig) : list dig :=
  match x with [] => [] | a :: x' => mac a x' (x0 :: x0 :: tri x') x0 end.
Fixpoint diag (x : list dig) : list dig :=
  match x with [] => [] | a :: x' => match mulT a a with DD h l => l :: h :: diag x' end end.
Definition hsq (x : list dig) : list dig := let t := tri x in hadd (diag x) (x0 :: hadd t t).

Lemma hsq_ok : forall x, hval (hsq x) = hval x * hval x.
Proof.
  intro x. unfold hsq. rewrite hadd_ok. cbn [hval]. rewrite hadd_ok. change (dval x0) with 0.
  assert (E : hval x * hval x = hval (diag x) + 32 * hval (tri x)); [|lia].
  induction x as [|a x IH]; [reflexivity|].
  cbn [diag tri]. destruct (mulT a a) as [h l] eqn:M. apply mulT_ok in M. rewrite mac_ok. cbn [hval].
  change (dval x0) with 0. lia.
Qed.

(** [lo + 2^448 hi] = [lo + hi + 2^224 hi] modulo p. *)
Fixpoint split_at (n : nat) (l : list dig) : list dig * list dig :=
  match n with
  | O => ([], l)
  | S n' => match l with [] => ([], []) | x :: l' => let '(a, b) := split_at n' l' in (x :: a, b) end
  end.
Definition is_nil (l : list dig) : bool := match l with [] => true | _ => false end.
Definition z56 : list dig := Eval compute in repeat x0 56.
Definition fold448 (l : list dig) : list dig :=
  let '(lo, hi) := split_at 112 l in
  if is_nil hi then lo else hadd lo (hadd hi (z56 ++ hi)).

Lemma split_at_ok : forall n l a b, split_at n l = (a, b) -> hval l = hval a + 16 ^ Z.of_nat n * hval b.
Proof.
  induction n; intros l a b E.
  - injection E as <- <-. cbn [hval Z.of_nat]. rewrite Z.pow_0_r. lia.
  - destruct l as [|x l]; cbn [split_at] in E.
    + injection E as <- <-. cbn [hval]. lia.
    + destruct (split_at n l) as [a' b'] eqn:E'. injection E as <- <-. cbn [hval]. rewrite (IHn _ _ _ E').
      rewrite Nat2Z.inj_succ, Z.pow_succ_r by lia. ring.
Qed.

Lemma hval_app : forall a b, hval (a ++ b) = hval a + 16 ^ Z.of_nat (length a) * hval b.
Proof.
  induction a as [|x a IH]; intro b.
  - cbn [app hval length Z.of_nat]. rewrite Z.pow_0_r. lia.
  - cbn [app hval length]. rewrite IH. rewrite Nat2Z.inj_succ, Z.pow_succ_r by lia. ring.
Qed.

Lemma fold448_ok : forall l, hval (fold448 l) mod p = hval l mod p.
Proof.
  intro l. unfold fold448. destruct (split_at 112 l) as [lo hi] eqn:E. apply split_at_ok in E. rewrite E.
  pose proof p_gt1.
  destruct hi as [|h hi]; [cbn [is_nil hval]; f_equal; lia|]. cbn [is_nil].
  rewrite !hadd_ok, hval_app. set (H' := hval (h :: hi)).
  change (hval z56) with 0. change (length z56) with 56%nat.
  replace (hval lo + 16 ^ Z.of_nat 112 * H') with (hval lo + (H' + (0 + 16 ^ Z.of_nat 56 * H')) + H' * p).
  - rewrite Z.mod_add by lia. reflexivity.
  - change (16 ^ Z.of_nat 112) with (p + 16 ^ Z.of_nat 56 + 1). ring.
Qed.

Definition reduce (l : list dig) : option (list dig) :=
  let l1 := fold448 l in
  if forced l1 then fit 112 (fold448 (fold448 (fold448 l1))) else None.

Lemma reduce_ok : forall l r, reduce l = Some r -> hval r mod p = hval l mod p.
Proof.
  intros l r E. unfold reduce in E. rewrite forced_true in E. apply fit_ok in E. rewrite E. rewrite !fold448_ok. reflexivity.
Qed.

Definition pmul (a b : list dig) : option (list dig) := if forced a then (if forced b then reduce (hmul a b) else None) else None.
Definition psq (a : list dig) : option (list dig) := if forced a then reduce (hsq a) else None.
Definition padd (a b : list dig) : option (list dig) := reduce (hadd a b).

(** [a - b = a + ~b + (2^448 - 2^225 - 1)] modulo p, where [~b = 2^448 - 1 - b]. *)
Definition cpl (a : dig) : dig := match a with
  | x0 => xf | x1 => xe | x2 => xd | x3 => xc | x4 => xb | x5 => xa | x6 => x9 | x7 => x8
  | x8 => x7 | x9 => x6 | xa => x5 | xb => x4 | xc => x3 | xd => x2 | xe => x1 | xf => x0 end.
Definition subK : list dig := Eval vm_compute in hex 112 (2 ^ 448 - 2 ^ 225 - 1).
Definition psub (a b : list dig) : option (list dig) :=
  if Nat.eqb (length b) 112 then reduce (hadd (hadd a (map cpl b)) subK) else None.

Lemma pmul_ok : forall a b r, pmul a b = Some r -> hval r mod p = (hval a * hval b) mod p.
Proof. intros a b r E. unfold pmul in E. rewrite !forced_true in E. apply reduce_ok in E. rewrite E, hmul_ok. reflexivity. Qed.
Lemma psq_ok : forall a r, psq a = Some r -> hval r mod p = (hval a * hval a) mod p.
Proof. intros a r E. unfold psq in E. rewrite !forced_true in E. apply reduce_ok in E. rewrite E, hsq_ok. reflexivity. Qed.
Lemma padd_ok : forall a b r, padd a b = Some r -> hval r mod p = (hval a + hval b) mod p.
Proof. intros a b r E. apply reduce_ok in E. rewrite E, hadd_ok. reflexivity. Qed.
Lemma cpl_ok : forall l, hval (map cpl l) = 16 ^ Z.of_nat (length l) - 1 - hval l.
Proof.
  induction l as [|x l IH]; [reflexivity|]. cbn [map hval length]. rewrite IH, Nat2Z.inj_succ, Z.pow_succ_r by lia.
  assert (dval (cpl x) = 15 - dval x) by (destruct x; reflexivity). lia.
Qed.
Lemma psub_ok : forall a b r, psub a b = Some r -> hval r mod p = (hval a - hval b) mod p.
Proof.
  intros a b r E. unfold psub in E. destruct (Nat.eqb_spec (length b) 112) as [L|]; [|discriminate].
  apply reduce_ok in E. rewrite E, !hadd_ok, cpl_ok, L. pose proof p_gt1.
  change (hval subK) with (2 ^ 448 - 2 ^ 225 - 1).
  replace (hval a + (16 ^ Z.of_nat 112 - 1 - hval b) + (2 ^ 448 - 2 ^ 225 - 1)) with (hval a - hval b + 2 * p).
  - rewrite Z.mod_add by lia. reflexivity.
  - change (16 ^ Z.of_nat 112) with (2 ^ 448). unfold p. change (2 ^ 225) with (2 * 2 ^ 224). ring.
Qed.
Lemma psub_mod : forall a b, ((a mod p) - (b mod p)) mod p = (a - b) mod p.
Proof. intros. symmetry. apply Zminus_mod. Qed.

(** Powers of a one-digit base, and general powers. *)
Definition obind {A B} (x : option A) (f : A -> option B) : option B := match x with Some a => f a | None => None end.

Fixpoint ppow_small (a : dig) (e : positive) : option (list dig) :=
  match e with
  | xH => fit 112 [a]
  | xO e' => obind (ppow_small a e') psq
  | xI e' => obind (obind (ppow_small a e') psq) (fun r => reduce (mac a r [] x0))
  end.
Fixpoint ppow (b : list dig) (e : positive) : option (list dig) :=
  match e with
  | xH => Some b
  | xO e' => obind (ppow b e') psq
  | xI e' => obind (obind (ppow b e') psq) (fun r => pmul r b)
  end.

Lemma pow_xO : forall v e, v ^ Zpos e~0 = v ^ Zpos e * v ^ Zpos e.
Proof. intros. rewrite Pos2Z.inj_xO. rewrite Z.mul_comm. rewrite Z.pow_mul_r by lia. apply Z.pow_2_r. Qed.
Lemma pow_xI : forall v e, v ^ Zpos e~1 = v ^ Zpos e * v ^ Zpos e * v.
Proof. intros. rewrite Pos2Z.inj_xI. rewrite Z.pow_add_r by lia. rewrite Z.pow_1_r. rewrite Z.mul_comm with (n := 2).
  rewrite Z.pow_mul_r by lia. rewrite Z.pow_2_r. reflexivity. Qed.

Lemma ppow_small_ok : forall a e r, ppow_small a e = Some r -> hval r mod p = (dval a ^ Zpos e) mod p.
Proof.
  intros a e. pose proof p_gt1. induction e as [e IH|e IH|]; intros r E; cbn [ppow_small] in E.
  - destruct (ppow_small a e) as [t|]; [|discriminate]. cbn [obind] in E.
    destruct (psq t) as [t2|] eqn:E2; [|discriminate]. cbn [obind] in E.
    apply psq_ok in E2. apply reduce_ok in E. rewrite mac_ok in E. cbn [hval] in E. change (dval x0) with 0 in E.
    rewrite E, !Z.add_0_r, pow_xI, Z.mul_comm. apply mod_mul_cong; [lia| |reflexivity].
    rewrite E2. apply mod_mul_cong; [lia| |]; apply IH; reflexivity.
  - destruct (ppow_small a e) as [t|]; [|discriminate]. cbn [obind] in E.
    apply psq_ok in E. rewrite E, pow_xO. apply mod_mul_cong; [lia| |]; apply IH; reflexivity.
  - apply fit_ok in E. rewrite E, Z.pow_1_r. cbn [hval]. f_equal. lia.
Qed.

Lemma ppow_ok : forall b e r, ppow b e = Some r -> hval r mod p = (hval b ^ Zpos e) mod p.
Proof.
  intros a e. pose proof p_gt1. induction e as [e IH|e IH|]; intros r E; cbn [ppow] in E.
  - destruct (ppow a e) as [t|]; [|discriminate]. cbn [obind] in E.
    destruct (psq t) as [t2|] eqn:E2; [|discriminate]. cbn [obind] in E.
    apply psq_ok in E2. apply pmul_ok in E.
    rewrite E, pow_xI. apply mod_mul_cong; [lia| |reflexivity].
    rewrite E2. apply mod_mul_cong; [lia| |]; apply IH; reflexivity.
  - destruct (ppow a e) as [t|]; [|discriminate]. cbn [obind] in E.
    apply psq_ok in E. rewrite E, pow_xO. apply mod_mul_cong; [lia| |]; apply IH; reflexivity.
  - injection E as <-. rewrite Z.pow_1_r. reflexivity.
Qed.

(** ** The certificate for p: entries (q, k, u) with q*k = p-1 and u*(a^k-1) = 1 modulo p. *)
Definition p_entry (a : dig) (e : positive * positive * Z) : option (list dig) :=
  let '(q, k, u) := e in
  if Zpos q * Zpos k =? p - 1 then
    obind (ppow_small a k) (fun r => if (u * (hval r - 1)) mod p =? 1 then Some r else None)
  else None.

Definition p_check (a : dig) (e1 : positive * positive * Z) (es : list (positive * positive * Z)) : bool :=
  match p_entry a e1 with
  | None => false
  | Some r =>
      match ppow r (fst (fst e1)) with
      | None => false
      | Some r2 => (hval r2 mod p =? 1) && forallb (fun e => match p_entry a e with Some _ => true | None => false end) es
      end
  end.

Theorem p_check_ok : forall a e1 es, p_check a e1 es = true ->
  NoDup (map (fun e => Zpos (fst (fst e))) (e1 :: es)) ->
  (p <? zprod (map (fun e => Zpos (fst (fst e))) (e1 :: es)) * zprod (map (fun e => Zpos (fst (fst e))) (e1 :: es))) = true ->
  (forall q, In q (map (fun e => Zpos (fst (fst e))) (e1 :: es)) -> prime q) -> prime p.
Proof.
  intros a e1 es H HD Hlt HP. pose proof p_gt1 as P1. unfold p_check in H. apply Z.ltb_lt in Hlt.
  assert (EC : forall q k u r, p_entry a (q, k, u) = Some r ->
     Zpos q * Zpos k = p - 1 /\ hval r mod p = (dval a ^ Zpos k) mod p /\ exists u, (u * (dval a ^ ((p - 1) / Zpos q) - 1)) mod p = 1).
  { intros q k u r E. unfold p_entry in E.
    destruct (Z.eqb_spec (Zpos q * Zpos k) (p - 1)) as [Eq|]; [|discriminate].
    destruct (ppow_small a k) as [r'|] eqn:Ep; [|discriminate]. cbn [obind] in E.
    destruct (Z.eqb_spec ((u * (hval r' - 1)) mod p) 1) as [Eu|]; [|discriminate]. injection E as ->.
    apply ppow_small_ok in Ep.
    split; [exact Eq|]. split; [exact Ep|]. exists u.
    assert ((p - 1) / Zpos q = Zpos k) as -> by (rewrite <- Eq, Z.mul_comm; apply Z.div_mul; lia).
    etransitivity; [|exact Eu]. apply mod_mul_cong; [lia|reflexivity|].
    rewrite Zminus_mod, <- Ep, <- Zminus_mod. reflexivity. }
  destruct e1 as [[q1 k1] u1]. destruct (p_entry a (q1, k1, u1)) as [r1|] eqn:E1; [|discriminate]. cbn [fst] in *.
  destruct (ppow r1 q1) as [r2|] eqn:E2; [|discriminate].
  apply andb_true_iff in H. destruct H as [Hd1 Hd2]. apply Z.eqb_eq in Hd1.
  destruct (EC _ _ _ _ E1) as (Q1 & F1 & U1). apply ppow_ok in E2.
  rewrite (mod_pow_cong p (hval r1) (dval a ^ Zpos k1)) in E2 by (assumption || lia).
  rewrite <- Z.pow_mul_r in E2 by lia. rewrite Z.mul_comm in Q1. rewrite Q1 in E2. rewrite Hd1 in E2.
  apply (pocklington p (dval a) _ P1 (eq_sym E2) HD); [|exact Hlt].
  intros q Hq. split; [apply HP; exact Hq|].
  cbn [map] in Hq. destruct Hq as [<-|Hq].
  - cbn [fst]. split; [exists (Zpos k1); lia|exact U1].
  - apply in_map_iff in Hq. destruct Hq as ([[q' k'] u'] & <- & Hin). cbn [fst] in *.
    rewrite forallb_forall in Hd2. specialize (Hd2 _ Hin).
    destruct (p_entry a (q', k', u')) as [r'|] eqn:E'; [|discriminate].
    destruct (EC _ _ _ _ E') as (Q' & _ & U'). split; [exists (Zpos k'); lia|exact U'].
Qed.
