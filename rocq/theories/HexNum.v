(** Arithmetic on lists of hexadecimal digits, by table lookup.

    The kernel of the independent checker (coqchk) has no virtual machine, and binary [Z] multiplication is slow there;
    this representation makes the large computations (primality certificates, the order of the base point) cheap to
    re-check without any axiom.  Everything below is proved against [Z]. *)
Require Import ZArith List Bool Lia.
Import ListNotations.
Open Scope Z_scope.

Inductive dig := x0 | x1 | x2 | x3 | x4 | x5 | x6 | x7 | x8 | x9 | xa | xb | xc | xd | xe | xf.
Inductive dd := DD (hi lo : dig).
Inductive cd := C0 (lo : dig) | C1 (lo : dig).

Definition dval (a : dig) : Z := match a with | x0 => 0 | x1 => 1 | x2 => 2 | x3 => 3 | x4 => 4 | x5 => 5 | x6 => 6 | x7 => 7 | x8 => 8 | x9 => 9 | xa => 10 | xb => 11 | xc => 12 | xd => 13 | xe => 14 | xf => 15 end.
Definition mulT (a b : dig) : dd := match a with
| x0 => match b with | x0 => DD x0 x0 | x1 => DD x0 x0 | x2 => DD x0 x0 | x3 => DD x0 x0 | x4 => DD x0 x0 | x5 => DD x0 x0 | x6 => DD x0 x0 | x7 => DD x0 x0 | x8 => DD x0 x0 | x9 => DD x0 x0 | xa => DD x0 x0 | xb => DD x0 x0 | xc => DD x0 x0 | xd => DD x0 x0 | xe => DD x0 x0 | xf => DD x0 x0 end
| x1 => match b with | x0 => DD x0 x0 | x1 => DD x0 x1 | x2 => DD x0 x2 | x3 => DD x0 x3 | x4 => DD x0 x4 | x5 => DD x0 x5 | x6 => DD x0 x6 | x7 => DD x0 x7 | x8 => DD x0 x8 | x9 => DD x0 x9 | xa => DD x0 xa | xb => DD x0 xb | xc => DD x0 xc | xd => DD x0 xd | xe => DD x0 xe | xf => DD x0 xf end
| x2 => match b with | x0 => DD x0 x0 | x1 => DD x0 x2 | x2 => DD x0 x4 | x3 => DD x0 x6 | x4 => DD x0 x8 | x5 => DD x0 xa | x6 => DD x0 xc | x7 => DD x0 xe | x8 => DD x1 x0 | x9 => DD x1 x2 | xa => DD x1 x4 | xb => DD x1 x6 | xc => DD x1 x8 | xd => DD x1 xa | xe => DD x1 xc | xf => DD x1 xe end
| x3 => match b with | x0 => DD x0 x0 | x1 => DD x0 x3 | x2 => DD x0 x6 | x3 => DD x0 x9 | x4 => DD x0 xc | x5 => DD x0 xf | x6 => DD x1 x2 | x7 => DD x1 x5 | x8 => DD x1 x8 | x9 => DD x1 xb | xa => DD x1 xe | xb => DD x2 x1 | xc => DD x2 x4 | xd => DD x2 x7 | xe => DD x2 xa | xf => DD x2 xd end
| x4 => match b with | x0 => DD x0 x0 | x1 => DD x0 x4 | x2 => DD x0 x8 | x3 => DD x0 xc | x4 => DD x1 x0 | x5 => DD x1 x4 | x6 => DD x1 x8 | x7 => DD x1 xc | x8 => DD x2 x0 | x9 => DD x2 x4 | xa => DD x2 x8 | xb => DD x2 xc | xc => DD x3 x0 | xd => DD x3 x4 | xe => DD x3 x8 | xf => DD x3 xc end
| x5 => match b with | x0 => DD x0 x0 | x1 => DD x0 x5 | x2 => DD x0 xa | x3 => DD x0 xf | x4 => DD x1 x4 | x5 => DD x1 x9 | x6 => DD x1 xe | x7 => DD x2 x3 | x8 => DD x2 x8 | x9 => DD x2 xd | xa => DD x3 x2 | xb => DD x3 x7 | xc => DD x3 xc | xd => DD x4 x1 | xe => DD x4 x6 | xf => DD x4 xb end
| x6 => match b with | x0 => DD x0 x0 | x1 => DD x0 x6 | x2 => DD x0 xc | x3 => DD x1 x2 | x4 => DD x1 x8 | x5 => DD x1 xe | x6 => DD x2 x4 | x7 => DD x2 xa | x8 => DD x3 x0 | x9 => DD x3 x6 | xa => DD x3 xc | xb => DD x4 x2 | xc => DD x4 x8 | xd => DD x4 xe | xe => DD x5 x4 | xf => DD x5 xa end
| x7 => match b with | x0 => DD x0 x0 | x1 => DD x0 x7 | x2 => DD x0 xe | x3 => DD x1 x5 | x4 => DD x1 xc | x5 => DD x2 x3 | x6 => DD x2 xa | x7 => DD x3 x1 | x8 => DD x3 x8 | x9 => DD x3 xf | xa => DD x4 x6 | xb => DD x4 xd | xc => DD x5 x4 | xd => DD x5 xb | xe => DD x6 x2 | xf => DD x6 x9 end
| x8 => match b with | x0 => DD x0 x0 | x1 => DD x0 x8 | x2 => DD x1 x0 | x3 => DD x1 x8 | x4 => DD x2 x0 | x5 => DD x2 x8 | x6 => DD x3 x0 | x7 => DD x3 x8 | x8 => DD x4 x0 | x9 => DD x4 x8 | xa => DD x5 x0 | xb => DD x5 x8 | xc => DD x6 x0 | xd => DD x6 x8 | xe => DD x7 x0 | xf => DD x7 x8 end
| x9 => match b with | x0 => DD x0 x0 | x1 => DD x0 x9 | x2 => DD x1 x2 | x3 => DD x1 xb | x4 => DD x2 x4 | x5 => DD x2 xd | x6 => DD x3 x6 | x7 => DD x3 xf | x8 => DD x4 x8 | x9 => DD x5 x1 | xa => DD x5 xa | xb => DD x6 x3 | xc => DD x6 xc | xd => DD x7 x5 | xe => DD x7 xe | xf => DD x8 x7 end
| xa => match b with | x0 => DD x0 x0 | x1 => DD x0 xa | x2 => DD x1 x4 | x3 => DD x1 xe | x4 => DD x2 x8 | x5 => DD x3 x2 | x6 => DD x3 xc | x7 => DD x4 x6 | x8 => DD x5 x0 | x9 => DD x5 xa | xa => DD x6 x4 | xb => DD x6 xe | xc => DD x7 x8 | xd => DD x8 x2 | xe => DD x8 xc | xf => DD x9 x6 end
| xb => match b with | x0 => DD x0 x0 | x1 => DD x0 xb | x2 => DD x1 x6 | x3 => DD x2 x1 | x4 => DD x2 xc | x5 => DD x3 x7 | x6 => DD x4 x2 | x7 => DD x4 xd | x8 => DD x5 x8 | x9 => DD x6 x3 | xa => DD x6 xe | xb => DD x7 x9 | xc => DD x8 x4 | xd => DD x8 xf | xe => DD x9 xa | xf => DD xa x5 end
| xc => match b with | x0 => DD x0 x0 | x1 => DD x0 xc | x2 => DD x1 x8 | x3 => DD x2 x4 | x4 => DD x3 x0 | x5 => DD x3 xc | x6 => DD x4 x8 | x7 => DD x5 x4 | x8 => DD x6 x0 | x9 => DD x6 xc | xa => DD x7 x8 | xb => DD x8 x4 | xc => DD x9 x0 | xd => DD x9 xc | xe => DD xa x8 | xf => DD xb x4 end
| xd => match b with | x0 => DD x0 x0 | x1 => DD x0 xd | x2 => DD x1 xa | x3 => DD x2 x7 | x4 => DD x3 x4 | x5 => DD x4 x1 | x6 => DD x4 xe | x7 => DD x5 xb | x8 => DD x6 x8 | x9 => DD x7 x5 | xa => DD x8 x2 | xb => DD x8 xf | xc => DD x9 xc | xd => DD xa x9 | xe => DD xb x6 | xf => DD xc x3 end
| xe => match b with | x0 => DD x0 x0 | x1 => DD x0 xe | x2 => DD x1 xc | x3 => DD x2 xa | x4 => DD x3 x8 | x5 => DD x4 x6 | x6 => DD x5 x4 | x7 => DD x6 x2 | x8 => DD x7 x0 | x9 => DD x7 xe | xa => DD x8 xc | xb => DD x9 xa | xc => DD xa x8 | xd => DD xb x6 | xe => DD xc x4 | xf => DD xd x2 end
| xf => match b with | x0 => DD x0 x0 | x1 => DD x0 xf | x2 => DD x1 xe | x3 => DD x2 xd | x4 => DD x3 xc | x5 => DD x4 xb | x6 => DD x5 xa | x7 => DD x6 x9 | x8 => DD x7 x8 | x9 => DD x8 x7 | xa => DD x9 x6 | xb => DD xa x5 | xc => DD xb x4 | xd => DD xc x3 | xe => DD xd x2 | xf => DD xe x1 end
end.
Definition addT (a b : dig) : cd := match a with
| x0 => match b with | x0 => C0 x0 | x1 => C0 x1 | x2 => C0 x2 | x3 => C0 x3 | x4 => C0 x4 | x5 => C0 x5 | x6 => C0 x6 | x7 => C0 x7 | x8 => C0 x8 | x9 => C0 x9 | xa => C0 xa | xb => C0 xb | xc => C0 xc | xd => C0 xd | xe => C0 xe | xf => C0 xf end
| x1 => match b with | x0 => C0 x1 | x1 => C0 x2 | x2 => C0 x3 | x3 => C0 x4 | x4 => C0 x5 | x5 => C0 x6 | x6 => C0 x7 | x7 => C0 x8 | x8 => C0 x9 | x9 => C0 xa | xa => C0 xb | xb => C0 xc | xc => C0 xd | xd => C0 xe | xe => C0 xf | xf => C1 x0 end
| x2 => match b with | x0 => C0 x2 | x1 => C0 x3 | x2 => C0 x4 | x3 => C0 x5 | x4 => C0 x6 | x5 => C0 x7 | x6 => C0 x8 | x7 => C0 x9 | x8 => C0 xa | x9 => C0 xb | xa => C0 xc | xb => C0 xd | xc => C0 xe | xd => C0 xf | xe => C1 x0 | xf => C1 x1 end
| x3 => match b with | x0 => C0 x3 | x1 => C0 x4 | x2 => C0 x5 | x3 => C0 x6 | x4 => C0 x7 | x5 => C0 x8 | x6 => C0 x9 | x7 => C0 xa | x8 => C0 xb | x9 => C0 xc | xa => C0 xd | xb => C0 xe | xc => C0 xf | xd => C1 x0 | xe => C1 x1 | xf => C1 x2 end
| x4 => match b with | x0 => C0 x4 | x1 => C0 x5 | x2 => C0 x6 | x3 => C0 x7 | x4 => C0 x8 | x5 => C0 x9 | x6 => C0 xa | x7 => C0 xb | x8 => C0 xc | x9 => C0 xd | xa => C0 xe | xb => C0 xf | xc => C1 x0 | xd => C1 x1 | xe => C1 x2 | xf => C1 x3 end
| x5 => match b with | x0 => C0 x5 | x1 => C0 x6 | x2 => C0 x7 | x3 => C0 x8 | x4 => C0 x9 | x5 => C0 xa | x6 => C0 xb | x7 => C0 xc | x8 => C0 xd | x9 => C0 xe | xa => C0 xf | xb => C1 x0 | xc => C1 x1 | xd => C1 x2 | xe => C1 x3 | xf => C1 x4 end
| x6 => match b with | x0 => C0 x6 | x1 => C0 x7 | x2 => C0 x8 | x3 => C0 x9 | x4 => C0 xa | x5 => C0 xb | x6 => C0 xc | x7 => C0 xd | x8 => C0 xe | x9 => C0 xf | xa => C1 x0 | xb => C1 x1 | xc => C1 x2 | xd => C1 x3 | xe => C1 x4 | xf => C1 x5 end
| x7 => match b with | x0 => C0 x7 | x1 => C0 x8 | x2 => C0 x9 | x3 => C0 xa | x4 => C0 xb | x5 => C0 xc | x6 => C0 xd | x7 => C0 xe | x8 => C0 xf | x9 => C1 x0 | xa => C1 x1 | xb => C1 x2 | xc => C1 x3 | xd => C1 x4 | xe => C1 x5 | xf => C1 x6 end
| x8 => match b with | x0 => C0 x8 | x1 => C0 x9 | x2 => C0 xa | x3 => C0 xb | x4 => C0 xc | x5 => C0 xd | x6 => C0 xe | x7 => C0 xf | x8 => C1 x0 | x9 => C1 x1 | xa => C1 x2 | xb => C1 x3 | xc => C1 x4 | xd => C1 x5 | xe => C1 x6 | xf => C1 x7 end
| x9 => match b with | x0 => C0 x9 | x1 => C0 xa | x2 => C0 xb | x3 => C0 xc | x4 => C0 xd | x5 => C0 xe | x6 => C0 xf | x7 => C1 x0 | x8 => C1 x1 | x9 => C1 x2 | xa => C1 x3 | xb => C1 x4 | xc => C1 x5 | xd => C1 x6 | xe => C1 x7 | xf => C1 x8 end
| xa => match b with | x0 => C0 xa | x1 => C0 xb | x2 => C0 xc | x3 => C0 xd | x4 => C0 xe | x5 => C0 xf | x6 => C1 x0 | x7 => C1 x1 | x8 => C1 x2 | x9 => C1 x3 | xa => C1 x4 | xb => C1 x5 | xc => C1 x6 | xd => C1 x7 | xe => C1 x8 | xf => C1 x9 end
| xb => match b with | x0 => C0 xb | x1 => C0 xc | x2 => C0 xd | x3 => C0 xe | x4 => C0 xf | x5 => C1 x0 | x6 => C1 x1 | x7 => C1 x2 | x8 => C1 x3 | x9 => C1 x4 | xa => C1 x5 | xb => C1 x6 | xc => C1 x7 | xd => C1 x8 | xe => C1 x9 | xf => C1 xa end
| xc => match b with | x0 => C0 xc | x1 => C0 xd | x2 => C0 xe | x3 => C0 xf | x4 => C1 x0 | x5 => C1 x1 | x6 => C1 x2 | x7 => C1 x3 | x8 => C1 x4 | x9 => C1 x5 | xa => C1 x6 | xb => C1 x7 | xc => C1 x8 | xd => C1 x9 | xe => C1 xa | xf => C1 xb end
| xd => match b with | x0 => C0 xd | x1 => C0 xe | x2 => C0 xf | x3 => C1 x0 | x4 => C1 x1 | x5 => C1 x2 | x6 => C1 x3 | x7 => C1 x4 | x8 => C1 x5 | x9 => C1 x6 | xa => C1 x7 | xb => C1 x8 | xc => C1 x9 | xd => C1 xa | xe => C1 xb | xf => C1 xc end
| xe => match b with | x0 => C0 xe | x1 => C0 xf | x2 => C1 x0 | x3 => C1 x1 | x4 => C1 x2 | x5 => C1 x3 | x6 => C1 x4 | x7 => C1 x5 | x8 => C1 x6 | x9 => C1 x7 | xa => C1 x8 | xb => C1 x9 | xc => C1 xa | xd => C1 xb | xe => C1 xc | xf => C1 xd end
| xf => match b with | x0 => C0 xf | x1 => C1 x0 | x2 => C1 x1 | x3 => C1 x2 | x4 => C1 x3 | x5 => C1 x4 | x6 => C1 x5 | x7 => C1 x6 | x8 => C1 x7 | x9 => C1 x8 | xa => C1 x9 | xb => C1 xa | xc => C1 xb | xd => C1 xc | xe => C1 xd | xf => C1 xe end
end.
Definition inc (a : dig) : dig := match a with | x0 => x1 | x1 => x2 | x2 => x3 | x3 => x4 | x4 => x5 | x5 => x6 | x6 => x7 | x7 => x8 | x8 => x9 | x9 => xa | xa => xb | xb => xc | xc => xd | xd => xe | xe => xf | xf => x0 end.
Definition of_nibble (z : Z) : dig := match z with | 1 => x1 | 2 => x2 | 3 => x3 | 4 => x4 | 5 => x5 | 6 => x6 | 7 => x7 | 8 => x8 | 9 => x9 | 10 => xa | 11 => xb | 12 => xc | 13 => xd | 14 => xe | 15 => xf | _ => x0 end.
Definition is0 (a : dig) : bool := match a with x0 => true | _ => false end.
(** Forces a list of digits; always [true]. *)
Fixpoint forced (l : list dig) : bool := match l with [] => true | x :: l' => match x with | x0 => forced l' | x1 => forced l' | x2 => forced l' | x3 => forced l' | x4 => forced l' | x5 => forced l' | x6 => forced l' | x7 => forced l' | x8 => forced l' | x9 => forced l' | xa => forced l' | xb => forced l' | xc => forced l' | xd => forced l' | xe => forced l' | xf => forced l' end end.


(** Little-endian value. *)
Fixpoint hval (l : list dig) : Z := match l with [] => 0 | x :: l' => dval x + 16 * hval l' end.
Fixpoint hex (n : nat) (z : Z) : list dig :=
  match n with O => [] | S n' => of_nibble (z mod 16) :: hex n' (z / 16) end.

(** [acc + c] *)
Fixpoint prop (acc : list dig) (c : dig) : list dig :=
  match acc with
  | [] => [c]
  | x :: acc' => match addT x c with C0 l => l :: acc' | C1 l => l :: prop acc' x1 end
  end.

(** [a * bs + acc + c] *)
Fixpoint mac (a : dig) (bs acc : list dig) (c : dig) : list dig :=
  match bs with
  | [] => prop acc c
  | b :: bs' =>
      match mulT a b with DD h l =>
      match addT l c with
      | C0 l1 =>
          match acc with
          | [] => l1 :: mac a bs' [] h
          | x :: acc' => match addT l1 x with C0 l2 => l2 :: mac a bs' acc' h | C1 l2 => l2 :: mac a bs' acc' (inc h) end
          end
      | C1 l1 =>
          match acc with
          | [] => l1 :: mac a bs' [] (inc h)
          | x :: acc' => match addT l1 x with C0 l2 => l2 :: mac a bs' acc' (inc h) | C1 l2 => l2 :: mac a bs' acc' (inc (inc h)) end
          end
      end end
  end.

Lemma forced_true : forall l, forced l = true.
Proof. induction l as [|x l IH]; [reflexivity|]. destruct x; exact IH. Qed.
Lemma dval_range : forall a, 0 <= dval a <= 15.
Proof. destruct a; cbn; lia. Qed.
Lemma mulT_ok : forall a b h l, mulT a b = DD h l -> 16 * dval h + dval l = dval a * dval b.
Proof. intros a b h l E. destruct a, b; cbn in E; injection E as <- <-; reflexivity. Qed.
Lemma addT_ok0 : forall a b l, addT a b = C0 l -> dval l = dval a + dval b.
Proof. intros a b l E. destruct a, b; cbn in E; try discriminate; injection E as <-; reflexivity. Qed.
Lemma addT_ok1 : forall a b l, addT a b = C1 l -> dval l + 16 = dval a + dval b.
Proof. intros a b l E. destruct a, b; cbn in E; try discriminate; injection E as <-; reflexivity. Qed.
Lemma inc_ok : forall a, dval a < 15 -> dval (inc a) = dval a + 1.
Proof. destruct a; cbn; intro; lia. Qed.
Lemma of_nibble_ok : forall z, 0 <= z < 16 -> dval (of_nibble z) = z.
Proof.
  intros z Hz. assert (H : z = 0 \/ z = 1 \/ z = 2 \/ z = 3 \/ z = 4 \/ z = 5 \/ z = 6 \/ z = 7 \/ z = 8 \/ z = 9 \/
    z = 10 \/ z = 11 \/ z = 12 \/ z = 13 \/ z = 14 \/ z = 15) by lia.
  repeat (destruct H as [->|H]; [reflexivity|]). subst. reflexivity.
Qed.
Lemma hval_nonneg : forall l, 0 <= hval l.
Proof. induction l as [|x l IH]; cbn [hval]; [lia|]. pose proof (dval_range x). lia. Qed.
Lemma hval_hex : forall n z, hval (hex n z) = z mod 16 ^ Z.of_nat n.
Proof.
  induction n; intro z.
  - cbn. rewrite Z.mod_1_r. reflexivity.
  - cbn [hex hval]. rewrite IHn. rewrite of_nibble_ok by (apply Z.mod_pos_bound; lia).
    rewrite Nat2Z.inj_succ, Z.pow_succ_r by lia. rewrite Z.rem_mul_r; [reflexivity|lia|]. apply Z.pow_pos_nonneg; lia.
Qed.
Lemma prop_ok : forall acc c, hval (prop acc c) = hval acc + dval c.
Proof.
  induction acc as [|x acc IH]; intro c; cbn [prop hval]; [lia|].
  destruct (addT x c) as [l|l] eqn:E; cbn [hval].
  - apply addT_ok0 in E. lia.
  - apply addT_ok1 in E. rewrite IH. change (dval x1) with 1. lia.
Qed.
Lemma mac_ok : forall a bs acc c, hval (mac a bs acc c) = dval a * hval bs + hval acc + dval c.
Proof.
  intros a bs. pose proof (dval_range a) as Ra.
  induction bs as [|b bs IH]; intros acc c; cbn [mac].
  - rewrite prop_ok. cbn [hval]. lia.
  - destruct (mulT a b) as [h l] eqn:Em. apply mulT_ok in Em.
    pose proof (dval_range b). pose proof (dval_range c). pose proof (dval_range h). pose proof (dval_range l).
    assert (M : 16 * dval h + dval l <= 225) by nia.
    destruct (addT l c) as [l1|l1] eqn:E1; [apply addT_ok0 in E1|apply addT_ok1 in E1];
      pose proof (dval_range l1); (destruct acc as [|x acc];
      [|pose proof (dval_range x); destruct (addT l1 x) as [l2|l2] eqn:E2; [apply addT_ok0 in E2|apply addT_ok1 in E2];
        pose proof (dval_range l2)]); cbn [hval]; rewrite IH; repeat rewrite inc_ok by (rewrite ?inc_ok by lia; lia); cbn [hval]; nia.
Qed.

(** ** Montgomery multiplication modulo [N] (odd), [n0] = -1/N mod 16, exactly [n] digits of [x] consumed. *)
Fixpoint hmont (n : nat) (x y N : list dig) (n0 : dig) (acc : list dig) : option (list dig) :=
  match n with
  | O => match x with [] => Some acc | _ => None end
  | S n' =>
      match x with
      | [] => None
      | xi :: x' =>
          match mac xi y acc x0 with
          | [] => None
          | a0 :: acc1 =>
              match mulT a0 n0 with DD _ m =>
              match mac m N (a0 :: acc1) x0 with
              | x0 :: acc2 => hmont n' x' y N n0 acc2
              | _ => None
              end end
          end
      end
  end.

Lemma hmont_ok : forall n x y N n0 acc r, hmont n x y N n0 acc = Some r ->
  exists k, 16 ^ Z.of_nat n * hval r = hval acc + hval x * hval y + k * hval N.
Proof.
  induction n; intros x y N n0 acc r E.
  - destruct x; [|discriminate]. injection E as <-. exists 0. cbn [hval Z.of_nat]. rewrite Z.pow_0_r. lia.
  - destruct x as [|xi x]; [discriminate|]. cbn [hmont] in E.
    pose proof (mac_ok xi y acc x0) as M1. destruct (mac xi y acc x0) as [|a0 acc1']; [discriminate|].
    destruct (mulT a0 n0) as [hh m]. pose proof (mac_ok m N (a0 :: acc1') x0) as M2.
    destruct (mac m N (a0 :: acc1') x0) as [|z acc2]; [discriminate|].
    destruct z; try discriminate. apply IHn in E. destruct E as [k Ek].
    exists (dval m + 16 * k). rewrite Nat2Z.inj_succ, Z.pow_succ_r by lia.
    cbn [hval] in *. change (dval x0) with 0 in *.
    transitivity (16 * (16 ^ Z.of_nat n * hval r)); [ring|]. rewrite Ek.
    rewrite M1 in M2. lia.
Qed.

(** Exactly [n] digits, if the rest is zero. *)
Fixpoint fit (n : nat) (l : list dig) : option (list dig) :=
  match n with
  | O => if forallb is0 l then Some [] else None
  | S n' => match l with
            | [] => match fit n' [] with Some r => Some (x0 :: r) | None => None end
            | x :: l' => match fit n' l' with Some r => Some (x :: r) | None => None end
            end
  end.

Lemma all0 : forall l, forallb is0 l = true -> hval l = 0.
Proof.
  induction l as [|x l IH]; intro H; [reflexivity|]. cbn [forallb] in H. apply andb_true_iff in H. destruct H as [H1 H2].
  cbn [hval]. rewrite (IH H2). destruct x; try discriminate. reflexivity.
Qed.

Lemma fit_ok : forall n l r, fit n l = Some r -> hval r = hval l.
Proof.
  induction n; intros l r E; cbn [fit] in E.
  - destruct (forallb is0 l) eqn:A; [|discriminate]. injection E as <-. rewrite (all0 _ A). reflexivity.
  - destruct l as [|x l].
    + destruct (fit n []) as [t|] eqn:F; [|discriminate]. injection E as <-. cbn [hval]. rewrite (IHn _ _ F). reflexivity.
    + destruct (fit n l) as [t|] eqn:F; [|discriminate]. injection E as <-. cbn [hval]. rewrite (IHn _ _ F). reflexivity.
Qed.

Definition mmul (n : nat) (N : list dig) (n0 : dig) (x y : list dig) : option (list dig) :=
  if forced x then (if forced y then hmont n x y N n0 [] else None) else None.

(** Powers with a one-digit base: squarings, and one-digit multiplications. *)
Fixpoint mpow_small (n : nat) (N : list dig) (n0 : dig) (a : dig) (aR : list dig) (e : positive) : option (list dig) :=
  match e with
  | xH => Some aR
  | xO e' => match mpow_small n N n0 a aR e' with None => None | Some r => mmul n N n0 r r end
  | xI e' =>
      match mpow_small n N n0 a aR e' with
      | None => None
      | Some r => match mmul n N n0 r r with None => None | Some r2 => fit n (mac a r2 [] x0) end
      end
  end.
