(** Reading and writing the words of a scalar. *)
Require Import ZArith List Lia.
From Verif Require Import Base BaseProofs ScalarModel ScalarProofs ScalarIndex.
Import ListNotations.
Open Scope Z_scope.

Lemma nth_word : forall l i, Forall (fun x => 0 <= x < 2 ^ 32) l -> (i < length l)%nat ->
  nth_error l i = Some (eval 32 l / 2 ^ (32 * Z.of_nat i) mod 2 ^ 32).
Proof.
  induction l as [|x l IH]; intros i H Li; [cbn in Li; lia|]. inversion H as [|? ? Hx Hl]; subst. destruct i as [|i]; cbn [nth_error eval].
  - rewrite Z.mul_0_r, Z.pow_0_r, Z.div_1_r, Z.mul_comm, Z.mod_add by lia. rewrite Z.mod_small by exact Hx. reflexivity.
  - rewrite IH by (assumption || (cbn [length] in Li; lia)). do 2 f_equal. rewrite Nat2Z.inj_succ.
    replace (32 * Z.succ (Z.of_nat i)) with (32 + 32 * Z.of_nat i) by lia. rewrite Z.pow_add_r by lia. rewrite <- Z.div_div by lia.
    f_equal. rewrite Z.mul_comm, Z.div_add by lia. rewrite Z.div_small by exact Hx. reflexivity.
Qed.
Lemma set_word_ok : forall l i w, Forall (fun x => 0 <= x < 2 ^ 32) l -> (i < length l)%nat -> 0 <= w < 2 ^ 32 ->
  exists r, set_word l i w = Ok r /\ length r = length l /\ Forall (fun x => 0 <= x < 2 ^ 32) r /\
    (forall j, nth_error r j = if Nat.eqb j i then Some w else nth_error l j).
Proof.
  induction l as [|x l IH]; intros i w H Li Hw; [cbn in Li; lia|]. inversion H as [|? ? Hx Hl]; subst. destruct i as [|i]; cbn [set_word].
  - exists (w :: l). split; [reflexivity|]. split; [reflexivity|]. split; [constructor; assumption|]. intros [|j]; reflexivity.
  - destruct (IH i w Hl ltac:(cbn [length] in Li; lia) Hw) as (r & -> & Lr & Fr & N). exists (x :: r). split; [reflexivity|]. split; [cbn [length]; lia|].
    split; [constructor; assumption|]. intros [|j]; [reflexivity|]. cbn [nth_error]. exact (N j).
Qed.
Lemma set_word_panic : forall l i w, (length l <= i)%nat -> set_word l i w = Panic.
Proof. induction l as [|x l IH]; intros i w Li; [reflexivity|]. destruct i as [|i]; cbn [length] in Li; [lia|]. cbn [set_word]. rewrite IH by lia. reflexivity. Qed.

Theorem index_reads : forall s i, is_scalar s -> 0 <= i -> scalar_index s i = if i <? 14 then Ok (sval s / 2 ^ (32 * i) mod 2 ^ 32) else Panic.
Proof.
  intros s i [L F] Hi. unfold scalar_index. destruct (Z.ltb_spec i 14) as [H|H].
  - rewrite (nth_word s _ F) by lia. rewrite Z2Nat.id by exact Hi. reflexivity.
  - rewrite (proj2 (nth_error_None s _)) by lia. reflexivity.
Qed.
Theorem index_writes : forall s i w, is_scalar s -> 0 <= i -> 0 <= w < 2 ^ 32 ->
  (i < 14 -> exists r, scalar_index_mut s i w = Ok r /\ is_scalar r /\
     forall j, 0 <= j -> scalar_index r j = if j =? i then Ok w else scalar_index s j) /\
  (14 <= i -> scalar_index_mut s i w = Panic).
Proof.
  intros s i w [L F] Hi Hw. unfold scalar_index_mut. split; intro H.
  - destruct (set_word_ok s (Z.to_nat i) w F ltac:(lia) Hw) as (r & E & Lr & Fr & N). exists r. split; [exact E|]. split; [split; [lia|exact Fr]|].
    intros j Hj. unfold scalar_index. rewrite N. destruct (Z.eqb_spec j i) as [->|D]; [rewrite Nat.eqb_refl; reflexivity|].
    destruct (Nat.eqb_spec (Z.to_nat j) (Z.to_nat i)) as [D2|_]; [lia|reflexivity].
  - apply set_word_panic. lia.
Qed.
Theorem index_value : forall s i w, is_scalar s -> 0 <= i < 14 -> 0 <= w < 2 ^ 32 ->
  exists old r, scalar_index s i = Ok old /\ scalar_index_mut s i w = Ok r /\ sval r = sval s + (w - old) * 2 ^ (32 * i).
Proof.
  intros s i w [L F] Hi Hw.
  assert (K : forall l k, (k < length l)%nat -> exists old r, nth_error l k = Some old /\ set_word l k w = Ok r /\ eval 32 r = eval 32 l + (w - old) * 2 ^ (32 * Z.of_nat k)).
  { induction l as [|x l IH]; intros k Lk; [cbn in Lk; lia|]. destruct k as [|k]; cbn [nth_error set_word].
    - exists x, (w :: l). split; [reflexivity|]. split; [reflexivity|]. cbn [eval]. rewrite Z.mul_0_r, Z.pow_0_r. lia.
    - destruct (IH k ltac:(cbn [length] in Lk; lia)) as (old & r & E1 & E2 & V). exists old, (x :: r). split; [exact E1|]. rewrite E2. split; [reflexivity|].
      cbn [eval]. rewrite V, Nat2Z.inj_succ. replace (32 * Z.succ (Z.of_nat k)) with (32 + 32 * Z.of_nat k) by lia. rewrite Z.pow_add_r by lia. ring. }
  destruct (K s (Z.to_nat i) ltac:(lia)) as (old & r & E1 & E2 & V). exists old, r. unfold scalar_index, scalar_index_mut. rewrite E1.
  split; [reflexivity|]. split; [exact E2|]. rewrite Z2Nat.id in V by lia. exact V.
Qed.
Theorem from_u32_value : forall w, 0 <= w < 2 ^ 32 -> is_scalar (scalar_from_u32 w) /\ sval (scalar_from_u32 w) = w.
Proof.
  intros w Hw. split.
  - split; [reflexivity|]. unfold scalar_from_u32. constructor; [exact Hw|]. repeat constructor; lia.
  - unfold sval, scalar_from_u32. cbn [eval]. lia.
Qed.
