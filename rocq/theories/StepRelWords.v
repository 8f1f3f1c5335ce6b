(** Running the code of StepU32.v and StepScalar.v in two ways that preserve a relation: one lemma per function.  [logic] is
    what is needed of the two notions of computation; it is used for two traced runs with unrelated secrets, and for a traced
    run against a plain one. *)
Require Import ZArith List Bool Lia.
From Verif Require Import Base FieldU32Model ScalarModel Steps StepSubtle StepU32 StepScalar.
Import ListNotations.
Open Scope Z_scope.

Record logic (M1 M2 : steps) : Type := {
  rl : forall A A', (A -> A' -> Prop) -> run M1 A -> run M2 A' -> Prop;
  l_ret : forall A A' (R : A -> A' -> Prop) a a', R a a' -> rl A A' R (ret a) (ret a');
  l_bind : forall A A' C C' (R : A -> A' -> Prop) (S : C -> C' -> Prop) m m' f f', rl A A' R m m' ->
    (forall a a', R a a' -> rl C C' S (f a) (f' a')) -> rl C C' S (andthen m f) (andthen m' f');
  l_fail : forall A A' (R : A -> A' -> Prop), rl A A' R fail fail;
  (** What the two runs returned may be used. *)
  gives1 : forall A, run M1 A -> A -> Prop;
  gives2 : forall A, run M2 A -> A -> Prop;
  l_know : forall A A' (R : A -> A' -> Prop) m m', rl A A' R m m' -> rl A A' (fun a a' => R a a' /\ gives1 A m a /\ gives2 A' m' a') m m';
  (** How plain data of the two runs compare. *)
  Sec : forall A, A -> A -> Prop;
  s_refl : forall A (a : A), Sec A a a;
  s_map : forall A C (f : A -> C) a a', Sec A a a' -> Sec C (f a) (f a');
  s_map2 : forall A C E (f : A -> C -> E) a a' c c', Sec A a a' -> Sec C c c' -> Sec E (f a c) (f a' c')
}.
Arguments rl {M1 M2} _ {A A'}. Arguments l_ret {M1 M2} _ {A A'}. Arguments l_bind {M1 M2} _ {A A' C C'}. Arguments l_fail {M1 M2} _ {A A'}.
Arguments gives1 {M1 M2} _ {A}. Arguments gives2 {M1 M2} _ {A}. Arguments l_know {M1 M2} _ {A A'}.
Arguments Sec {M1 M2} _ {A}. Arguments s_refl {M1 M2} _ {A}. Arguments s_map {M1 M2} _ {A C}. Arguments s_map2 {M1 M2} _ {A C E}.
Definition Ropt {A A'} (R : A -> A' -> Prop) (o : option A) (o' : option A') : Prop :=
  match o, o' with Some a, Some a' => R a a' | None, None => True | _, _ => False end.
Definition Rprod {A A' E E'} (R : A -> A' -> Prop) (S : E -> E' -> Prop) (p : A * E) (q : A' * E') : Prop := R (fst p) (fst q) /\ S (snd p) (snd q).

Section WordRel.
Variables M1 M2 : steps.
Variable L : logic M1 M2.
Variable W1 : cpu M1.
Variable W2 : cpu M2.
Variable Rw : word W1 -> word W2 -> Prop.
Notation rel R m m' := (rl L R m m').
Record wcompat : Prop := {
  w_lit : forall z, Rw (lit W1 z) (lit W2 z);
  w_chk : forall o x x' y y', Rw x x' -> Rw y y' -> rel Rw (chk W1 o x y) (chk W2 o x' y');
  w_bin : forall o x x' y y', Rw x x' -> Rw y y' -> rel Rw (bin W1 o x y) (bin W2 o x' y');
  w_un : forall o x x', Rw x x' -> rel Rw (un W1 o x) (un W2 o x');
  w_guard : forall o x x', Rw x x' -> rel (fun _ _ => True) (guard W1 o x) (guard W2 o x');
  w_test : forall o x x', Rw x x' -> rel (Sec L) (test W1 o x) (test W2 o x');
  w_reveal : forall x x', Rw x x' -> rel (Sec L) (reveal W1 x) (reveal W2 x');
  w_unwrap : forall c c', Sec L c c' -> rel Rw (unwrap W1 c) (unwrap W2 c')
}.
Variable C : wcompat.
Notation R2 := (Forall2 Rw). (** lists, limb by limb *)
Notation RP := (Rprod R2 Rw).

Lemma w_lits : forall l, R2 (map (lit W1) l) (map (lit W2) l).
Proof. induction l; constructor; [apply (w_lit C)|assumption]. Qed.
Lemma F2_skipn : forall n l l', R2 l l' -> R2 (skipn n l) (skipn n l').
Proof. induction n; intros l l' H; [exact H|]. destruct H; [constructor|]. apply IHn. assumption. Qed.
Lemma F2_firstn : forall n l l', R2 l l' -> R2 (firstn n l) (firstn n l').
Proof. induction n; intros l l' H; [constructor|]. destruct H; constructor; [assumption|]. apply IHn. assumption. Qed.
Lemma F2_nth : forall l l', R2 l l' -> forall i d d', Rw d d' -> Rw (nth i l d) (nth i l' d').
Proof. induction 1; intros [|i] d d' Hd; cbn [nth]; auto. Qed.
Lemma F2_set_nth : forall i x x' l l', Rw x x' -> R2 l l' -> R2 (set_nthS M1 W1 i x l) (set_nthS M2 W2 i x' l').
Proof. intros. unfold set_nthS. apply Forall2_app; [apply F2_firstn; assumption|]. constructor; [assumption|]. apply F2_skipn. assumption. Qed.
Lemma F2_hd : forall l l' d d', R2 l l' -> Rw d d' -> Rw (hd d l) (hd d' l').
Proof. intros l l' d d' [|] Hd; assumption. Qed.
Lemma F2_tl : forall l l', R2 l l' -> R2 (tl l) (tl l').
Proof. intros l l' [|]; [constructor|assumption]. Qed.
Lemma F2_repeat : forall n x x', Rw x x' -> R2 (repeat x n) (repeat x' n).
Proof. induction n; intros; constructor; auto. Qed.

Lemma F2_len : forall l l', R2 l l' -> length l = length l'.
Proof. induction 1; cbn [length]; congruence. Qed.

Lemma p_wret : forall x x', Rw x x' -> rel Rw (w_ret x) (w_ret x').
Proof. intros. apply (l_ret L). assumption. Qed.
Lemma p_chk2 : forall o x x' y y', rel Rw x x' -> rel Rw y y' -> rel Rw (lift2 (chk W1 o) x y) (lift2 (chk W2 o) x' y').
Proof. intros. unfold lift2. eapply (l_bind L); [eassumption|]. intros. eapply (l_bind L); [eassumption|]. intros. apply (w_chk C); assumption. Qed.
Lemma p_bin2 : forall o x x' y y', rel Rw x x' -> rel Rw y y' -> rel Rw (lift2 (bin W1 o) x y) (lift2 (bin W2 o) x' y').
Proof. intros. unfold lift2. eapply (l_bind L); [eassumption|]. intros. eapply (l_bind L); [eassumption|]. intros. apply (w_bin C); assumption. Qed.
Lemma p_un1 : forall o x x', rel Rw x x' -> rel Rw (lift1 (un W1 o) x) (lift1 (un W2 o) x').
Proof. intros. unfold lift1. eapply (l_bind L); [eassumption|]. intros. apply (w_un C); assumption. Qed.
Lemma p_mS : forall x x' y y', Rw x x' -> Rw y y' -> rel Rw (mS M1 W1 x y) (mS M2 W2 x' y').
Proof. intros. unfold mS. apply p_chk2; apply p_wret; assumption. Qed.
Lemma p_widemul : forall x x' y y', Rw x x' -> Rw y y' -> rel Rw (widemulS M1 W1 x y) (widemulS M2 W2 x' y').
Proof. intros. unfold widemulS. apply p_chk2; apply p_wret; assumption. Qed.
Lemma p_mul_add : forall x x' y y' z z', Rw x x' -> Rw y y' -> Rw z z' -> rel Rw (mul_addS M1 W1 x y z) (mul_addS M2 W2 x' y' z').
Proof. intros. unfold mul_addS. repeat apply p_chk2; apply p_wret; assumption. Qed.
Local Opaque lift2 lift1 mS widemulS mul_addS w_ret.
Ltac ww := repeat first [eassumption | apply (w_lit C) | apply p_wret | apply p_chk2 | apply p_bin2 | apply p_un1 | apply p_mS | apply p_widemul | apply p_mul_add
  | apply F2_nth | apply F2_set_nth | apply F2_hd | apply (l_ret L)].
Ltac bw := apply (l_bind L Rw); [solve [ww]|intros ? ? ?; cbv beta zeta].
Ltac peel H := destruct H as [|? ? ? ? ? H]; [apply (l_fail L)|].
Ltac fin := apply (l_ret L); repeat (apply Forall2_cons; [ww|]); first [assumption | apply Forall2_nil].
Ltac pair := intros [? ?] [? ?] [? ?]; cbn [fst snd] in *.
Ltac rpair := apply (l_ret L); split; cbn [fst snd].
Ltac bs := apply (l_bind L R2).
Ltac bp := apply (l_bind L RP).

(** ** Field elements *)
Lemma p_all : forall l l', Forall2 (fun m m' => rel Rw m m') l l' -> rel R2 (all l) (all l').
Proof.
  unfold all. induction 1; cbn [map_resS]; [apply (l_ret L); constructor|]. bw. bs; [assumption|]. intros. fin.
Qed.
Local Opaque all.
Lemma p_weak_reduce28 : forall a a', R2 a a' -> rel R2 (weak_reduce28S M1 W1 a) (weak_reduce28S M2 W2 a').
Proof. intros a a' H. unfold weak_reduce28S. do 16 peel H. destruct H; [|apply (l_fail L)]. cbv zeta. repeat bw. fin. Qed.
Lemma p_add_limbs : forall a a', R2 a a' -> forall b b', R2 b b' -> rel R2 (add_limbsS M1 W1 a b) (add_limbsS M2 W2 a' b').
Proof.
  induction 1 as [|x x' a a' Hx Ha IH]; intros b b' [|y y' l l' Hy Hl]; cbn [add_limbsS]; try apply (l_fail L); [fin|].
  repeat bw. bs; [apply IH; assumption|]. intros. fin.
Qed.
Lemma p_add28 : forall a a' b b', R2 a a' -> R2 b b' -> rel R2 (add28S M1 W1 a b) (add28S M2 W2 a' b').
Proof. intros. unfold add28S. bs; [apply p_add_limbs; assumption|]. intros. apply p_weak_reduce28. assumption. Qed.
Lemma p_bias28 : forall a a' x x', R2 a a' -> Rw x x' -> rel R2 (bias28S M1 W1 a x) (bias28S M2 W2 a' x').
Proof.
  intros a a' x x' H Hx. unfold bias28S. do 16 peel H. destruct H; [|apply (l_fail L)]. cbv zeta. repeat bw. apply p_all. repeat (apply Forall2_cons; [solve [ww]|]). constructor.
Qed.
Lemma p_sub_limbs : forall a a', R2 a a' -> forall b b', R2 b b' -> rel R2 (sub_limbsS M1 W1 a b) (sub_limbsS M2 W2 a' b').
Proof.
  induction 1 as [|x x' a a' Hx Ha IH]; intros b b' [|y y' l l' Hy Hl]; cbn [sub_limbsS]; try apply (l_fail L); [fin|].
  repeat bw. bs; [apply IH; assumption|]. intros. fin.
Qed.
Lemma p_sub28 : forall a a' b b', R2 a a' -> R2 b b' -> rel R2 (sub28S M1 W1 a b) (sub28S M2 W2 a' b').
Proof.
  intros. unfold sub28S. bs; [apply p_bias28; [assumption|apply (w_lit C)]|]. intros. bs; [apply p_sub_limbs; assumption|]. intros. apply p_weak_reduce28. assumption.
Qed.
Lemma p_negate28 : forall a a', R2 a a' -> rel R2 (negate28S M1 W1 a) (negate28S M2 W2 a').
Proof. intros. unfold negate28S. apply p_sub28; [apply w_lits|assumption]. Qed.
Lemma p_borrow : forall a a', R2 a a' -> forall b b', R2 b b' -> forall s s', Rw s s' -> rel RP (borrow_chainS M1 W1 a b s) (borrow_chainS M2 W2 a' b' s').
Proof.
  induction 1 as [|x x' a a' Hx Ha IH]; intros b b' [|y y' l l' Hy Hl] s s' Hs; cbn [borrow_chainS]; try apply (l_fail L); [rpair; [constructor|exact Hs]|].
  repeat bw. bp; [apply IH; assumption|]. pair. rpair; [constructor|]; assumption.
Qed.
Lemma p_carry : forall a a', R2 a a' -> forall b b', R2 b b' -> forall s s', Rw s s' -> rel RP (carry_chainS M1 W1 a b s) (carry_chainS M2 W2 a' b' s').
Proof.
  induction 1 as [|x x' a a' Hx Ha IH]; intros b b' [|y y' l l' Hy Hl] s s' Hs; cbn [carry_chainS]; try apply (l_fail L); [rpair; [constructor|exact Hs]|].
  repeat bw. bp; [apply IH; assumption|]. pair. rpair; [constructor|]; assumption.
Qed.
Lemma p_strong_reduce28 : forall a a', R2 a a' -> rel R2 (strong_reduce28S M1 W1 a) (strong_reduce28S M2 W2 a').
Proof.
  intros. unfold strong_reduce28S. bs; [apply p_weak_reduce28; assumption|]. intros.
  bp; [apply p_borrow; [assumption|apply w_lits|apply (w_lit C)]|]. pair. repeat bw.
  bp; [apply p_carry; [assumption|repeat (apply Forall2_cons; [ww|]); constructor|apply (w_lit C)]|]. pair.
  eapply (l_bind L); [apply (w_guard C); eassumption|]. intros _ _ _. bw. eapply (l_bind L); [apply (w_guard C); eassumption|]. intros _ _ _. apply (l_ret L). assumption.
Qed.
Lemma p_load7 : forall l l', R2 l l' -> rel Rw (load7S M1 W1 l) (load7S M2 W2 l').
Proof. intros l l' H. unfold load7S. do 7 peel H. ww. Qed.
Lemma p_from_loop : forall n l l', R2 l l' -> rel R2 (from_bytes_loopS M1 W1 n l) (from_bytes_loopS M2 W2 n l').
Proof.
  induction n; intros l l' H; cbn [from_bytes_loopS]; [fin|]. apply (l_bind L Rw); [apply p_load7; assumption|]. intros. repeat bw.
  bs; [apply IHn; apply F2_skipn; assumption|]. intros. fin.
Qed.
Lemma p_from_bytes28 : forall l l', R2 l l' -> rel R2 (from_bytes28S M1 W1 l) (from_bytes28S M2 W2 l').
Proof. intros. apply p_from_loop. assumption. Qed.
Lemma p_push : forall n x x', Rw x x' -> rel R2 (push_bytesS M1 W1 n x) (push_bytesS M2 W2 n x').
Proof. induction n; intros; cbn [push_bytesS]; [fin|]. repeat bw. bs; [apply IHn; assumption|]. intros. fin. Qed.
Lemma p_to_loop : forall n l l', (length l <= n)%nat -> R2 l l' -> rel R2 (to_bytes_loopS M1 W1 l) (to_bytes_loopS M2 W2 l').
Proof.
  induction n; intros l l' Hn H.
  - destruct H; [fin|inversion Hn].
  - destruct H as [|x x' l l' Hx H]; [fin|]. destruct H as [|y y' l l' Hy H]; [apply (l_fail L)|]. cbn [to_bytes_loopS]. bw.
    bs; [apply p_push; assumption|]. intros. bs; [apply IHn; [apply le_S_n in Hn; exact (Nat.le_trans _ _ _ (le_S _ _ (le_n _)) Hn)|assumption]|]. intros. apply (l_ret L). apply Forall2_app; assumption.
Qed.
Lemma p_to_bytes28 : forall l l', R2 l l' -> rel R2 (to_bytes28S M1 W1 l) (to_bytes28S M2 W2 l').
Proof. intros. unfold to_bytes28S. bs; [apply p_strong_reduce28; assumption|]. intros. eapply p_to_loop; [apply le_n|assumption]. Qed.
Lemma p_is_negative28 : forall l l', R2 l l' -> rel (Sec L) (is_negative28S M1 W1 l) (is_negative28S M2 W2 l').
Proof. intros. unfold is_negative28S. bs; [apply p_to_bytes28; assumption|]. intros. bw. apply (w_test C). assumption. Qed.
Lemma p_selectS : forall c c' x x' y y', Sec L c c' -> Rw x x' -> Rw y y' -> rel Rw (selectS M1 W1 c x y) (selectS M2 W2 c' x' y').
Proof.
  intros. unfold selectS. apply (l_bind L Rw); [apply (w_unwrap C); assumption|]. intros. apply (l_bind L Rw); [apply (w_un C); assumption|]. intros.
  apply (l_bind L Rw); [apply (w_bin C); assumption|]. intros. apply (l_bind L Rw); [apply (w_bin C); assumption|]. intros. apply (w_bin C); assumption.
Qed.
Lemma p_ct_eqS : forall w x x' y y', Rw x x' -> Rw y y' -> rel (Sec L) (ct_eqS M1 W1 w x y) (ct_eqS M2 W2 w x' y').
Proof.
  intros. unfold ct_eqS. apply (l_bind L Rw); [apply (w_bin C); assumption|]. intros. apply (l_bind L Rw); [apply (w_bin C); [apply (w_lit C)|assumption]|]. intros.
  apply (l_bind L Rw); [apply (w_bin C); assumption|]. intros. apply (l_bind L Rw); [apply (w_un C); assumption|]. intros.
  apply (l_bind L Rw); [apply (w_bin C); [assumption|apply (w_lit C)]|]. intros. apply (w_test C). assumption.
Qed.
Lemma p_ct_eq_slice : forall a a' b b', R2 a a' -> R2 b b' -> rel (Sec L) (ct_eq_sliceS M1 W1 a b) (ct_eq_sliceS M2 W2 a' b').
Proof.
  assert (G : forall a a', R2 a a' -> forall b b' x x', R2 b b' -> Rw x x' -> rel Rw (ct_eq_loopS M1 W1 a b x) (ct_eq_loopS M2 W2 a' b' x')).
  { induction 1 as [|s s' a a' Hs Ha IH]; intros b b' x x' [|t t' l l' Ht Hl] Hx; cbn [ct_eq_loopS]; try (apply (l_ret L); assumption).
    apply (l_bind L (Sec L)); [apply p_ct_eqS; assumption|]. intros. apply (l_bind L Rw); [apply (w_unwrap C); assumption|]. intros.
    apply (l_bind L Rw); [apply (w_bin C); assumption|]. intros. apply IH; assumption. }
  intros a a' b b' Ha Hb. unfold ct_eq_sliceS. rewrite <- (F2_len _ _ Ha), <- (F2_len _ _ Hb). destruct (Nat.eqb (length a) (length b)); [|apply (l_ret L), (s_refl L)].
  apply (l_bind L Rw); [apply G; [assumption|assumption|apply (w_lit C)]|]. intros. apply (w_test C). assumption.
Qed.
Lemma p_select28 : forall a a', R2 a a' -> forall b b' c c', R2 b b' -> Sec L c c' -> rel R2 (conditional_select28S M1 W1 a b c) (conditional_select28S M2 W2 a' b' c').
Proof.
  unfold conditional_select28S. induction 1 as [|x x' a a' Hx Ha IH]; intros b b' c c' [|y y' l l' Hy Hl] Hc; cbn [select_limbsS]; try fin.
  apply (l_bind L Rw); [apply p_selectS; assumption|]. intros. bs; [apply IH; assumption|]. intros. fin.
Qed.
Lemma p_cneg28 : forall a a' c c', R2 a a' -> Sec L c c' -> rel R2 (conditional_negate28S M1 W1 a c) (conditional_negate28S M2 W2 a' c').
Proof. intros. unfold conditional_negate28S. bs; [apply p_negate28; assumption|]. intros. apply p_select28; assumption. Qed.
Lemma p_mul28 : forall a a' b b', R2 a a' -> R2 b b' -> rel R2 (mul28S M1 W1 a b) (mul28S M2 W2 a' b').
Proof.
  intros a a' b b' H K. unfold mul28S. do 16 peel H. destruct H; [|apply (l_fail L)]. do 16 peel K. destruct K; [|apply (l_fail L)]. cbv zeta. repeat bw. fin.
Qed.

(** *** Squaring *)
Notation R3 := (Rprod (Rprod Rw Rw) Rw).
Notation RS := (Rprod (Rprod Rw Rw) R2).
Lemma p_for_each : forall A A' (R : A -> A' -> Prop) (f : nat -> A -> run M1 A) f', (forall i a a', R a a' -> rel R (f i a) (f' i a')) ->
  forall l a a', R a a' -> rel R (for_eachS l f a) (for_eachS l f' a').
Proof. intros A A' R f f' H. induction l; intros; cbn [for_eachS]; [apply (l_ret L); assumption|]. apply (l_bind L R); [apply H; assumption|]. intros. apply IHl. assumption. Qed.
Lemma p_map_res : forall A (f : A -> run M1 (word W1)) f', (forall i, rel Rw (f i) (f' i)) -> forall l, rel R2 (map_resS f l) (map_resS f' l).
Proof.
  intros A f f' H. induction l; cbn [map_resS]; [fin|]. apply (l_bind L Rw); [apply H|]. intros. bs; [assumption|]. intros. fin.
Qed.
Ltac triple := let P := fresh in intros [[? ?] ?] [[? ?] ?] P; destruct P as [[? ?] ?]; cbn [fst snd] in *; cbv zeta.
Ltac fin3 := apply (l_ret L); split; [split|]; cbn [fst snd]; ww.
Section Sq.
Variables (a : list (word W1)) (a' : list (word W2)).
Hypothesis Ha : R2 a a'.
Lemma p_square_j0 : forall aa aa' c c', R2 aa aa' -> R2 c c' -> rel RS (square_j0S M1 W1 a aa c) (square_j0S M2 W2 a' aa' c').
Proof.
  intros. unfold square_j0S. cbv zeta. repeat bw.
  apply (l_bind L R3); [apply p_for_each; [|split; [split|]; cbn [fst snd]; ww]; intro; triple; repeat bw; fin3|]. triple. repeat bw. fin3.
Qed.
Lemma p_square_j : forall aa aa' j s s', R2 aa aa' -> RS s s' -> rel RS (square_jS M1 W1 a aa j s) (square_jS M2 W2 a' aa' j s').
Proof.
  intros aa aa' j. intros s s' Haa. revert s s'. triple. unfold square_jS.
  apply (l_bind L R3); [apply p_for_each; [|split; [split|]; cbn [fst snd]; ww]; intro i; triple; destruct (negb (i =? j - i)%nat); repeat bw; fin3|]. triple. repeat bw.
  apply (l_bind L R3); [apply p_for_each; [|split; [split|]; cbn [fst snd]; ww]; intro i; triple; destruct (negb (j + i =? 8 - i)%nat); repeat bw; fin3|]. triple. repeat bw.
  fin3.
Qed.
Lemma p_square_j7 : forall aa aa' s s', R2 aa aa' -> RS s s' -> rel RS (square_j7S M1 W1 a aa s) (square_j7S M2 W2 a' aa' s').
Proof.
  intros aa aa' s s' Haa. revert s s'. triple. unfold square_j7S.
  apply (l_bind L R3); [apply p_for_each; [|split; [split|]; cbn [fst snd]; ww]; intro i; triple; repeat bw; fin3|]. triple. repeat bw. fin3.
Qed.
Lemma p_square_final : forall s s', RS s s' -> rel R2 (square_finalS M1 W1 s) (square_finalS M2 W2 s').
Proof. triple. unfold square_finalS. repeat bw. apply (l_ret L). ww. Qed.
Lemma p_square28 : rel R2 (square28S M1 W1 a) (square28S M2 W2 a').
Proof.
  unfold square28S, square28_S. bs; [apply p_map_res; intro; ww|]. intros aa aa' Haa.
  apply (l_bind L RS); [apply p_square_j0; [assumption|apply w_lits]|]. intros.
  apply (l_bind L RS); [apply p_for_each; [intros; apply p_square_j; assumption|assumption]|]. intros.
  apply (l_bind L RS); [apply p_square_j7; assumption|]. intros. apply p_square_final. assumption.
Qed.
End Sq.
Lemma p_reveal_all : forall l l', R2 l l' -> rel (Sec L) (reveal_all W1 l) (reveal_all W2 l').
Proof.
  unfold reveal_all. induction 1; cbn [map_resS]; [apply (l_ret L), (s_refl L)|]. apply (l_bind L (Sec L)); [apply (w_reveal C); assumption|]. intros.
  apply (l_bind L (Sec L)); [assumption|]. intros. apply (l_ret L). apply (s_map2 L); assumption.
Qed.

(** ** Scalars *)
Lemma p_sadd_loop : forall a a', R2 a a' -> forall b b', R2 b b' -> forall s s', Rw s s' -> rel RP (add_loopS M1 W1 a b s) (add_loopS M2 W2 a' b' s').
Proof.
  induction 1 as [|x x' a a' Hx Ha IH]; intros b b' [|y y' l l' Hy Hl] s s' Hs; cbn [add_loopS]; try (rpair; [constructor|exact Hs]).
  repeat bw. bp; [apply IH; assumption|]. pair. rpair; [constructor|]; assumption.
Qed.
Lemma p_ssub_loop : forall a a', R2 a a' -> forall b b', R2 b b' -> forall s s', Rw s s' -> rel RP (sub_loopS M1 W1 a b s) (sub_loopS M2 W2 a' b' s').
Proof.
  induction 1 as [|x x' a a' Hx Ha IH]; intros b b' [|y y' l l' Hy Hl] s s' Hs; cbn [sub_loopS]; try (rpair; [constructor|exact Hs]).
  repeat bw. bp; [apply IH; assumption|]. pair. rpair; [constructor|]; assumption.
Qed.
Lemma p_addback : forall a a', R2 a a' -> forall b b', R2 b b' -> forall k k' s s', Rw k k' -> Rw s s' -> rel R2 (addback_loopS M1 W1 a b k s) (addback_loopS M2 W2 a' b' k' s').
Proof.
  induction 1 as [|x x' a a' Hx Ha IH]; intros b b' [|y y' l l' Hy Hl] k k' s s' Hk Hs; cbn [addback_loopS]; try fin.
  repeat bw. bs; [apply IH; assumption|]. intros. fin.
Qed.
Lemma p_sub_extra : forall a a' b b' c c', R2 a a' -> R2 b b' -> Rw c c' -> rel R2 (sub_extraS M1 W1 a b c) (sub_extraS M2 W2 a' b' c').
Proof.
  intros. unfold sub_extraS. bp; [apply p_ssub_loop; ww|]. pair. bw. apply p_addback; [assumption|apply w_lits|assumption|ww].
Qed.
Lemma p_scalar_add : forall a a' b b', R2 a a' -> R2 b b' -> rel R2 (scalar_addS M1 W1 a b) (scalar_addS M2 W2 a' b').
Proof. intros. unfold scalar_addS. bp; [apply p_sadd_loop; ww|]. pair. bw. apply p_sub_extra; [assumption|apply w_lits|assumption]. Qed.
Lemma p_scalar_sub : forall a a' b b', R2 a a' -> R2 b b' -> rel R2 (scalar_subS M1 W1 a b) (scalar_subS M2 W2 a' b').
Proof. intros. unfold scalar_subS. apply p_sub_extra; ww. Qed.
Lemma p_mac : forall y y', R2 y y' -> forall r r', R2 r r' -> forall x x' s s', Rw x x' -> Rw s s' -> rel RP (mac_loopS M1 W1 x y r s) (mac_loopS M2 W2 x' y' r' s').
Proof.
  induction 1 as [|v v' y y' Hv Hy IH]; intros r r' [|t t' l l' Ht Hl] x x' s s' Hx Hs; cbn [mac_loopS]; try (rpair; [constructor|exact Hs]).
  repeat bw. bp; [apply IH; assumption|]. pair. rpair; [constructor|]; assumption.
Qed.
Lemma p_mont_step : forall x x' y y' s s', Rw x x' -> R2 y y' -> RP s s' -> rel RP (mont_stepS M1 W1 x y s) (mont_stepS M2 W2 x' y' s').
Proof.
  intros x x' y y' s s' Hx Hy. revert s s'. pair. unfold mont_stepS. bp; [apply p_mac; ww|]. pair. repeat bw.
  bp; [apply p_mac; [apply w_lits|assumption|assumption|ww]|]. pair. repeat bw. rpair; [|assumption].
  apply Forall2_app; [apply F2_tl; assumption|]. repeat constructor. assumption.
Qed.
Lemma p_mont_loop : forall x x', R2 x x' -> forall y y' s s', R2 y y' -> RP s s' -> rel RP (mont_loopS M1 W1 x y s) (mont_loopS M2 W2 x' y' s').
Proof.
  induction 1 as [|v v' x x' Hv Hx IH]; intros y y' s s' Hy Hs; cbn [mont_loopS]; [apply (l_ret L); exact Hs|]. bp; [apply p_mont_step; assumption|]. intros. apply IH; assumption.
Qed.
Lemma p_mont : forall x x' y y', R2 x x' -> R2 y y' -> rel R2 (montgomery_multiplyS M1 W1 x y) (montgomery_multiplyS M2 W2 x' y').
Proof.
  intros. unfold montgomery_multiplyS. bp; [apply p_mont_loop; [assumption|assumption|]; split; cbn [fst snd]; [apply w_lits|ww]|]. pair. apply p_sub_extra; [assumption|apply w_lits|assumption].
Qed.
Lemma p_scalar_mul : forall a a' b b', R2 a a' -> R2 b b' -> rel R2 (scalar_mulS M1 W1 a b) (scalar_mulS M2 W2 a' b').
Proof. intros. unfold scalar_mulS. bs; [apply p_mont; assumption|]. intros. apply p_mont; [assumption|apply w_lits]. Qed.
Lemma p_scalar_square : forall a a', R2 a a' -> rel R2 (scalar_squareS M1 W1 a) (scalar_squareS M2 W2 a').
Proof. intros. unfold scalar_squareS. apply p_mont; assumption. Qed.
Local Opaque montgomery_multiplyS.
Lemma p_inv_precomp : forall a a', R2 a a' -> rel (Forall2 R2) (inv_precompS M1 W1 a) (inv_precompS M2 W2 a').
Proof.
  intros. unfold inv_precompS. do 9 (bs; [apply p_mont; first [assumption | apply w_lits]|intros ? ? ?]). apply (l_ret L). repeat (apply Forall2_cons; [assumption|]). constructor.
Qed.
Definition Riv (s : inv_stateS M1 W1) (s' : inv_stateS M2 W2) : Prop :=
  R2 (iv_resultS M1 W1 s) (iv_resultS M2 W2 s') /\ iv_residueS M1 W1 s = iv_residueS M2 W2 s' /\ iv_trailingS M1 W1 s = iv_trailingS M2 W2 s' /\ iv_startedS M1 W1 s = iv_startedS M2 W2 s'.
Lemma p_index : forall A A' (R : A -> A' -> Prop) l l', Forall2 R l l' -> forall i, rel R (indexS l i) (indexS l' i).
Proof.
  intros A A' R l l' H i. unfold indexS, index. destruct (i <? 0); [apply (l_fail L)|]. generalize (Z.to_nat i) as n. clear i.
  induction H; intros [|n]; cbn [nth_error]; try apply (l_fail L); [apply (l_ret L); assumption|]. apply IHForall2.
Qed.
Lemma p_inv_step : forall pre pre' i s s', Forall2 R2 pre pre' -> Riv s s' -> rel Riv (inv_stepS M1 W1 pre i s) (inv_stepS M2 W2 pre' i s').
Proof.
  intros pre pre' i [r re t st] [r' re' t' st'] Hp (Hr & E1 & E2 & E3). cbn [iv_resultS iv_residueS iv_trailingS iv_startedS] in *. subst. unfold inv_stepS.
  cbn [iv_resultS iv_residueS iv_trailingS iv_startedS]. bs; [destruct st'; [apply p_scalar_square; assumption|apply (l_ret L); assumption]|]. intros.
  apply (l_bind L eq); [destruct (inv_bit i); [apply (l_ret L); reflexivity|apply (l_fail L)]|]. intros b ? <-. cbv zeta.
  destruct (if shr (Z.lor (shl_u 32 re' 1) b) 3 =? 0 then (t', Z.lor (shl_u 32 re' 1) b) else (Z.lor (shl_u 32 re' 1) b, 0)) as [tr rs].
  destruct ((0 <? tr) && (Z.land tr 7 =? 0)).
  - bs; [apply p_index; assumption|]. intros. bs; [destruct st'; [apply p_mont; assumption|apply (l_ret L); assumption]|]. intros. apply (l_ret L). repeat split. assumption.
  - apply (l_ret L). repeat split. assumption.
Qed.
Lemma p_inv_loop : forall n i pre pre' s s', Forall2 R2 pre pre' -> Riv s s' -> rel Riv (inv_loopS M1 W1 n i pre s) (inv_loopS M2 W2 n i pre' s').
Proof.
  induction n; intros; cbn [inv_loopS]; [apply (l_ret L); assumption|]. apply (l_bind L Riv); [apply p_inv_step; assumption|]. intros. apply IHn; assumption.
Qed.
Local Opaque inv_loopS.
Lemma p_scalar_invert : forall a a', R2 a a' -> rel R2 (scalar_invertS M1 W1 a) (scalar_invertS M2 W2 a').
Proof.
  intros. unfold scalar_invertS. apply (l_bind L (Forall2 R2)); [apply p_inv_precomp; assumption|]. intros.
  apply (l_bind L Riv); [apply p_inv_loop; [assumption|]; repeat split; apply w_lits|]. intros ? ? (? & _). apply p_mont; [assumption|apply w_lits].
Qed.
Lemma p_halve_loop : forall a a', R2 a a' -> forall b b', R2 b b' -> forall k k' s s', Rw k k' -> Rw s s' -> rel RP (halve_add_loopS M1 W1 a b k s) (halve_add_loopS M2 W2 a' b' k' s').
Proof.
  induction 1 as [|x x' a a' Hx Ha IH]; intros b b' [|y y' l l' Hy Hl] k k' s s' Hk Hs; cbn [halve_add_loopS]; try (rpair; [constructor|exact Hs]).
  repeat bw. bp; [apply IH; assumption|]. pair. rpair; [constructor|]; assumption.
Qed.
Lemma p_halve_shift : forall s s', R2 s s' -> forall t t', Rw t t' -> rel R2 (halve_shift_loopS M1 W1 s t) (halve_shift_loopS M2 W2 s' t').
Proof.
  induction 1 as [|x x' s s' Hx Hs IH]; intros t t' Ht; cbn [halve_shift_loopS]; [fin|]. destruct Hs as [|y y' s s' Hy Hs]; bw; [fin|]. bs; [apply IH; assumption|]. intros. fin.
Qed.
Lemma p_scalar_halve : forall a a', R2 a a' -> rel R2 (scalar_halveS M1 W1 a) (scalar_halveS M2 W2 a').
Proof.
  intros. unfold scalar_halveS. bw. bp; [apply p_halve_loop; [assumption|apply w_lits| |]; ww|]. pair. apply p_halve_shift; assumption.
Qed.
Lemma p_div_by_four : forall a a', R2 a a' -> rel R2 (scalar_div_by_fourS M1 W1 a) (scalar_div_by_fourS M2 W2 a').
Proof.
  induction 1 as [|x x' s s' Hx Hs IH]; cbn [scalar_div_by_fourS]; [fin|]. destruct Hs as [|y y' s s' Hy Hs]; bw; [fin|]. bs; [apply IH; assumption|]. intros. fin.
Qed.
Lemma p_sfrom_bytes : forall n l l', (length l <= n)%nat -> R2 l l' -> rel R2 (scalar_from_bytesS M1 W1 l) (scalar_from_bytesS M2 W2 l').
Proof.
  induction n; intros l l' Hn H; (destruct H as [|? ? ? ? ? H]; [fin|]); [inversion Hn|]. apply le_S_n in Hn.
  do 3 (destruct H as [|? ? ? ? ? H]; [fin|]). cbn [scalar_from_bytesS]. bw. bs; [apply IHn; [|assumption]|intros; fin].
  cbn [length] in Hn. refine (Nat.le_trans _ _ _ _ Hn). repeat constructor.
Qed.
Lemma p_scalar_from_bytes : forall l l', R2 l l' -> rel R2 (scalar_from_bytesS M1 W1 l) (scalar_from_bytesS M2 W2 l').
Proof. intros. eapply p_sfrom_bytes; [apply le_n|assumption]. Qed.
Lemma p_scalar_to_bytes : forall l l', R2 l l' -> rel R2 (scalar_to_bytesS M1 W1 l) (scalar_to_bytesS M2 W2 l').
Proof. induction 1; cbn [scalar_to_bytesS]; [fin|]. repeat bw. bs; [assumption|]. intros. fin. Qed.
Lemma p_tests : forall js l l', Rw l l' -> rel (Forall2 (Sec L)) (testsS M1 W1 js l) (testsS M2 W2 js l').
Proof.
  induction js; intros; cbn [testsS]; [apply (l_ret L); constructor|]. bw. apply (l_bind L (Sec L)); [apply (w_test C); ww|]. intros.
  apply (l_bind L (Forall2 (Sec L))); [apply IHjs; assumption|]. intros. apply (l_ret L). constructor; assumption.
Qed.
Lemma p_scalar_bits : forall s s', R2 s s' -> rel (Forall2 (Sec L)) (scalar_bitsS M1 W1 s) (scalar_bitsS M2 W2 s').
Proof.
  induction 1; cbn [scalar_bitsS]; [apply (l_ret L); constructor|]. apply (l_bind L (Forall2 (Sec L))); [apply p_tests; assumption|]. intros.
  apply (l_bind L (Forall2 (Sec L))); [assumption|]. intros. apply (l_ret L). apply Forall2_app; assumption.
Qed.
Lemma p_scalar_eqb : forall a a' b b', R2 a a' -> R2 b b' -> rel (Sec L) (scalar_eqbS M1 W1 a b) (scalar_eqbS M2 W2 a' b').
Proof.
  intros. unfold scalar_eqbS. bs; [apply p_scalar_to_bytes; assumption|]. intros. bs; [apply p_scalar_to_bytes; assumption|]. intros.
  apply p_ct_eq_slice; assumption.
Qed.
Lemma p_scalar_wide : forall b b', R2 b b' -> rel R2 (scalar_from_bytes_mod_order_wideS M1 W1 b) (scalar_from_bytes_mod_order_wideS M2 W2 b').
Proof.
  intros. unfold scalar_from_bytes_mod_order_wideS.
  do 2 (bs; [apply p_scalar_from_bytes; repeat first [assumption | apply F2_firstn | apply F2_skipn]|intros ? ? ?]; bs; [apply p_mont; [assumption|apply w_lits]|intros ? ? ?]).
  bs; [apply p_scalar_from_bytes, Forall2_app; [apply F2_firstn, F2_skipn; assumption|apply F2_repeat; ww]|intros ? ? ?].
  do 2 (bs; [apply p_mont; [assumption|apply w_lits]|intros ? ? ?]). bs; [apply p_scalar_add; assumption|intros ? ? ?]. apply p_scalar_add; assumption.
Qed.
Lemma p_nibbles : forall l l', R2 l l' -> rel R2 (nibblesS M1 W1 l) (nibblesS M2 W2 l').
Proof. induction 1; cbn [nibblesS]; [fin|]. repeat bw. bs; [assumption|]. intros. fin. Qed.
Lemma p_recenter : forall l l', R2 l l' -> forall c c', Rw c c' -> rel R2 (recenterS M1 W1 c l) (recenterS M2 W2 c' l').
Proof. induction 1 as [|x x' l l' Hx Hl IH]; intros c c' Hc; cbn [recenterS]; [fin|]. repeat bw. bs; [apply IH; assumption|]. intros. fin. Qed.
Lemma p_to_radix_16 : forall s s', R2 s s' -> rel R2 (to_radix_16S M1 W1 s) (to_radix_16S M2 W2 s').
Proof.
  intros. unfold to_radix_16S. bs; [apply p_scalar_to_bytes; assumption|]. intros. bs; [apply p_nibbles; assumption|]. intros l l' Hl.
  assert (K : R2 (l ++ [lit W1 0]) (l' ++ [lit W2 0])) by (apply Forall2_app; [exact Hl|repeat constructor; ww]).
  destruct K; [fin|]. apply p_recenter; assumption.
Qed.
Lemma p_digit_abs : forall d d', Rw d d' -> rel (Rprod Rw Rw) (digit_absS M1 W1 d) (digit_absS M2 W2 d').
Proof. intros. unfold digit_absS. repeat bw. apply (l_ret L). split; assumption. Qed.
Lemma p_digit_choice : forall d d', Rw d d' -> rel (Sec L) (digit_choiceS M1 W1 d) (digit_choiceS M2 W2 d').
Proof. intros. unfold digit_choiceS. bw. apply (w_test C). assumption. Qed.
Lemma p_mod_four : forall s s', R2 s s' -> rel Rw (mod_fourS M1 W1 s) (mod_fourS M2 W2 s').
Proof. intros. unfold mod_fourS. apply (l_bind L Rw); [apply p_index; assumption|]. intros. ww. Qed.
Lemma p_sign_bit : forall d d', Rw d d' -> rel (Sec L) (sign_bitS M1 W1 d) (sign_bitS M2 W2 d').
Proof. intros. unfold sign_bitS. bw. apply (w_test C). assumption. Qed.
Lemma p_sign_byte : forall c c', Sec L c c' -> rel Rw (sign_byteS M1 W1 c) (sign_byteS M2 W2 c').
Proof. intros. unfold sign_byteS. apply (l_bind L Rw); [apply (w_unwrap C); assumption|]. intros. ww. Qed.

(** Decoding: what lies between the branches, and the whole if branches may be compared. *)
Lemma p_canonical : (forall c c', Sec L c c' -> rel eq (branch W1 c) (branch W2 c')) -> forall b b', R2 b b' ->
  rel (Ropt R2) (scalar_from_canonical_bytesS M1 W1 b) (scalar_from_canonical_bytesS M2 W2 b').
Proof.
  intros HB b b' H. unfold scalar_from_canonical_bytesS. apply (l_bind L Rw); [apply p_index; assumption|]. intros.
  apply (l_bind L (Sec L)); [apply (w_test C); assumption|]. intros. apply (l_bind L eq); [apply HB; assumption|]. intros t ? <-.
  apply (l_bind L eq).
  { destruct t; [apply (l_ret L); reflexivity|]. apply (l_bind L Rw); [apply p_index; assumption|]. intros. bw.
    apply (l_bind L (Sec L)); [apply (w_test C); assumption|]. intros. apply HB. assumption. }
  intros u ? <-. destruct u; [apply (l_ret L); exact I|]. bs; [apply p_scalar_from_bytes, F2_firstn; assumption|]. intros.
  bs; [apply p_sub_extra; [assumption|apply w_lits|ww]|]. intros. apply (l_bind L (Sec L)); [apply p_scalar_eqb; assumption|]. intros.
  apply (l_bind L eq); [apply HB; assumption|]. intros v ? <-. destruct v; [|apply (l_ret L); exact I]. apply (l_ret L). assumption.
Qed.
End WordRel.
