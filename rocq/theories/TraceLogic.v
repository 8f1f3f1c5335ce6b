(** Two logics for the relational lemmas of StepRelWords.v and StepRelCurve.v, and what the traced machines of TraceSpec.v satisfy:
    two traced runs with unrelated secrets, and a traced run against a plain one. *)
Require Import ZArith List Bool Lia.
From Verif Require Import Base SpecParams FieldBackend FieldU32Model Backends ScalarModel TwistedModel ScalarMulModel EdwardsModel MontgomeryModel DecafModel ApiExpr
  EdwardsExpr ApiRun Steps StepU32 StepScalar StepCurve StepPlain StepRelWords StepRelCurve TraceSpec.
Import ListNotations.
Open Scope Z_scope.

Lemma branches_app : forall E (t u : list (event E)), branches (t ++ u) = branches t ++ branches u.
Proof. induction t as [|[e|b] t IH]; intro u; cbn [branches app]; [reflexivity|apply IH|rewrite IH; reflexivity]. Qed.
Lemma branches_goes : forall E l, branches (map (@Goes E) l) = l.
Proof. induction l as [|b l IH]; [reflexivity|]. cbn [map branches]. rewrite IH. reflexivity. Qed.
Lemma traced_bind : forall E A C (m : run (tracing E) A) (f : A -> run (tracing E) C) c, snd (andthen m f) = Ok c ->
  exists a, snd m = Ok a /\ snd (f a) = Ok c /\ fst (andthen m f) = fst m ++ fst (f a).
Proof. intros E A C [t [a|]] f c H; cbn [andthen tracing traced snd fst] in *; [exists a; destruct (f a) as [u r]; auto|discriminate H]. Qed.

(** ** Two traced runs: as long as they take the same ways, they do the same. *)
Section Two.
Variable E : Type.
Definition two_rl A A' (R : A -> A' -> Prop) (x : run (tracing E) A) (y : run (tracing E) A') : Prop :=
  forall a a', snd x = Ok a -> snd y = Ok a' -> forall u u', branches (fst x) ++ u = branches (fst y) ++ u' -> fst x = fst y /\ R a a'.
Definition two : logic (tracing E) (tracing E).
Proof.
  refine {| rl := two_rl; gives1 A m a := snd m = Ok a; gives2 A m a := snd m = Ok a; Sec A _ _ := True |}; try (intros; exact I).
  - intros A A' R a a' H b b' Eb Eb' u u' _. cbn [ret tracing traced fst snd] in *. injection Eb as <-. injection Eb' as <-. split; [reflexivity|exact H].
  - intros A A' C C' R S m m' f f' H K c c' Ec Ec' u u' Eu.
    destruct (traced_bind _ _ _ _ _ _ Ec) as (a & Ea & Fa & Ta). destruct (traced_bind _ _ _ _ _ _ Ec') as (a' & Ea' & Fa' & Ta'). rewrite Ta, Ta' in *.
    rewrite !branches_app, <- !app_assoc in Eu. destruct (H a a' Ea Ea' _ _ Eu) as (Et & Ra). rewrite Et in *. apply app_inv_head in Eu. destruct (K a a' Ra c c' Fa Fa' _ _ Eu) as (Et' & Rc).
    rewrite Et'. split; [reflexivity|exact Rc].
  - intros A A' R a a' Ea. discriminate Ea.
  - intros A A' R m m' H a a' Ea Ea' u u' Eu. destruct (H a a' Ea Ea' u u' Eu) as (Et & Ra). auto.
Defined.
Lemma two_does : forall A A' (R : A -> A' -> Prop) e r r', (forall a a', r = Ok a -> r' = Ok a' -> R a a') -> rl two R (does e r) (does e r').
Proof. intros A A' R e r r' H a a' Ea Ea' u u' _. cbn [does fst snd] in *. split; [reflexivity|]. apply H; assumption. Qed.
Lemma two_goes : forall c c', rl two eq (goes c) (goes c').
Proof. intros c c' a a' Ea Ea' u u' Eu. cbn [goes fst snd branches app] in *. injection Ea as <-. injection Ea' as <-. injection Eu as -> _. auto. Qed.
Lemma two_same : forall A (R : A -> A -> Prop) m, (forall a, R a a) -> rl two R m m.
Proof. intros A R m H a a' Ea Ea' u u' _. rewrite Ea in Ea'. injection Ea' as <-. auto. Qed.
End Two.

(** ** A traced run without branches against a plain one *)
Section Quiet.
Variable E : Type.
Definition agrees {A A'} (R : A -> A' -> Prop) (x : res A) (y : res A') : Prop :=
  match x, y with Ok a, Ok a' => R a a' | Panic, Panic => True | _, _ => False end.
(** The ways taken, and what is returned. *)
Definition follows (d : list bool) {A A'} (R : A -> A' -> Prop) (x : run (tracing E) A) (y : res A') : Prop := branches (fst x) = d /\ agrees R (snd x) y.
Lemma f_bind : forall A A' C C' d1 (d2 : A' -> list bool) (R : A -> A' -> Prop) (S : C -> C' -> Prop) m m' f f', follows d1 R m m' ->
  (forall a a', R a a' -> m' = Ok a' -> follows (d2 a') S (f a) (f' a')) -> follows (d1 ++ match m' with Ok a' => d2 a' | Panic => [] end) S (@andthen (tracing E) A C m f) (bind m' f').
Proof.
  intros A A' C C' d1 d2 R S [t [a|]] [a'|] f f' (Hd & Ha) K; unfold follows in *; cbn [andthen tracing traced fst snd agrees bind] in *; try contradiction.
  - destruct (K a a' Ha eq_refl) as (Hd' & Hc). destruct (f a) as [u r]. split; [|exact Hc]. cbn [fst] in *. rewrite branches_app, Hd, Hd'. reflexivity.
  - split; [|exact I]. rewrite app_nil_r. exact Hd.
Qed.
Lemma follows_ok : forall d A A' (R : A -> A' -> Prop) x y a, follows d R x y -> snd x = Ok a -> agrees R (Ok a) y.
Proof. intros d A A' R x y a (_ & H) Ex. rewrite Ex in H. exact H. Qed.
Definition quiet : logic (tracing E) panics.
Proof.
  refine {| rl := (fun A A' R x y => @follows [] A A' R x y) : forall A A' : Type, (A -> A' -> Prop) -> run (tracing E) A -> run panics A' -> Prop; gives1 A m a := snd m = Ok a; gives2 A m a := m = Ok a; Sec A := eq |}; try (intros; congruence).
  - intros A A' R a a' H. split; [reflexivity|exact H].
  - intros A A' C C' R S m m' f f' H K. pose proof (f_bind _ _ _ _ [] (fun _ => []) R S m m' f f' H (fun a a' Ra _ => K a a' Ra)) as G.
    destruct m'; exact G.
  - intros A A' R. split; [reflexivity|exact I].
  - intros A A' R [t [a|]] [a'|] (Hd & Ha); (split; [exact Hd|]); cbn [agrees snd] in *; auto.
Defined.
Lemma quiet_does : forall A A' (R : A -> A' -> Prop) e r r', agrees R r r' -> rl quiet R (does e r) r'.
Proof. intros A A' R e r r' H. split; [reflexivity|exact H]. Qed.
Lemma f_goes : forall c c', c = c' -> follows [c'] eq (goes c) (Ok c').
Proof. intros c c' ->. split; reflexivity. Qed.
Lemma f_obind : forall A A' C C' d1 (d2 : A' -> list bool) (R : A -> A' -> Prop) (S : C -> C' -> Prop) m m' f f', follows d1 (Ropt R) m m' ->
  (forall a a', R a a' -> m' = Ok (Some a') -> follows (d2 a') (Ropt S) (f a) (f' a')) -> follows (d1 ++ after m' d2) (Ropt S) (@obindS (tracing E) A C m f) (obind m' f').
Proof.
  intros A A' C C' d1 d2 R S m m' f f' H K. unfold obindS, obind.
  pose proof (f_bind _ _ _ _ d1 (fun o => match o with Some a' => d2 a' | None => [] end) (Ropt R) (Ropt S) m m'
    (fun o => match o with Some a => f a | None => ret None end) (fun o => match o with Some a => f' a | None => Ok None end) H) as G.
  destruct m' as [[a'|]|]; apply G; clear G; intros [b|] [b'|] Hb Eb; cbn [Ropt] in Hb; try contradiction; try discriminate Eb; try (apply K; [exact Hb|exact Eb]); split; reflexivity.
Qed.
End Quiet.
Arguments follows {E} d {A A'}. Arguments follows_ok {E d A A' R x y a}. Arguments f_bind {E A A' C C'}. Arguments f_obind {E A A' C C'}. Arguments f_goes {E}.

(** ** Lengths of the lists that are looped over *)
Lemma shift_length : forall k s c, length (shift_loop k s c) = length s.
Proof. induction s as [|x s IH]; intro c; [reflexivity|]. destruct s as [|y s]; [reflexivity|]. specialize (IH c). cbn [shift_loop length] in *. rewrite IH. reflexivity. Qed.
Lemma div4_length : forall s, length s = 14%nat -> length (scalar_div_by_four s) = 14%nat.
Proof. intros s H. unfold scalar_div_by_four. rewrite shift_length. exact H. Qed.
Lemma limb_bits_length : forall l, length (limb_bits l) = 32%nat.
Proof. intro l. unfold limb_bits. rewrite map_length, seq_length. reflexivity. Qed.
Lemma bits_length : forall s, length (scalar_bits s) = (32 * length s)%nat.
Proof. unfold scalar_bits. induction s as [|x s IH]; [reflexivity|]. cbn [flat_map length]. rewrite app_length, limb_bits_length, IH. lia. Qed.
Lemma to_bytes_length : forall s, length (scalar_to_bytes s) = (4 * length s)%nat.
Proof. induction s as [|x s IH]; [reflexivity|]. cbn [scalar_to_bytes length]. rewrite IH. lia. Qed.
Lemma nibbles_length : forall b, length (nibbles b) = (2 * length b)%nat.
Proof. induction b as [|x b IH]; [reflexivity|]. cbn [nibbles length]. rewrite IH. lia. Qed.
Lemma recenter_length : forall l c r, recenter l c = Ok r -> length r = length l.
Proof.
  induction l as [|x l IH]; intros c r H; [injection H as <-; reflexivity|]. cbn [recenter] in H. destruct l as [|y l].
  - destruct (i8_add x c); [|discriminate H]. cbn [bind] in H. injection H as <-. reflexivity.
  - destruct (i8_add x c) as [z|]; [|discriminate H]. cbn [bind] in H. destruct (i8_add z 8) as [t|]; [|discriminate H]. cbn [bind] in H. cbv zeta in H.
    destruct (i8_sub z (Z.shiftl (shr t 4) 4)) as [d|]; [|discriminate H]. cbn [bind] in H.
    match type of H with (bind ?m _ = _) => destruct m as [q|] eqn:Eq; [|discriminate H] end. cbn [bind] in H. injection H as <-. cbn [length]. apply f_equal. exact (IH _ _ Eq).
Qed.
Lemma radix_length : forall s d, length s = 14%nat -> to_radix_16 s = Ok d -> length d = 113%nat.
Proof. intros s d Hs H. apply recenter_length in H. rewrite H, app_length, nibbles_length, to_bytes_length, Hs. reflexivity. Qed.
Lemma carry_length : forall a k c r, carry_chain a k c = Ok r -> length (fst r) = length k.
Proof.
  induction a as [|x a IH]; intros [|y k] c r H; try discriminate H; [injection H as <-; reflexivity|]. cbn [carry_chain] in H.
  destruct (u64_add x y) as [t|]; [|discriminate H]. cbn [bind] in H. destruct (u64_add c t) as [u|]; [|discriminate H]. cbn [bind] in H. cbv zeta in H.
  destruct (carry_chain a k (shr u 28)) as [[q s]|] eqn:E; [|discriminate H]. cbn [bind] in H. injection H as <-. cbn [fst length]. apply f_equal. exact (IH _ _ _ E).
Qed.
Lemma to_bytes_loop_length : forall n a r, length a = (2 * n)%nat -> to_bytes_loop a = Ok r -> length r = (7 * n)%nat.
Proof.
  induction n as [|n IH]; intros a r Ha H; [destruct a; [injection H as <-; reflexivity|discriminate Ha]|].
  destruct a as [|x [|y a]]; [discriminate Ha|cbn [length] in Ha; lia|]. cbn [to_bytes_loop] in H. destruct (u64_add x (shl_u 64 y 28)) as [l|]; [|discriminate H]. cbn [bind] in H.
  destruct (to_bytes_loop a) as [q|] eqn:E; [|discriminate H]. cbn [bind] in H. assert (R : r = push_bytes 7 l ++ q) by congruence. rewrite R, app_length, (IH a q); [cbn [push_bytes length]; lia|cbn [length] in Ha; lia|exact E].
Qed.
Lemma to_bytes28_length : forall a r, to_bytes28 a = Ok r -> length r = 56%nat.
Proof.
  intros a r H. unfold to_bytes28, strong_reduce28 in H. destruct (weak_reduce28 a) as [b|]; [|discriminate H]. cbn [bind] in H.
  destruct (borrow_chain b p_limbs 0) as [[d sc]|]; [|discriminate H]. cbn [bind] in H. cbv zeta in H.
  match type of H with context [carry_chain d ?k 0] => destruct (carry_chain d k 0) as [[e c]|] eqn:E; [|discriminate H] end. cbn [bind] in H.
  apply carry_length in E. cbn [fst length] in E. destruct (negb (c <? 2)); [discriminate H|]. destruct (i64_add c sc) as [t|]; [|discriminate H]. cbn [bind] in H.
  destruct (negb (t =? 0)); [discriminate H|]. cbn [bind] in H. exact (to_bytes_loop_length 8 e r E H).
Qed.
Lemma F2_any : forall A A' (R : A -> A' -> Prop), (forall a a', R a a') -> forall l l', length l = length l' -> Forall2 R l l'.
Proof. intros A A' R H l. induction l as [|a l IH]; intros [|a' l'] E; try discriminate E; constructor; [apply H|]. apply IH. injection E as E. exact E. Qed.
Lemma F2_refl : forall A (R : A -> A -> Prop), (forall a, R a a) -> forall l, Forall2 R l l.
Proof. intros A R H l. induction l; constructor; auto. Qed.

(** ** Field operations as steps *)
Definition Rshape {B1 B2} (a : fe (tagged B1)) (b : fe (tagged B2)) : Prop := snd a = snd b.
Definition Rplain {B} (a : fe (tagged B)) (b : fe B) : Prop := fst a = b.
Lemma two_field : forall B1 B2 s (r : res (fe B1)) (r' : res (fe B2)), rl (two operation) Rshape (field B1 s r) (field B2 s r').
Proof.
  intros B1 B2 s r r'. unfold field. apply two_does. intros a a' Ea Ea'. destruct r; [|discriminate Ea]. destruct r'; [|discriminate Ea'].
  apply f_equal with (f := fun o => match o with Ok x => snd x | Panic => s end) in Ea. apply f_equal with (f := fun o => match o with Ok x => snd x | Panic => s end) in Ea'.
  unfold Rshape. rewrite <- Ea. exact Ea'.
Qed.
Theorem field_two : forall B1 B2, mcompat _ _ (two operation) _ _ (field_machine B1) (field_machine B2) Rshape (fun _ _ => True).
Proof.
  intros B1 B2. constructor; try reflexivity; try solve [intros; apply two_does; intros; exact I];
    try solve [intros; match goal with a : fe (tagged B1), b : fe (tagged B1), H : Rshape ?a ?a', K : Rshape ?b ?b' |- _ => unfold Rshape in H, K end; cbn [field_machine m_add m_sub m_mul m_select];
      repeat match goal with H : snd _ = snd _ |- _ => rewrite H; clear H end; apply two_field];
    try solve [intros; match goal with H : Rshape ?a ?a' |- _ => unfold Rshape in H end; cbn [field_machine m_square m_negate m_strong_reduce m_cond_negate m_is_negative m_to_bytes];
      repeat match goal with H : snd _ = snd _ |- _ => rewrite H; clear H end; first [apply two_field | apply two_does; intros; exact I]];
    try solve [intros; apply two_field].
  - intros s s' (_ & Hs & Hs'). apply two_does. intros a a' Ea Ea'. injection Ea as <-. injection Ea' as <-. split; [exact I|split; apply div4_length; assumption].
  - intros s s' (_ & Hs & Hs'). apply two_does. intros a a' Ea Ea'. injection Ea as <-. injection Ea' as <-. apply F2_any; [intros; exact I|]. rewrite !bits_length, Hs, Hs'. reflexivity.
  - intros s s' (_ & Hs & Hs'). apply two_does. intros a a' Ea Ea'. apply F2_any; [intros; exact I|]. exact (eq_trans (radix_length s a Hs Ea) (eq_sym (radix_length s' a' Hs' Ea'))).
  - intros d d' _. apply two_does. intros a a' _ _. split; exact I.
  - intros a a' b b' Ha Hb. unfold fe_ct_eqS. cbn [m_to_bytes m_bytes_eq field_machine]. unfold Rshape in Ha, Hb. rewrite Ha, Hb.
    apply (l_bind (two operation) (fun _ _ => True)); [apply two_does; intros; exact I|]. intros. apply (l_bind (two operation) (fun _ _ => True)); [apply two_does; intros; exact I|]. intros.
    apply two_does. intros. exact I.
  - intros a a' b b' Ha _ _ _. cbn [m_to_bytes m_bytes_eq field_machine]. unfold Rshape in Ha. rewrite Ha.
    apply (l_bind (two operation) (fun _ _ => True)); [apply two_does; intros; exact I|]. intros. apply two_does. intros. exact I.
Qed.
Lemma quiet_field : forall B s (r : res (fe B)), rl (quiet operation) Rplain (field B s r) r.
Proof. intros B s r. unfold field. apply quiet_does. destruct r; exact eq_refl || exact I. Qed.
Lemma agrees_refl : forall A (R : A -> A -> Prop) r, (forall a, R a a) -> agrees R r r.
Proof. intros A R [a|] H; [apply H|exact I]. Qed.
Theorem field_quiet : forall B, mcompat _ _ (quiet operation) _ _ (field_machine B) (plain_machine B) Rplain eq.
Proof.
  intro B. constructor; try reflexivity;
    try solve [intros; repeat match goal with H : Rplain ?a ?b |- _ => change (fst a = b) in H; subst b end; repeat match goal with H : Sec _ ?c ?d |- _ => change (c = d) in H; subst d end;
      first [apply quiet_field | apply quiet_does; apply agrees_refl; reflexivity]];
    try solve [intros; repeat match goal with H : Rby _ _ _ _ _ _ |- _ => destruct H as (H & ? & ?); match type of H with Sec _ ?c ?d => change (c = d) in H; subst d end end;
      first [apply quiet_field | apply quiet_does; apply agrees_refl; reflexivity]].
  - intros s s' (H & Hs & Hs'). change (s = s') in H. subst s'. apply quiet_does. split; [reflexivity|]. split; apply div4_length; assumption.
  - intros s s' (H & _). change (s = s') in H. subst s'. apply quiet_does. exact (F2_refl _ _ (@eq_refl _) _).
  - intros s s' (H & _). change (s = s') in H. subst s'. apply quiet_does. apply agrees_refl. exact (F2_refl _ _ (@eq_refl _)).
  - intros d d' ->. apply quiet_does. apply agrees_refl. intros []. split; reflexivity.
  - intros d d' -> _. apply quiet_does. reflexivity.
  - intros d d' n -> _ _. apply quiet_does. reflexivity.
  - intros d d' n ->. apply quiet_does. reflexivity.
  - intros a a' b b' Ha Hb. change (fst a = a') in Ha. change (fst b = b') in Hb. subst a' b'. unfold fe_ct_eqS. cbn [m_to_bytes m_bytes_eq field_machine plain_machine].
    apply (l_bind (quiet operation) eq); [apply quiet_does; apply agrees_refl; reflexivity|]. intros x x' <-.
    apply (l_bind (quiet operation) eq); [apply quiet_does; apply agrees_refl; reflexivity|]. intros y y' <-. apply quiet_does. reflexivity.
  - intros a a' b b' Ha (Hb & _) _ _. change (fst a = a') in Ha. change (b = b') in Hb. subst a' b'. cbn [m_to_bytes m_bytes_eq field_machine plain_machine].
    apply (l_bind (quiet operation) eq); [apply quiet_does; apply agrees_refl; reflexivity|]. intros x x' <-. apply quiet_does. reflexivity.
Qed.
