(** Debug output determines what is printed. *)
Require Import ZArith List Bool String Ascii Lia.
From Verif Require Import Base BaseProofs FieldBackend FieldU32Model FieldFiatModel Backends ScalarModel TwistedModel EdwardsModel DebugModel SpecDebug.
Import ListNotations.
Open Scope Z_scope.

(** ** Numbers *)
Lemma digit_cases : forall d, 0 <= d < 10 -> is_digit (digit d) = true /\ digit_val (digit d) = d.
Proof.
  intros d H. assert (E : d = Z.of_nat (Z.to_nat d)) by lia. assert (L : (Z.to_nat d < 10)%nat) by lia. rewrite E. unfold digit, digit_val, is_digit. rewrite Nat2Z.id.
  rewrite nat_ascii_embedding by lia. split; [|lia]. apply andb_true_iff. split; [apply Nat.leb_le|apply Nat.ltb_lt]; lia.
Qed.
Lemma decimal_val : forall f n acc, 0 <= n < 10 ^ Z.of_nat f -> number_val 0 (decimal f n acc) = number_val n acc.
Proof.
  induction f as [|f IH]; intros n acc H; cbn [decimal].
  - cbn in H. replace n with 0 by lia. reflexivity.
  - pose proof (Z.mod_pos_bound n 10 ltac:(lia)) as M. destruct (digit_cases (n mod 10) M) as [_ V]. destruct (Z.ltb_spec n 10) as [L|L].
    + unfold number_val. cbn [fold_left]. rewrite V, Z.mod_small by lia. f_equal.
    + rewrite IH.
      * unfold number_val. cbn [fold_left]. rewrite V. f_equal. pose proof (Z.div_mod n 10 ltac:(lia)). lia.
      * rewrite Nat2Z.inj_succ, Z.pow_succ_r in H by lia. split; [apply Z.div_pos; lia|apply Z.div_lt_upper_bound; lia].
Qed.
Lemma decimal_digits : forall f n acc, 0 <= n -> forallb is_digit acc = true -> forallb is_digit (decimal f n acc) = true.
Proof.
  induction f as [|f IH]; intros n acc P H; cbn [decimal]; [exact H|]. pose proof (Z.mod_pos_bound n 10 ltac:(lia)) as M. destruct (digit_cases (n mod 10) M) as [V _].
  assert (K : forallb is_digit (digit (n mod 10) :: acc) = true) by (cbn [forallb]; rewrite V; exact H).
  destruct (n <? 10); [exact K|]. apply IH; [apply Z.div_pos; lia|exact K].
Qed.
Lemma decimal_inj : forall a b, 0 <= a < 10 ^ 20 -> 0 <= b < 10 ^ 20 -> decimal 20 a [] = decimal 20 b [] -> a = b.
Proof.
  intros a b Ha Hb E. apply (f_equal (number_val 0)) in E. rewrite !decimal_val in E; [exact E| |]; assumption.
Qed.
Lemma digits_end : forall (a b r s : list ascii), forallb is_digit a = true -> forallb is_digit b = true ->
  (match r with c :: _ => is_digit c = false | [] => True end) -> (match s with c :: _ => is_digit c = false | [] => True end) ->
  a ++ r = b ++ s -> a = b /\ r = s.
Proof.
  induction a as [|x a IH]; intros [|y b] r s Ha Hb Hr Hs E; cbn [app] in E.
  - split; [reflexivity|exact E].
  - subst r. cbn [forallb] in Hb. apply andb_true_iff in Hb. rewrite (proj1 Hb) in Hr. discriminate Hr.
  - subst s. cbn [forallb] in Ha. apply andb_true_iff in Ha. rewrite (proj1 Ha) in Hs. discriminate Hs.
  - injection E as -> E. cbn [forallb] in Ha, Hb. apply andb_true_iff in Ha, Hb. destruct (IH b r s (proj2 Ha) (proj2 Hb) Hr Hs E) as [-> ->]. split; reflexivity.
Qed.

Local Opaque decimal.
(** ** Pieces: two texts with the same constant pieces *)
Inductive same : list piece -> list piece -> Prop :=
| same_nil : same [] []
| same_T : forall s x y, same x y -> same (T s :: x) (T s :: y)
| same_N : forall a b x y, 0 <= a < 10 ^ 20 -> 0 <= b < 10 ^ 20 -> same x y -> same (N a :: x) (N b :: y).
(** A number is followed by a piece that does not start with a digit. *)
Definition stop (x : list piece) : Prop := match x with T (c :: _) :: _ => is_digit c = false | [] => True | _ => False end.
Fixpoint apart (x : list piece) : Prop := match x with [] => True | T _ :: x => apart x | N _ :: x => stop x /\ apart x end.
Lemma stop_text : forall x, stop x -> match text x with c :: _ => is_digit c = false | [] => True end.
Proof. intros [|[[|c s]|z] x] H; [exact I|contradiction H|exact H|contradiction H]. Qed.
Lemma same_stop : forall x y, same x y -> stop x -> stop y. Proof. intros x y K. destruct K; auto. Qed.
Lemma same_inj : forall x y, same x y -> apart x -> text x = text y -> x = y.
Proof.
  induction 1 as [|s x y H IH|a b x y Ha Hb H IH]; intros A E.
  - reflexivity.
  - cbn [text flat_map piece_text] in E. apply app_inv_head in E. rewrite (IH A E). reflexivity.
  - destruct A as [St A]. cbn [text flat_map piece_text] in E. change (decimal 20 a [] ++ text x = decimal 20 b [] ++ text y)%list in E.
    apply digits_end in E; [|apply decimal_digits; [lia|reflexivity]|apply decimal_digits; [lia|reflexivity]|apply stop_text; exact St|apply stop_text; exact (same_stop _ _ H St)].
    destruct E as [E1 E2]. apply decimal_inj in E1; [|assumption|assumption]. subst b. rewrite (IH A E2). reflexivity.
Qed.
Lemma same_app : forall x y x' y', same x y -> same x' y' -> same (x ++ x') (y ++ y').
Proof. induction 1; intro K; cbn [app]; [exact K| |]; constructor; auto. Qed.
Lemma same_T1 : forall s, same [T s] [T s]. Proof. intro s. apply same_T, same_nil. Qed.

(** ** Documents: with related values inside *)
Definition agree (d d' : doc) : Prop := forall alt i, same (d alt i) (d' alt i).
(** Whatever follows, if it can follow a number, can follow the document. *)
Definition ends (d : doc) : Prop := forall alt i x, stop x -> x <> [] -> apart x -> apart (d alt i ++ x).
Lemma number_agree : forall a b, 0 <= a < 10 ^ 20 -> 0 <= b < 10 ^ 20 -> agree (number a) (number b).
Proof. intros a b Ha Hb alt i. apply same_N; [assumption|assumption|apply same_nil]. Qed.
Lemma number_ends : forall a, ends (number a). Proof. intros a alt i x St _ A. split; assumption. Qed.
Lemma entries_agree : forall l l', Forall2 agree l l' -> forall alt i, same (entries alt i l) (entries alt i l').
Proof.
  induction 1 as [|d d' l l' D H IH]; intros alt i; cbn [entries]; [apply same_nil|]. destruct alt.
  - apply same_app; [apply same_T1|]. apply same_app; [apply D|]. apply same_app; [apply same_T, same_T1|apply IH].
  - apply same_app; [apply D|]. destruct H as [|e e' l l' E H]; [apply same_nil|]. apply same_app; [apply same_T1|apply IH].
Qed.
Lemma entries_apart : forall l, Forall ends l -> forall alt i x, stop x -> x <> [] -> apart x -> apart (entries alt i l ++ x).
Proof.
  induction 1 as [|d l D H IH]; intros alt i x St Nx A; cbn [entries]; [exact A|]. destruct alt.
  - cbn [app indent apart]. rewrite <- app_assoc. apply D; [reflexivity|discriminate|]. cbn [app apart]. apply IH; assumption.
  - rewrite <- app_assoc. destruct l as [|e l]; [apply D; assumption|]. apply D; [reflexivity|discriminate|]. cbn [app apart]. exact (IH false i x St Nx A).
Qed.
(** The pretty form may follow a line break, which is no number: no need of [stop]. *)
Lemma entries_apart_pretty : forall l, Forall ends l -> forall i x, apart x -> apart (entries true i l ++ x).
Proof.
  induction 1 as [|d l D H IH]; intros i x A; cbn [entries]; [exact A|].
  cbn [app indent apart]. rewrite <- app_assoc. apply D; [reflexivity|discriminate|]. cbn [app apart]. apply IH; assumption.
Qed.
Ltac wrap_agree H := intros alt i; destruct alt; repeat first [apply same_app | apply same_T | apply same_nil | apply entries_agree; exact H].
Lemma seq_agree : forall l l', Forall2 agree l l' -> agree (seq l) (seq l').
Proof.
  intros l l' H alt i. unfold seq. pose proof (entries_agree l l' H alt i) as E. destruct H as [|d d' l l' D H]; [apply same_T1|]. destruct alt.
  - apply same_app; [apply same_T, same_T1|]. apply same_app; [exact E|apply same_T, same_T1].
  - apply same_app; [apply same_T1|]. apply same_app; [exact E|apply same_T1].
Qed.
Lemma tuple_agree : forall n l l', Forall2 agree l l' -> agree (tuple n l) (tuple n l').
Proof.
  intros n l l' H alt i. unfold tuple. pose proof (entries_agree l l' H alt i) as E. destruct alt; (apply same_app; [repeat apply same_T; apply same_nil|]);
    (apply same_app; [exact E|repeat apply same_T; apply same_nil]).
Qed.
Lemma struct_agree : forall n l l', Forall2 agree l l' -> agree (struct n l) (struct n l').
Proof.
  intros n l l' H alt i. unfold struct. pose proof (entries_agree l l' H alt i) as E. destruct alt; (apply same_app; [repeat apply same_T; apply same_nil|]);
    (apply same_app; [exact E|repeat apply same_T; apply same_nil]).
Qed.
Lemma field_agree : forall n d d', agree d d' -> agree (field n d) (field n d').
Proof. intros n d d' D alt i. apply same_T, same_T, D. Qed.
Lemma seq_ends : forall l, Forall ends l -> ends (seq l).
Proof.
  intros l H alt i x St Nx A. unfold seq. destruct H as [|d l D H]; [exact A|]. destruct alt.
  - cbn [app]. rewrite <- app_assoc. cbn [apart lit nl]. apply entries_apart_pretty; [constructor; assumption|]. cbn [app apart indent lit]. exact A.
  - cbn [app]. rewrite <- app_assoc. cbn [apart lit]. apply entries_apart; [constructor; assumption|reflexivity|discriminate|]. cbn [app apart lit]. exact A.
Qed.
Lemma tuple_ends : forall n l, Forall ends l -> ends (tuple n l).
Proof.
  intros n l H alt i x St Nx A. unfold tuple. destruct alt; cbn [app]; rewrite <- app_assoc; cbn [apart lit nl].
  - apply entries_apart_pretty; [exact H|]. cbn [app apart indent lit]. exact A.
  - apply entries_apart; [exact H|reflexivity|discriminate|]. cbn [app apart lit]. exact A.
Qed.
Lemma struct_ends : forall n l, Forall ends l -> ends (struct n l).
Proof.
  intros n l H alt i x St Nx A. unfold struct. destruct alt; cbn [app]; rewrite <- app_assoc; cbn [apart lit nl].
  - apply entries_apart_pretty; [exact H|]. cbn [app apart indent lit]. exact A.
  - apply entries_apart; [exact H|reflexivity|discriminate|]. cbn [app apart lit]. exact A.
Qed.
Lemma field_ends : forall n d, ends d -> ends (field n d). Proof. intros n d D alt i x St Nx A. cbn. apply D; assumption. Qed.
(** Equal texts come from equal pieces. *)
Lemma debug_inj : forall d d' alt, agree d d' -> ends d -> debug alt d = debug alt d' -> d alt O = d' alt O.
Proof.
  intros d d' alt A E H. pose (z := [lit "."]). assert (K : text (d alt O ++ z) = text (d' alt O ++ z)).
  { unfold text. rewrite !flat_map_app. unfold debug, text in H. rewrite H. reflexivity. }
  apply same_inj in K; [|apply same_app; [apply A|apply same_T1]|apply E; [reflexivity|discriminate|exact I]].
  apply app_inv_tail in K. exact K.
Qed.

(** ** Lists of numbers inside *)
Fixpoint numbers (l : list piece) : list Z := match l with [] => [] | T _ :: l => numbers l | N z :: l => z :: numbers l end.
Lemma numbers_app : forall a b, numbers (a ++ b) = numbers a ++ numbers b.
Proof. induction a as [|[s|z] a IH]; intro b; cbn; [reflexivity|apply IH|rewrite IH; reflexivity]. Qed.
Definition holds (d : doc) (l : list Z) : Prop := forall alt i, numbers (d alt i) = l.
Lemma entries_numbers : forall l ls, Forall2 holds l ls -> forall alt i, numbers (entries alt i l) = List.concat ls.
Proof.
  induction 1 as [|d n l ls D H IH]; intros alt i; cbn [entries List.concat]; [reflexivity|]. destruct alt.
  - cbn [app numbers indent]. rewrite numbers_app, D. cbn [app numbers lit nl]. rewrite IH. reflexivity.
  - rewrite numbers_app, D. destruct H as [|e m l ls E H]; [reflexivity|]. cbn [app numbers lit]. rewrite (IH false i). reflexivity.
Qed.
Lemma seq_holds : forall l ls, Forall2 holds l ls -> holds (seq l) (List.concat ls).
Proof.
  intros l ls H alt i. unfold seq. pose proof (entries_numbers l ls H alt i) as E. destruct H as [|d n l ls D H]; [reflexivity|]. destruct alt; cbn [app numbers lit nl]; rewrite numbers_app, E; cbn; apply app_nil_r.
Qed.
Lemma tuple_holds : forall n l ls, Forall2 holds l ls -> holds (tuple n l) (List.concat ls).
Proof. intros n l ls H alt i. unfold tuple. pose proof (entries_numbers l ls H alt i) as E. destruct alt; cbn [app numbers lit nl]; rewrite numbers_app, E; cbn; apply app_nil_r. Qed.
Lemma struct_holds : forall n l ls, Forall2 holds l ls -> holds (struct n l) (List.concat ls).
Proof. intros n l ls H alt i. unfold struct. pose proof (entries_numbers l ls H alt i) as E. destruct alt; cbn [app numbers lit nl]; rewrite numbers_app, E; cbn; apply app_nil_r. Qed.
Lemma numbers_seq : forall b, holds (seq (map number b)) b.
Proof.
  intro b. assert (E : b = List.concat (map (fun z => [z]) b)). { induction b as [|z b IH]; [reflexivity|]. cbn. rewrite <- IH. reflexivity. }
  rewrite E at 2. apply seq_holds. clear E. induction b as [|z b IH]; constructor; [intros alt i; reflexivity|exact IH].
Qed.
Lemma list_agree : forall w n a b, 0 <= w <= 64 -> array w n a -> array w n b -> agree (seq (map number a)) (seq (map number b)).
Proof.
  intros w n a b Hw [La Ha] [Lb Hb]. apply seq_agree. assert (P : 2 ^ w < 10 ^ 20).
  { apply Z.le_lt_trans with (2 ^ 64); [apply Z.pow_le_mono_r; lia|reflexivity]. }
  rewrite <- Lb in La. clear Lb. revert b La Hb. induction Ha as [|x a Hx Ha IH]; intros [|y b] La Hb; cbn in La; try discriminate La; [constructor|].
  inversion_clear Hb as [|y' b' Hy Hb']. constructor; [apply number_agree; lia|apply IH; [injection La as La; exact La|exact Hb']].
Qed.
Lemma list_ends : forall a, ends (seq (map number a)).
Proof. intro a. apply seq_ends. induction a; constructor; [apply number_ends|assumption]. Qed.

(** ** C73 *)
Lemma by_numbers : forall A (f : A -> doc) (g : A -> list Z), (forall a, holds (f a) (g a)) -> forall a b, agree (f a) (f b) -> ends (f a) ->
  forall alt, debug alt (f a) = debug alt (f b) -> g a = g b.
Proof. intros A f g H a b D E alt X. apply debug_inj in X; [|assumption|assumption]. rewrite <- (H a alt O), <- (H b alt O), X. reflexivity. Qed.
Theorem bytes_debug : forall n a b, bytes n a -> bytes n b -> forall alt, debug alt (bytes_doc a) = debug alt (bytes_doc b) <-> a = b.
Proof.
  intros n a b Ha Hb alt. split; [|intros ->; reflexivity]. apply (by_numbers _ bytes_doc (fun a => a) numbers_seq); [|apply list_ends].
  apply (list_agree 8 n); [lia|assumption|assumption].
Qed.
Definition limbs_doc (name : string) (a : list Z) : doc := tuple name [seq (map number a)].
Lemma limbs_holds : forall name a, holds (limbs_doc name a) a.
Proof. intros name a. rewrite <- (app_nil_r a) at 2. apply (tuple_holds name [_] [a]). constructor; [apply numbers_seq|constructor]. Qed.
Lemma limbs_agree : forall name w n a b, 0 <= w <= 64 -> array w n a -> array w n b -> agree (limbs_doc name a) (limbs_doc name b).
Proof. intros name w n a b Hw Ha Hb. apply tuple_agree. constructor; [exact (list_agree w n a b Hw Ha Hb)|constructor]. Qed.
Lemma limbs_ends : forall name a, ends (limbs_doc name a). Proof. intros name a. apply tuple_ends. constructor; [apply list_ends|constructor]. Qed.
Lemma limbs_debug : forall name w n a b, 0 <= w <= 64 -> array w n a -> array w n b -> forall alt, debug alt (limbs_doc name a) = debug alt (limbs_doc name b) <-> a = b.
Proof.
  intros name w n a b Hw Ha Hb alt. split; [|intros ->; reflexivity]. apply (by_numbers _ (limbs_doc name) (fun a => a) (limbs_holds name)); [|apply limbs_ends].
  exact (limbs_agree name w n a b Hw Ha Hb).
Qed.
Theorem scalar_debug : forall s t, is_scalar s -> is_scalar t -> forall alt, debug alt (scalar_doc s) = debug alt (scalar_doc t) <-> s = t.
Proof. intros s t Hs Ht. apply (limbs_debug "Scalar" 32 14); [lia|assumption|assumption]. Qed.

(** Points: four field elements *)
Section Points.
Variable B : backend.
Variable fe_doc : fe B -> doc.
Variable name : string.
Variable limbs : fe B -> list Z.
Hypothesis shape : forall a, fe_doc a = limbs_doc name (limbs a).
Hypothesis limbs_inj : forall a b, limbs a = limbs b -> a = b.
Variables (w : Z) (n : nat).
Hypothesis Hw : 0 <= w <= 64.
Lemma xyzt_inj : forall X Y Z T X' Y' Z' T',
  Forall (fun a => array w n (limbs a)) [X; Y; Z; T] -> Forall (fun a => array w n (limbs a)) [X'; Y'; Z'; T'] ->
  let d := xyzt_doc B fe_doc X Y Z T in let d' := xyzt_doc B fe_doc X' Y' Z' T' in
  agree d d' /\ ends d /\ (forall alt i, d alt i = d' alt i -> X = X' /\ Y = Y' /\ Z = Z' /\ T = T').
Proof.
  intros X Y Z T X' Y' Z' T' H H' d d'. inversion_clear H as [|? ? HX K]. inversion_clear K as [|? ? HY K2]. inversion_clear K2 as [|? ? HZ K3]. inversion_clear K3 as [|? ? HT _].
  inversion_clear H' as [|? ? HX' K]. inversion_clear K as [|? ? HY' K2]. inversion_clear K2 as [|? ? HZ' K3]. inversion_clear K3 as [|? ? HT' _].
  subst d d'. unfold xyzt_doc. rewrite !shape. split; [|split].
  - apply struct_agree. repeat (constructor; [apply field_agree, (limbs_agree name w n); assumption|]). constructor.
  - apply struct_ends. repeat (constructor; [apply field_ends, limbs_ends|]). constructor.
  - intros alt i E. apply (f_equal numbers) in E.
    assert (Q : forall A B C D, holds (struct "ExtendedPoint" [field "X" (limbs_doc name A); field "Y" (limbs_doc name B); field "Z" (limbs_doc name C); field "T" (limbs_doc name D)]) (A ++ B ++ C ++ D)).
    { intros A B0 C D. rewrite <- (app_nil_r D) at 2. apply (struct_holds "ExtendedPoint" _ [A; B0; C; D]).
      do 4 (constructor; [intros al j; cbn [field app numbers lit]; exact (limbs_holds name _ al j)|]). constructor. }
    rewrite !Q in E. destruct HX as [lX _], HY as [lY _], HZ as [lZ _], HX' as [lX' _], HY' as [lY' _], HZ' as [lZ' _].
    assert (S : forall a b a' b' : list BinNums.Z, Datatypes.length a = Datatypes.length a' -> a ++ b = a' ++ b' -> a = a' /\ b = b').
    { induction a as [|u a IH]; intros b [|u' a'] b' L X0; cbn in L, X0; try discriminate L; [split; [reflexivity|exact X0]|].
      injection X0 as -> X0. injection L as L. destruct (IH b a' b' L X0) as [-> ->]. split; reflexivity. }
    apply S in E; [|congruence]. destruct E as [EX E]. apply S in E; [|congruence]. destruct E as [EY E]. apply S in E; [|congruence]. destruct E as [EZ ET].
    repeat split; apply limbs_inj; assumption.
Qed.
Definition ed_limbs (P : EdPoint B) : Prop := Forall (fun a => array w n (limbs a)) [edX P; edY P; edZ P; edT P].
Definition tw_limbs (P : TwPoint B) : Prop := Forall (fun a => array w n (limbs a)) [twX P; twY P; twZ P; twT P].
Theorem ed_debug : forall P Q, ed_limbs P -> ed_limbs Q -> forall alt, debug alt (ed_doc B fe_doc P) = debug alt (ed_doc B fe_doc Q) <-> P = Q.
Proof.
  intros [X Y Z T] [X' Y' Z' T'] HP HQ alt. split; [|intros ->; reflexivity]. destruct (xyzt_inj _ _ _ _ _ _ _ _ HP HQ) as (A & E & I). cbn [edX edY edZ edT] in *.
  intro K. apply (debug_inj _ _ alt A E) in K. destruct (I alt O K) as (-> & -> & -> & ->). reflexivity.
Qed.
Theorem tw_debug : forall P Q, tw_limbs P -> tw_limbs Q -> forall alt, debug alt (tw_doc B fe_doc P) = debug alt (tw_doc B fe_doc Q) <-> P = Q.
Proof.
  intros [X Y Z T] [X' Y' Z' T'] HP HQ alt. split; [|intros ->; reflexivity]. destruct (xyzt_inj _ _ _ _ _ _ _ _ HP HQ) as (A & E & I). cbn [twX twY twZ twT] in *.
  intro K. apply (debug_inj _ _ alt A E) in K. destruct (I alt O K) as (-> & -> & -> & ->). reflexivity.
Qed.
Theorem dc_debug : forall P Q, tw_limbs P -> tw_limbs Q -> forall alt, debug alt (dc_doc B fe_doc P) = debug alt (dc_doc B fe_doc Q) <-> P = Q.
Proof.
  intros [X Y Z T] [X' Y' Z' T'] HP HQ alt. split; [|intros ->; reflexivity]. destruct (xyzt_inj _ _ _ _ _ _ _ _ HP HQ) as (A & E & I). cbn [twX twY twZ twT] in *.
  intro K. apply debug_inj in K; [|apply tuple_agree; constructor; [exact A|constructor]|apply tuple_ends; constructor; [exact E|constructor]].
  assert (K' : tw_doc B fe_doc (mkTw X Y Z T) alt (if alt then 1%nat else O) = tw_doc B fe_doc (mkTw X' Y' Z' T') alt (if alt then 1%nat else O)).
  { unfold dc_doc, tuple in K. destruct alt; cbn [app entries] in K.
    - apply (f_equal (fun l => tl (tl (tl (tl l))))) in K. cbn [tl] in K. rewrite <- !app_assoc in K. apply app_inv_tail in K. exact K.
    - apply (f_equal (fun l => tl (tl l))) in K. cbn [tl] in K. rewrite <- !app_assoc in K. apply app_inv_tail in K. exact K. }
  destruct (I _ _ K') as (-> & -> & -> & ->). reflexivity.
Qed.
End Points.
Definition ed_debug_u32 := ed_debug u32_backend fe28_doc "FieldElement28" (fun a => a) (fun a => eq_refl) (fun a b H => H) 32 16 ltac:(lia).
Definition tw_debug_u32 := tw_debug u32_backend fe28_doc "FieldElement28" (fun a => a) (fun a => eq_refl) (fun a b H => H) 32 16 ltac:(lia).
Definition dc_debug_u32 := dc_debug u32_backend fe28_doc "FieldElement28" (fun a => a) (fun a => eq_refl) (fun a b H => H) 32 16 ltac:(lia).
Definition ed_debug_fiat P := ed_debug (fiat_backend P) fe56_doc "FieldElement56" (fun a => a) (fun a => eq_refl) (fun a b H => H) 64 8 ltac:(lia).
Definition tw_debug_fiat P := tw_debug (fiat_backend P) fe56_doc "FieldElement56" (fun a => a) (fun a => eq_refl) (fun a b H => H) 64 8 ltac:(lia).
Definition dc_debug_fiat P := dc_debug (fiat_backend P) fe56_doc "FieldElement56" (fun a => a) (fun a => eq_refl) (fun a b H => H) 64 8 ltac:(lia).

(** The digits of a number: its value, and no zero in front. *)
Lemma decimal_head : forall f n acc, 0 < n < 10 ^ Z.of_nat f -> exists c l, decimal f n acc = c :: l /\ digit_val c <> 0.
Proof.
  Transparent decimal. induction f as [|f IH]; intros n acc H; [cbn in H; lia|]. cbn [decimal]. pose proof (Z.mod_pos_bound n 10 ltac:(lia)) as M. destruct (digit_cases (n mod 10) M) as [_ V].
  destruct (Z.ltb_spec n 10) as [L|L].
  - exists (digit (n mod 10)), acc. split; [reflexivity|]. rewrite V, Z.mod_small by lia. lia.
  - apply IH. rewrite Nat2Z.inj_succ, Z.pow_succ_r in H by lia. split; [apply Z.div_str_pos; lia|apply Z.div_lt_upper_bound; lia].
Qed.
Theorem decimal_numbers : forall z, 0 <= z < 2 ^ 64 ->
  let s := debug false (number z) in
  forallb is_digit s = true /\ number_val 0 s = z /\ (z = 0 -> s = list_ascii_of_string "0") /\ (0 < z -> exists c l, s = c :: l /\ digit_val c <> 0).
Proof.
  intros z H s. assert (E : s = decimal 20 z []) by (unfold s, debug, text; cbn [number flat_map piece_text]; apply app_nil_r).
  assert (K : 2 ^ 64 < 10 ^ Z.of_nat 20) by reflexivity. rewrite E. split; [apply decimal_digits; [lia|reflexivity]|].
  split; [rewrite decimal_val by lia; reflexivity|]. split; [intros ->; reflexivity|]. intro P. apply decimal_head. lia.
Qed.

(** A point and its opposite twice over: the neutral element and its negation are equal and print differently. *)
Theorem debug_not_equality : exists P Q : EdPoint u32_backend,
  ed_negate u32_backend P = Ok Q /\ ed_ct_eq u32_backend P Q = Ok true /\ debug false (ed_doc u32_backend fe28_doc P) <> debug false (ed_doc u32_backend fe28_doc Q).
Proof.
  pose (P := ed_identity u32_backend).
  assert (K1 : bind (ed_negate u32_backend P) (fun Q => ed_ct_eq u32_backend P Q) = Ok true) by (vm_compute; reflexivity).
  assert (K2 : bind (ed_negate u32_backend P) (fun Q => Ok (nth 35 (debug false (ed_doc u32_backend fe28_doc Q)) "x"%char)) =
    Ok (nth 35 (debug false (ed_doc u32_backend fe28_doc P)) "x"%char) -> False) by (vm_compute; discriminate).
  destruct (ed_negate u32_backend P) as [Q|] eqn:E; [|discriminate K1]. exists P, Q. split; [exact E|]. cbn [bind] in K1, K2. split; [exact K1|].
  intro X. apply K2. rewrite X. reflexivity.
Qed.
Lemma scalar_text : debug false (scalar_doc scalar_one) = list_ascii_of_string "Scalar([1, 0, 0, 0, 0, 0, 0, 0, 0, 0, 0, 0, 0, 0])".
Proof. vm_compute. reflexivity. Qed.
Lemma bytes_text : debug true (bytes_doc [7; 255; 0]) = list_ascii_of_string "[
    7,
    255,
    0,
]".
Proof. vm_compute. reflexivity. Qed.
Lemma point_text : debug true (dc_doc u32_backend (fun a => fe28_doc (firstn 2 a)) (tw_identity u32_backend)) = list_ascii_of_string "DecafPoint(
    ExtendedPoint {
        X: FieldElement28(
            [
                0,
                0,
            ],
        ),
        Y: FieldElement28(
            [
                1,
                0,
            ],
        ),
        Z: FieldElement28(
            [
                1,
                0,
            ],
        ),
        T: FieldElement28(
            [
                0,
                0,
            ],
        ),
    },
)".
Proof. vm_compute. reflexivity. Qed.
Lemma limbs_case : Forall (array 32 16) [edX (ed_generator u32_backend); edY (ed_generator u32_backend); edZ (ed_generator u32_backend); edT (ed_generator u32_backend)].
Proof.
  repeat apply Forall_cons; try apply Forall_nil; (split; [reflexivity|]; apply Forall_forall; intros x Hx; vm_compute in Hx;
    repeat (destruct Hx as [<-|Hx]; [split; [discriminate|reflexivity]|]); contradiction Hx).
Qed.

(** ** The texts, written out *)
Local Opaque decimal.
Lemma text_app : forall a b, text (a ++ b) = text a ++ text b. Proof. intros a b. unfold text. apply flat_map_app. Qed.
Lemma text_cons : forall p l, text (p :: l) = piece_text p ++ text l. Proof. reflexivity. Qed.
Lemma entries_text : forall l i, text (entries false i l) = commas (map (fun d => text (d false i)) l).
Proof.
  induction l as [|d [|d' l] IH]; intro i; [reflexivity| |].
  - cbn [entries map commas]. rewrite app_nil_r. reflexivity.
  - change (entries false i (d :: d' :: l)) with (d false i ++ [lit ", "] ++ entries false i (d' :: l)). rewrite !text_app, IH. cbn [map commas]. reflexivity.
Qed.
Lemma entries_text_lines : forall l i, text (entries true i l) = lines (4 * S i) (map (fun d => text (d true (S i))) l).
Proof.
  induction l as [|d l IH]; intro i; [reflexivity|]. cbn [entries]. rewrite !text_app, IH. unfold lines. cbn [map flat_map]. rewrite <- !app_assoc. f_equal. apply app_nil_r.
Qed.
Lemma seq_text : forall l i, text (seq l false i) = str "[" ++ commas (map (fun d => text (d false i)) l) ++ str "]".
Proof. intros [|d l] i; [reflexivity|]. unfold seq. rewrite !text_app, entries_text. reflexivity. Qed.
Lemma seq_text_lines : forall l i, l <> [] ->
  text (seq l true i) = str "[" ++ [ascii_of_nat 10] ++ lines (4 * S i) (map (fun d => text (d true (S i))) l) ++ repeat " "%char (4 * i) ++ str "]".
Proof.
  intros [|d l] i H; [contradiction H; reflexivity|]. unfold seq. rewrite !text_app, entries_text_lines, text_cons. cbn [text flat_map piece_text nl lit indent]. rewrite !app_nil_r. rewrite <- !app_assoc. reflexivity.
Qed.
Definition in_decimal (z : Z) : list ascii := debug false (number z).
Lemma numbers_text : forall a alt i, map (fun d : doc => text (d alt i)) (map number a) = map in_decimal a.
Proof. intros a alt i. rewrite map_map. apply map_ext. reflexivity. Qed.
Theorem bytes_written : forall b, debug false (bytes_doc b) = str "[" ++ commas (map in_decimal b) ++ str "]".
Proof. intro b. unfold debug, bytes_doc. rewrite seq_text, numbers_text. reflexivity. Qed.
Theorem bytes_written_lines : forall b, b <> [] -> debug true (bytes_doc b) = str "[" ++ [ascii_of_nat 10] ++ lines 4 (map in_decimal b) ++ str "]".
Proof. intros b H. unfold debug, bytes_doc. rewrite seq_text_lines, numbers_text; [reflexivity|]. destruct b; [contradiction H; reflexivity|discriminate]. Qed.
Lemma tuple_text : forall n d i, text (tuple n [d] false i) = str n ++ str "(" ++ text (d false i) ++ str ")".
Proof. intros n d i. unfold tuple. rewrite !text_app, entries_text, text_cons. cbn [map commas text flat_map piece_text lit]. rewrite !app_nil_r, <- !app_assoc. reflexivity. Qed.
Lemma limbs_text : forall n a i, text (tuple n [seq (map number a)] false i) = str n ++ str "([" ++ commas (map in_decimal a) ++ str "])".
Proof. intros n a i. rewrite tuple_text, seq_text, numbers_text. rewrite <- !app_assoc. reflexivity. Qed.
Theorem scalar_written : forall s, debug false (scalar_doc s) = str "Scalar([" ++ commas (map in_decimal s) ++ str "])".
Proof. intro s. unfold debug, scalar_doc. rewrite limbs_text. reflexivity. Qed.
Lemma point_written : forall (B : backend) (f : fe B -> doc) X Y Z T i,
  text (xyzt_doc B f X Y Z T false i) = str "ExtendedPoint { X: " ++ text (f X false i) ++ str ", Y: " ++ text (f Y false i) ++
    str ", Z: " ++ text (f Z false i) ++ str ", T: " ++ text (f T false i) ++ str " }".
Proof.
  intros B f X Y Z T i. unfold xyzt_doc, struct. rewrite !text_app, entries_text. unfold field. cbn [map commas]. rewrite !text_app, !text_cons. cbn [text flat_map piece_text lit]. rewrite !app_nil_r, <- !app_assoc. reflexivity.
Qed.
Theorem ed_written_u32 : forall P : EdPoint u32_backend, debug false (ed_doc u32_backend fe28_doc P) = coordinates_written in_decimal "FieldElement28" (edX P) (edY P) (edZ P) (edT P).
Proof. intro P. unfold debug, ed_doc. rewrite point_written. unfold fe28_doc. rewrite !limbs_text. reflexivity. Qed.
Theorem dc_written_u32 : forall P : TwPoint u32_backend,
  debug false (dc_doc u32_backend fe28_doc P) = str "DecafPoint(" ++ coordinates_written in_decimal "FieldElement28" (twX P) (twY P) (twZ P) (twT P) ++ str ")".
Proof. intro P. unfold debug, dc_doc, tw_doc. rewrite tuple_text, point_written. unfold fe28_doc. rewrite !limbs_text. reflexivity. Qed.
Theorem ed_written_fiat : forall F (P : EdPoint (fiat_backend F)), debug false (ed_doc (fiat_backend F) fe56_doc P) = coordinates_written in_decimal "FieldElement56" (edX P) (edY P) (edZ P) (edT P).
Proof. intros F P. unfold debug, ed_doc. rewrite point_written. unfold fe56_doc. rewrite !limbs_text. reflexivity. Qed.
Theorem dc_written_fiat : forall F (P : TwPoint (fiat_backend F)),
  debug false (dc_doc (fiat_backend F) fe56_doc P) = str "DecafPoint(" ++ coordinates_written in_decimal "FieldElement56" (twX P) (twY P) (twZ P) (twT P) ++ str ")".
Proof. intros F P. unfold debug, dc_doc, tw_doc. rewrite tuple_text, point_written. unfold fe56_doc. rewrite !limbs_text. reflexivity. Qed.

(** Over several lines. *)
Lemma tuple_text_lines : forall n d i, text (tuple n [d] true i) =
  str n ++ str "(" ++ [ascii_of_nat 10] ++ lines (4 * S i) [text (d true (S i))] ++ repeat " "%char (4 * i) ++ str ")".
Proof.
  intros n d i. unfold tuple. rewrite !text_app, entries_text_lines, !text_cons. cbn [map]. unfold nl, lit, indent. cbn [piece_text]. cbn [text flat_map].
  rewrite !app_nil_r, <- !app_assoc. reflexivity.
Qed.
Lemma limbs_text_lines : forall n a i, a <> [] -> text (tuple n [seq (map number a)] true i) = limbs_in_lines in_decimal (4 * i) n a.
Proof.
  intros n a i H. assert (Hm : map number a <> []) by (destruct a; [contradiction H; reflexivity|discriminate]).
  rewrite tuple_text_lines, seq_text_lines, numbers_text by exact Hm. unfold limbs_in_lines.
  replace (4 * S i)%nat with (4 * i + 4)%nat by lia. replace (4 * S (S i))%nat with (4 * i + 8)%nat by lia.
  set (L := lines (4 * i + 8) (map in_decimal a)). unfold lines. cbn [flat_map]. rewrite app_nil_r, <- !app_assoc. reflexivity.
Qed.
Theorem scalar_written_lines : forall s, s <> [] -> debug true (scalar_doc s) = limbs_in_lines in_decimal 0 "Scalar" s.
Proof. intros s H. unfold debug, scalar_doc. rewrite limbs_text_lines by exact H. reflexivity. Qed.
Lemma point_written_lines : forall (B : backend) (f : fe B -> doc) X Y Z T i,
  text (xyzt_doc B f X Y Z T true i) = str "ExtendedPoint {" ++ [ascii_of_nat 10] ++
    lines (4 * S i) [str "X: " ++ text (f X true (S i)); str "Y: " ++ text (f Y true (S i)); str "Z: " ++ text (f Z true (S i)); str "T: " ++ text (f T true (S i))] ++
    repeat " "%char (4 * i) ++ str "}".
Proof.
  intros B f X Y Z T i. unfold xyzt_doc, struct. rewrite !text_app, entries_text_lines. cbn [map]. unfold field. rewrite !text_app.
  set (L := lines (4 * S i) _). rewrite !text_cons. unfold nl, lit, indent. cbn [piece_text]. cbn [text flat_map]. rewrite !app_nil_r, <- !app_assoc. subst L.
  rewrite !text_cons. cbn [text flat_map]. reflexivity.
Qed.
Lemma coordinates_lines : forall (B : backend) (f : fe B -> doc) name X Y Z T x y z t i,
  (forall v w i, (v, w) = (X, x) \/ (v, w) = (Y, y) \/ (v, w) = (Z, z) \/ (v, w) = (T, t) -> text (f v true i) = limbs_in_lines in_decimal (4 * i) name w) ->
  text (xyzt_doc B f X Y Z T true i) = coordinates_in_lines in_decimal (4 * i) name x y z t.
Proof.
  intros B f name X Y Z T x y z t i H. rewrite point_written_lines. unfold coordinates_in_lines.
  rewrite (H X x), (H Y y), (H Z z), (H T t) by tauto. replace (4 * S i)%nat with (4 * i + 4)%nat by lia. reflexivity.
Qed.
Lemma decaf_lines : forall d c, text (d true 1%nat) = c ->
  text (tuple "DecafPoint" [d] true O) = str "DecafPoint(" ++ [ascii_of_nat 10] ++ lines 4 [c] ++ str ")".
Proof. intros d c <-. rewrite tuple_text_lines. reflexivity. Qed.
Local Ltac coords H :=
  let v := fresh in let w := fresh in let i := fresh in let E := fresh in
  intros v w i E; destruct E as [E|[E|[E|E]]]; injection E as -> ->; apply limbs_text_lines; rewrite Forall_forall in H; apply H; cbn [In]; tauto.
Definition no_empty (l : list (list Z)) : Prop := Forall (fun a => a <> []) l.
Theorem ed_lines_u32 : forall P : EdPoint u32_backend, no_empty [edX P; edY P; edZ P; edT P] ->
  debug true (ed_doc u32_backend fe28_doc P) = coordinates_in_lines in_decimal 0 "FieldElement28" (edX P) (edY P) (edZ P) (edT P).
Proof. intros P H. unfold no_empty in H. unfold debug, ed_doc. apply (coordinates_lines u32_backend fe28_doc "FieldElement28" _ _ _ _ _ _ _ _ O). coords H. Qed.
Theorem dc_lines_u32 : forall P : TwPoint u32_backend, no_empty [twX P; twY P; twZ P; twT P] ->
  debug true (dc_doc u32_backend fe28_doc P) =
  str "DecafPoint(" ++ [ascii_of_nat 10] ++ lines 4 [coordinates_in_lines in_decimal 4 "FieldElement28" (twX P) (twY P) (twZ P) (twT P)] ++ str ")".
Proof.
  intros P H. unfold no_empty in H. unfold debug, dc_doc, tw_doc. apply decaf_lines. apply (coordinates_lines u32_backend fe28_doc "FieldElement28" _ _ _ _ _ _ _ _ 1%nat). coords H.
Qed.
Theorem ed_lines_fiat : forall F (P : EdPoint (fiat_backend F)), no_empty [edX P; edY P; edZ P; edT P] ->
  debug true (ed_doc (fiat_backend F) fe56_doc P) = coordinates_in_lines in_decimal 0 "FieldElement56" (edX P) (edY P) (edZ P) (edT P).
Proof. intros F P H. unfold no_empty in H. unfold debug, ed_doc. apply (coordinates_lines (fiat_backend F) fe56_doc "FieldElement56" _ _ _ _ _ _ _ _ O). coords H. Qed.
Theorem dc_lines_fiat : forall F (P : TwPoint (fiat_backend F)), no_empty [twX P; twY P; twZ P; twT P] ->
  debug true (dc_doc (fiat_backend F) fe56_doc P) =
  str "DecafPoint(" ++ [ascii_of_nat 10] ++ lines 4 [coordinates_in_lines in_decimal 4 "FieldElement56" (twX P) (twY P) (twZ P) (twT P)] ++ str ")".
Proof.
  intros F P H. unfold no_empty in H. unfold debug, dc_doc, tw_doc. apply decaf_lines. apply (coordinates_lines (fiat_backend F) fe56_doc "FieldElement56" _ _ _ _ _ _ _ _ 1%nat). coords H.
Qed.
