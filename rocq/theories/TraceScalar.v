(** Decoding scalars, word by word. *)
Require Import ZArith List Bool Lia.
From Verif Require Import Base BaseProofs SpecParams FieldBackend FieldU32Model Backends ScalarModel ScalarProofs ScalarProofs2 ApiExpr
  Steps StepU32 StepScalar StepCurve StepPlain StepRelWords StepRelCurve TraceSpec TraceLogic TraceLogicWords.
Import ListNotations.
Open Scope Z_scope.
Delimit Scope step_scope with step.

Lemma f_step : forall E A A' D D' d d2 (R : A -> A' -> Prop) (T : D -> D' -> Prop) (m : run (tracing E) A) a' f y, follows d R m (Ok a') ->
  (forall a, R a a' -> follows d2 T (f a) y) -> follows (d ++ d2) T (andthen m f) y.
Proof.
  intros E A A' D D' d d2 R T m a' f y H G. refine (f_bind d (fun _ => d2) R T m (Ok a') f (fun _ => y) H _). intros a b Ra Eb. injection Eb as <-. apply G. exact Ra.
Qed.
Lemma index_nth : forall (b : list Z) n i, length b = n -> 0 <= i < Z.of_nat n -> index b i = Ok (nth (Z.to_nat i) b 0).
Proof. intros b n i Hb Hi. unfold index. destruct (Z.ltb_spec i 0) as [N|_]; [lia|]. rewrite (nth_error_nth' b 0) by lia. reflexivity. Qed.
Lemma top_bytes : forall b, bytes 57 b ->
  negb (nth 56 b 0 =? 0) = (2 ^ 448 <=? le_val b) /\ (2 ^ 448 <=? le_val b = false -> negb (Base.shr (nth 55 b 0) 6 =? 0) = (2 ^ 446 <=? le_val b)).
Proof.
  intros b Hb.
  assert (Hb55 : bytes 55 (firstn 55 b)) by (apply (array_firstn 8 57 55); [lia|exact Hb]).
  assert (HL : length b = 57%nat) by apply Hb.
  pose proof (firstn_skipn 55 b) as Eb. assert (E5 : nth 55 b 0 = nth 0 (skipn 55 b) 0 /\ nth 56 b 0 = nth 1 (skipn 55 b) 0).
  { rewrite <- Eb at 1 3. rewrite !app_nth2; rewrite (proj1 Hb55); try lia. split; reflexivity. }
  destruct E5 as [-> ->]. pose proof (array_range 8 55 _ ltac:(lia) Hb55) as Bd.
  assert (EV : le_val b = le_val (firstn 55 b) + 2 ^ 440 * le_val (skipn 55 b)).
  { rewrite <- Eb at 1. unfold le_val. rewrite eval_app by lia. rewrite (proj1 Hb55). reflexivity. }
  pose proof (array_skipn 8 57 55 b Hb) as [_ Hs].
  assert (Hl : length (skipn 55 b) = 2%nat) by (rewrite skipn_length, HL; reflexivity).
  destruct (skipn 55 b) as [|x [|y [|? ?]]]; try discriminate Hl. cbn [nth]. inversion Hs as [|? ? Hx Hs1]; subst. inversion Hs1 as [|? ? Hy _]; subst.
  change (le_val [x; y]) with (x + 2 ^ 8 * (y + 2 ^ 8 * 0)) in EV. change (2 ^ 8) with 256 in *. unfold le_val in *. change (2 ^ (8 * Z.of_nat 55)) with (2 ^ 440) in Bd.
  change (2 ^ 448) with (2 ^ 440 * 256). change (2 ^ 446) with (2 ^ 440 * 64). generalize dependent (2 ^ 440). intros q. intros.
  split.
  - destruct (Z.eqb_spec y 0) as [->|N]; cbn [negb]; symmetry; [apply Z.leb_gt|apply Z.leb_le]; nia.
  - intro G. apply Z.leb_gt in G. assert (y = 0) by nia. subst y. unfold Base.shr. rewrite Z.shiftr_div_pow2 by lia. change (2 ^ 6) with 64.
    destruct (Z.eqb_spec (x / 64) 0) as [E|N]; cbn [negb]; symmetry; [apply Z.leb_gt|apply Z.leb_le].
    + assert (x < 64) by (apply Z.nle_gt; intro; assert (1 <= x / 64) by (apply Z.div_le_lower_bound; lia); lia). nia.
    + assert (64 <= x) by (apply Z.nlt_ge; intro; apply N; apply Z.div_small; lia). nia.
Qed.
Lemma sub_words : forall b (n : nat), length b = 57%nat -> Forall2 Wplain (firstn n (inputs 0 57 b)) (firstn n b).
Proof. intros b n Hb. apply (F2_firstn _ _ watched plain Wplain). apply inputs_plain. exact Hb. Qed.
Lemma f_canonical : forall b, bytes 57 b -> follows (scalar_branches b) (Ropt (Forall2 Wplain)) (scalar_from_canonical_bytesS (tracing word_op) watched (inputs 0 57 b)) (scalar_from_canonical_bytes b).
Proof.
  intros b Hb. pose proof (proj1 Hb) as Hl. destruct (top_bytes b Hb) as [T1 T2]. destruct (from_canonical_ok b Hb) as [Acc Rej]. revert Acc Rej.
  unfold scalar_branches, scalar_from_canonical_bytes, scalar_from_canonical_bytesS. rewrite (index_nth b 57 56 Hl), (index_nth b 57 55 Hl) by lia.
  change (Z.to_nat 56) with 56%nat. change (Z.to_nat 55) with 55%nat. cbn [bind]. rewrite T1. intros Acc Rej.
  change (indexS (inputs 0 57 b) 56) with (@ret (tracing word_op) _ (nth 56 b 0, WIn 56)). change (indexS (inputs 0 57 b) 55) with (@ret (tracing word_op) _ (nth 55 b 0, WIn 55)).
  assert (F56 : follows [] eq (test watched TNonZero (nth 56 b 0, WIn 56)) (Ok (2 ^ 448 <=? le_val b))) by (split; [reflexivity|exact T1]).
  assert (R0 : forall A (x : A), follows [] eq (@ret (tracing word_op) A x) (Ok x)) by (intros; split; reflexivity).
  destruct (2 ^ 448 <=? le_val b) eqn:E1; cbn [orb].
  { apply (f_step _ _ _ _ _ [] [true] eq _ _ _ _ _ (R0 _ _)). intros ? ->. apply (f_step _ _ _ _ _ [] [true] eq _ _ _ _ _ F56). intros ? ->.
    apply (f_step _ _ _ _ _ [true] [] eq _ _ _ _ _ (f_goes true true eq_refl)). intros ? ->. split; [reflexivity|exact I]. }
  rewrite (T2 eq_refl) in *. cbn [orb] in *.
  assert (F55 : follows [2 ^ 446 <=? le_val b] eq (b55 <- @ret (tracing word_op) _ (nth 55 b 0, WIn 55) ;; x <- lift1 (un watched (UShr 6)) (w_ret (b55 : word watched)) ;; t <- test watched TNonZero x ;; branch watched t)%step
    (Ok (2 ^ 446 <=? le_val b))) by (rewrite <- (T2 eq_refl); split; reflexivity).
  destruct (2 ^ 446 <=? le_val b) eqn:E2.
  { apply (f_step _ _ _ _ _ [] [false; true] eq _ _ _ _ _ (R0 _ _)). intros ? ->. apply (f_step _ _ _ _ _ [] [false; true] eq _ _ _ _ _ F56). intros ? ->.
    apply (f_step _ _ _ _ _ [false] [true] eq _ _ _ _ _ (f_goes false false eq_refl)). intros ? ->. apply (f_step _ _ _ _ _ [true] [] eq _ _ _ _ _ F55). intros ? ->. split; [reflexivity|exact I]. }
  cbv zeta in *. set (c := scalar_from_bytes (firstn 56 b)) in *.
  pose proof (p_scalar_from_bytes _ _ (quiet word_op) watched plain Wplain watched_quiet _ _ (sub_words b 56 Hl)) as Fc. rewrite e_scalar_from_bytes in Fc. fold c in Fc.
  destruct (sub_extra c MODULUS 0) as [r|] eqn:Er; cbn [bind] in *.
  2:{ destruct (Z_lt_le_dec (le_val b) ell) as [G|G]; [destruct (Acc G) as (? & X & _); discriminate X|discriminate (Rej G)]. }
  assert (El : scalar_eqb c r = (le_val b <? ell)).
  { destruct (Z.ltb_spec (le_val b) ell) as [G|G]; [destruct (Acc G) as (? & X & _)|pose proof (Rej G) as X]; destruct (scalar_eqb c r); try reflexivity; discriminate X. }
  rewrite El in *. clear Acc Rej.
  apply (f_step _ _ _ _ _ [] [false; false; le_val b <? ell] eq _ _ _ _ _ (R0 _ _)). intros ? ->. apply (f_step _ _ _ _ _ [] [false; false; le_val b <? ell] eq _ _ _ _ _ F56). intros ? ->.
  apply (f_step _ _ _ _ _ [false] [false; le_val b <? ell] eq _ _ _ _ _ (f_goes false false eq_refl)). intros ? ->. apply (f_step _ _ _ _ _ [false] [le_val b <? ell] eq _ _ _ _ _ F55). intros ? ->.
  apply (f_step _ _ _ _ _ [] [le_val b <? ell] _ _ _ _ _ _ Fc). intros cw Hc.
  pose proof (p_sub_extra _ _ (quiet word_op) watched plain Wplain watched_quiet cw c _ _ _ _ Hc (w_lits _ _ _ _ _ _ watched_quiet MODULUS) (w_lit _ _ _ _ _ _ watched_quiet 0)) as Fr.
  change (sub_extraS panics plain c (map (lit plain) MODULUS) (lit plain 0)) with (sub_extra c MODULUS 0) in Fr. rewrite Er in Fr.
  apply (f_step _ _ _ _ _ [] [le_val b <? ell] _ _ _ _ _ _ Fr). intros rw Hr.
  pose proof (p_scalar_eqb _ _ (quiet word_op) watched plain Wplain watched_quiet cw c rw r Hc Hr) as Fe. rewrite e_scalar_eqb, El in Fe.
  apply (f_step _ _ _ _ _ [] [le_val b <? ell] _ _ _ _ _ _ Fe). intros ? ->.
  apply (f_step _ _ _ _ _ [le_val b <? ell] [] eq _ _ _ _ _ (f_goes _ _ eq_refl)). intros ? ->. destruct (le_val b <? ell); split; first [reflexivity | exact I | exact Hc].
Qed.
Theorem words_canonical : forall b, bytes 57 b -> follows (scalar_branches b) (Ropt eq) (m_sc_canonical words_machine b) (scalar_from_canonical_bytes b).
Proof.
  intros b Hb. pose proof (f_canonical b Hb) as H. cbn [words_machine word_machine m_sc_canonical].
  pose proof (f_bind (scalar_branches b) (fun _ => []) _ (Ropt eq) _ _ (fun r => match r with Some s => t <- reveal_all watched s ;; ret (Some t) | None => ret None end)%step (fun o : option scalar => Ok o) H) as G.
  destruct (scalar_from_canonical_bytes b) as [o|]; cbn [bind] in G; rewrite app_nil_r in G; apply G; clear G.
  - intros [a|] [a'|] Ha Eo; cbn [Ropt] in Ha; try contradiction; [|split; [reflexivity|exact I]].
    pose proof (p_reveal_all _ _ (quiet word_op) watched plain Wplain watched_quiet a a' Ha) as F. change (reveal_all plain a') with (reveal_all plain (a' : list Z)) in F. rewrite e_reveal in F.
    apply (f_step _ _ _ _ _ [] [] eq _ _ _ _ _ F). intros v ->. split; reflexivity.
  - intros a a' Ha Eo. discriminate Eo.
Qed.
