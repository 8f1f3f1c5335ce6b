(** Counting operations on words: inversion of scalars and decoding of scalars (for C78). *)
Require Import ZArith List Bool Lia.
From Verif Require Import Base BaseProofs SpecParams ScalarModel ScalarProofs ScalarProofs2 ScalarMain
  Steps StepScalar StepPlain StepRelWords TraceSpec TraceLogic TraceLogicWords TraceScalar TraceWords CostSpec CostMain WeighLogic WeighMain.
Import ListNotations.
Open Scope Z_scope.

Notation p2 f := (f _ _ (two word_op) watched watched Wshape watched_two).
Notation pq f := (f _ _ (quiet word_op) watched plain Wplain watched_quiet).
Definition mont_weight : N * N := (2185, 406)%N.
Definition mm := (montgomery_multiplyS (tracing word_op) watched).
Lemma mont_tally : forall a b, length a = 14%nat -> length b = 14%nat -> rl tally (Rlen 14) (mm a b) (spend mont_weight tt).
Proof.
  intros a b Ha Hb. refine (tally_of _ _ _ _ _ _ _ _ _ (mm (void a) (void b)) _ _ (pq p_mont a _ b _ (plain_of a) (plain_of b)) (p2 p_mont a _ b _ (void_shape a) (void_shape b)) _ _ _);
    [apply some_list| |]; spread a Ha; spread b Hb; vm.
Qed.
(** The code of StepScalar.v (scalar.rs:181-247) with nothing but its calls. *)
Record invC : Type := mkInvC { ic_residue : Z; ic_trailing : Z; ic_started : bool }.
Definition inv_stepC (i : Z) (st : invC) : run counter invC :=
  andthen (if ic_started st then spend mont_weight tt else ret tt) (fun _ =>
  andthen (match inv_bit i with Ok b => ret b | Panic => fail end) (fun b =>
  let residue := Z.lor (shl_u 32 (ic_residue st) 1) b in
  let '(trailing, residue) := if shr residue 3 =? 0 then (ic_trailing st, residue) else (residue, 0) in
  if (0 <? trailing) && (Z.land trailing 7 =? 0) then
    andthen (indexS (repeat tt 8) (shr trailing 4)) (fun _ =>
    andthen (if ic_started st then spend mont_weight tt else ret tt) (fun _ => ret (mkInvC residue 0 true)))
  else ret (mkInvC residue (shl_u 64 trailing 1) (ic_started st)))).
Fixpoint inv_loopC (n : nat) (i : Z) (st : invC) : run counter invC :=
  match n with O => ret st | S n' => andthen (inv_stepC i st) (fun st' => inv_loopC n' (i - 1) st') end.
Definition invertC : run counter unit :=
  andthen (spend (9 * fst mont_weight, 9 * snd mont_weight)%N tt) (fun _ => andthen (inv_loopC 449 445 (mkInvC 0 0 false)) (fun _ => spend mont_weight tt)).

Notation st32 := (inv_stateS (tracing word_op) watched).
Definition Rinv (s : st32) (c : invC) : Prop :=
  length (iv_resultS _ _ s) = 14%nat /\ iv_residueS _ _ s = ic_residue c /\ iv_trailingS _ _ s = ic_trailing c /\ iv_startedS _ _ s = ic_started c.
Lemma tally_index : forall A A' (R : A -> A' -> Prop) l l' i, Forall2 R l l' -> rl tally R (indexS l i) (indexS l' i).
Proof. intros. apply p_index. assumption. Qed.
Lemma inv_step_tally : forall pre i s c, Forall2 (Rlen 14) pre (repeat tt 8) -> Rinv s c -> rl tally Rinv (inv_stepS (tracing word_op) watched pre i s) (inv_stepC i c).
Proof.
  intros pre i [r re t st] [re' t' st'] Hp (Hr & E1 & E2 & E3). cbn [iv_resultS iv_residueS iv_trailingS iv_startedS ic_residue ic_trailing ic_started] in *. subst. unfold inv_stepS, inv_stepC.
  cbn [iv_resultS iv_residueS iv_trailingS iv_startedS ic_residue ic_trailing ic_started].
  apply (l_bind tally (Rlen 14)); [destruct st'; [exact (mont_tally r r Hr Hr)|apply (l_ret tally); exact Hr]|]. intros q [] Hq.
  apply (l_bind tally eq); [destruct (inv_bit i); [apply (l_ret tally); reflexivity|apply (l_fail tally)]|]. intros b ? <-. cbv zeta.
  destruct (if shr (Z.lor (shl_u 32 re' 1) b) 3 =? 0 then (t', Z.lor (shl_u 32 re' 1) b) else (Z.lor (shl_u 32 re' 1) b, 0)) as [tr rs].
  destruct ((0 <? tr) && (Z.land tr 7 =? 0)).
  - apply (l_bind tally (Rlen 14)); [apply tally_index; exact Hp|]. intros p [] Hpp. 
    apply (l_bind tally (Rlen 14)); [destruct st'; [exact (mont_tally q p Hq Hpp)|apply (l_ret tally); exact Hpp]|]. intros v [] Hv. apply (l_ret tally). repeat split. exact Hv.
  - apply (l_ret tally). repeat split. exact Hq.
Qed.
Lemma inv_loop_tally : forall n i pre s c, Forall2 (Rlen 14) pre (repeat tt 8) -> Rinv s c -> rl tally Rinv (inv_loopS (tracing word_op) watched n i pre s) (inv_loopC n i c).
Proof.
  induction n as [|n IH]; intros i pre s c Hp Hs; cbn [inv_loopS inv_loopC]; [apply (l_ret tally); exact Hs|].
  apply (l_bind tally Rinv); [apply inv_step_tally; assumption|]. intros s' c' H'. apply IH; assumption.
Qed.
Lemma precomp_tally : forall a, length a = 14%nat -> rl tally (fun pre _ => Forall2 (Rlen 14) pre (repeat tt 8)) (inv_precompS (tracing word_op) watched a) (spend (9 * fst mont_weight, 9 * snd mont_weight)%N tt).
Proof.
  intros a Ha.
  assert (G : rl tally (fun pre _ => Forall2 (Rlen 14) pre (repeat tt 8)) (inv_precompS (tracing word_op) watched a)
    (let m := spend mont_weight tt in andthen m (fun _ => andthen m (fun _ => andthen m (fun _ => andthen m (fun _ => andthen m (fun _ => andthen m (fun _ => andthen m (fun _ => andthen m (fun _ => andthen m (fun _ => ret tt))))))))))).
  { unfold inv_precompS. cbv zeta. do 9 (apply (l_bind tally (Rlen 14)); [apply mont_tally; first [assumption|reflexivity]|intros ? [] ?]). apply (l_ret tally). repeat (apply Forall2_cons; [assumption|]). constructor. }
  exact G.
Qed.
Lemma invert_tally : forall a, length a = 14%nat -> rl tally (Rlen 14) (scalar_invertS (tracing word_op) watched a) invertC.
Proof.
  intros a Ha. unfold scalar_invertS, invertC. apply (l_bind tally (fun pre _ => Forall2 (Rlen 14) pre (repeat tt 8))); [apply precomp_tally; exact Ha|]. intros pre [] Hp.
  apply (l_bind tally Rinv); [apply inv_loop_tally; [exact Hp|repeat split]|]. intros s c (Hs & _). apply mont_tally; [exact Hs|reflexivity].
Qed.
Theorem weigh_scalar_invert : forall a, is_scalar (vals a) -> word_costs (scalar_invertS (tracing word_op) watched a) 1208305 224518.
Proof.
  intros a Ha. pose proof (eq_trans (vals_length a) (proj1 Ha)) as La.
  refine (weighed _ _ _ _ _ _ _ _ _ (1208305, 224518)%N (pq p_scalar_invert a _ (plain_of a)) _ (invert_tally a La) _); [|vm].
  rewrite e_scalar_invert. destruct (scalar_invert_ok (vals a) Ha) as (r & E & _). exists r. exact E.
Qed.
(** Decoding: a string on which the decoder takes the same ways. *)
Definition like (b : list Z) : list Z :=
  if 2 ^ 448 <=? le_val b then repeat 0 56 ++ [1] else if 2 ^ 446 <=? le_val b then repeat 0 55 ++ [64; 0] else
  if le_val b <? ell then repeat 0 57 else repeat 255 55 ++ [63; 0].
Theorem weigh_canonical : forall b, bytes 57 b ->
  word_spends (scalar_from_canonical_bytesS (tracing word_op) watched (inputs 0 57 b))
    (if 2 ^ 448 <=? le_val b then 2%N else if 2 ^ 446 <=? le_val b then 5%N else 904%N) 0.
Proof.
  intros b Hb. pose proof (f_canonical b Hb) as (Fb & Fr).
  pose proof (p2 p_canonical (fun c c' _ => two_goes word_op c c') (inputs 0 57 b) (inputs 0 57 (like b)) (inputs_shape _ _ _ _)) as G.
  assert (E : exists r, snd (scalar_from_canonical_bytesS (tracing word_op) watched (inputs 0 57 b)) = Ok r).
  { destruct (snd _) as [r|]; [exists r; reflexivity|]. destruct (from_canonical_ok b Hb) as (A & R). destruct (Z_lt_le_dec (le_val b) ell) as [H|H].
    - destruct (A H) as (s & Es & _). rewrite Es in Fr. contradiction Fr.
    - rewrite (R H) in Fr. contradiction Fr. }
  destruct E as (r & Er). split; [exists r; exact Er|]. unfold scalar_branches in Fb. unfold like in G.
  destruct (2 ^ 448 <=? le_val b); [|destruct (2 ^ 446 <=? le_val b); [|destruct (le_val b <? ell)]];
    (match type of G with rl _ _ _ ?y => destruct (snd y) as [r'|] eqn:Er'; [|vm_compute in Er'; discriminate Er'] end;
     destruct (G r r' Er Er' [] []) as (Et & _); [rewrite Fb; vm_compute; reflexivity|]; rewrite Et; clear; split; vm).
Qed.
