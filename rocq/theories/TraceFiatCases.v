(** Cases for the 64-bit word machine. *)
Require Import ZArith List Bool Lia.
From Verif Require Import Base SpecParams SpecDecaf FieldBackend FieldFiatModel FiatCode FiatMain Backends ScalarModel DecafModel ApiExpr
  Steps StepFiat StepCurve TraceSpec TraceSpec64 TraceMain TraceWords TraceCases TraceFiat.
Import ListNotations.
Open Scope Z_scope.

Lemma shared64 : forall t t', is_scalar t -> is_scalar t' ->
  let shared b t := ADcCompress (ADcMul (ADcDecompress b) t) in
  api_ok (shared rfc_generator t) /\ api_ok (shared (repeat 0 56) t') /\
  fst (word64_run (shared rfc_generator t)) = fst (word64_run (shared (repeat 0 56) t')) /\
  branches (fst (word64_run (shared rfc_generator t))) = [false; false; false].
Proof.
  intros t t' Ht Ht'. destruct (shared_case (fiat_backend fiat_code) shipped_code t t' Ht Ht') as (K & K' & C & _ & _ & D). split; [exact K|]. split; [exact K'|]. split.
  - destruct (word64_alike _ _ _ K K' C) as (tr & o & o' & F & F' & _). unfold shared in F, F'. rewrite F, F'. reflexivity.
  - rewrite (field_branches _ shipped_code _ _ K) in D. exact (eq_trans (word64_branches _ _ K) D).
Qed.
Lemma cmov_steps : forall c x y,
  let mask := WUn (UCast 64) (WBin BAnd (WChk CI8Sub (WLit 0) WUnwrap) (WLit mask64)) in
  fst (conditional_select56S (tracing word_op) watched [x] [y] c) =
  [Does (OWord WUnwrap);
   Does (OWord (WChk CI8Sub (WLit 0) WUnwrap)); Does (OWord (WBin BAnd (WChk CI8Sub (WLit 0) WUnwrap) (WLit mask64))); Does (OWord mask);
   Does (OWord (WBin BAnd mask (snd y))); Does (OWord (WBin BXor mask (WLit mask64))); Does (OWord (WBin BAnd (WBin BXor mask (WLit mask64)) (snd x)));
   Does (OWord (WBin BOr (WBin BAnd mask (snd y)) (WBin BAnd (WBin BXor mask (WLit mask64)) (snd x))))].
Proof. intros [|] x y; reflexivity. Qed.
(** Selecting by a branch is found out. *)
Lemma select_branch_seen :
  let select (c : bool) (a b : list (Z * wshape)) := andthen (branch watched c) (fun c : bool => @ret (tracing word_op) _ (if c then b else a)) in
  ~ same_steps exprs (select true [(1, WIn 0)] [(2, WIn 1)]) (select false [(1, WIn 0)] [(2, WIn 1)]).
Proof. intros select (H & _). discriminate H. Qed.
