(** The number of operations of a run (for C67). *)
Require Import ZArith List Bool.
From Verif Require Import Base Steps TraceSpec.
Import ListNotations.

(** Field operations, by kind. *)
Record cost : Type := mkCost { muls : N; squares : N; adds : N; subs : N; negations : N; selections : N; reductions : N }.
Definition counted (f : shape -> bool) (t : list (event operation)) : N :=
  N.of_nat (length (filter (fun e => match e with Does (OField s) => f s | _ => false end) t)).
Definition field_cost (t : list (event operation)) : cost :=
  mkCost (counted (fun s => match s with SMul _ _ => true | _ => false end) t)
         (counted (fun s => match s with SSquare _ => true | _ => false end) t)
         (counted (fun s => match s with SAdd _ _ => true | _ => false end) t)
         (counted (fun s => match s with SSub _ _ => true | _ => false end) t)
         (counted (fun s => match s with SNegate _ => true | _ => false end) t)
         (counted (fun s => match s with SSelect _ _ | SCondNegate _ => true | _ => false end) t)
         (counted (fun s => match s with SReduce _ => true | _ => false end) t).
(** The run returns, without a branch, and costs [c]. *)
Definition costs {A} (x : list (event operation) * res A) (c : cost) : Prop :=
  (exists r, snd x = Ok r) /\ branches (fst x) = [] /\ field_cost (fst x) = c.

(** Operations on words: all of them, and the multiplications among them. *)
Definition word_multiplications (t : list (event word_op)) : N :=
  N.of_nat (length (filter (fun e => match e with Does (OWord (WChk CU32Mul _ _ | WChk CU64Mul _ _ | WChk CI128Mul _ _ | WChk CU128Mul _ _ | WBin (BMul _) _ _)) => true | _ => false end) t)).
Definition word_costs {A} (x : list (event word_op) * res A) (operations multiplications : N) : Prop :=
  (exists r, snd x = Ok r) /\ branches (fst x) = [] /\ N.of_nat (length (fst x)) = operations /\ word_multiplications (fst x) = multiplications.
(** The run returns, whatever branches it takes, and costs this. *)
Definition word_spends {A} (x : list (event word_op) * res A) (operations multiplications : N) : Prop :=
  (exists r, snd x = Ok r) /\ N.of_nat (length (fst x)) = operations /\ word_multiplications (fst x) = multiplications.
