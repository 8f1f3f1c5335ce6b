(** Property C96: checking many signatures at once.

    Reading guide.  [sig_verify] (Signature.v): Ed448 checking written over the crate's public API, the same as RFC 8032 (C66).  [sig_batch]
    (SignatureBatch.v): the check of a list of signatures, each with a scalar z, by one equation: 4 (sum of z S) G = 4 (sum of z (R + h A)).
    [misses_by x d] (SpecBatch.v): the strings of x decode, S < l, and d = S - r - h a modulo l, for the logarithms a and r of the key and R.
    [weighted]: the sum of z d.  [exactly n D]: n strings satisfy D (SpecCount.v).  Random choice of the scalars is not modelled: the theorems
    count the scalars for which a wrong signature is accepted. *)
Require Import ZArith List Bool.
From Verif Require Import Base SpecParams SpecField SpecCurve SpecRfc8032 SpecSignature SpecCount SpecBatch FieldBackend Backends ScalarModel EdwardsModel Signature SignatureBatch BatchMain.
Import ListNotations.
Open Scope Z_scope.
Local Notation items l := (Forall (fun y : scalar * signed => is_scalar (fst y) /\ signed_ok (snd y)) l).
Local Notation readable l := (Forall (fun y : scalar * signed => exists d, misses_by (snd y) d) l).

(** A signature is accepted exactly if it misses by 0, and no signature misses by two amounts. *)
Theorem C96_verify : forall B, shipped B -> forall A R S h, signed_ok (A, R, S, h) -> (sig_verify B A R S h = Ok true <-> misses_by (A, R, S, h) 0).
Proof. exact verify_misses. Qed.
Print Assumptions C96_verify.
Theorem C96_unique : forall x d d', misses_by x d -> misses_by x d' -> d = d'.
Proof. exact misses_unique. Qed.
Print Assumptions C96_unique.

(** The check never panics, and accepts exactly if every string can be read and the weighted sum of what the signatures miss by is 0. *)
Theorem C96_batch : forall B, shipped B -> forall l, items l -> exists b, sig_batch B l = Ok b /\
  (b = true <-> exists ds, Forall2 misses_by (map snd l) ds /\ weighted (combine (map fst l) ds) mod ell = 0).
Proof. exact batch_value. Qed.
Print Assumptions C96_batch.

(** Valid signatures are accepted together, whatever the scalars. *)
Theorem C96_complete : forall B, shipped B -> forall l, items l ->
  Forall (fun x => let '(A, R, S0, h) := snd x in sig_verify B A R S0 h = Ok true) l -> sig_batch B l = Ok true.
Proof. exact batch_valid. Qed.
Print Assumptions C96_complete.

(** With a wrong signature anywhere in the list, and all other signatures (valid or not) and their scalars fixed, one scalar modulo l for the
    wrong signature makes the check accept, and so one string that [Scalar::from_canonical_bytes] reads. *)
Theorem C96_one_scalar : forall B, shipped B -> forall l1 l2 x d, items (l1 ++ l2) -> signed_ok x -> readable (l1 ++ l2) -> misses_by x d -> d <> 0 ->
  exists z0, 0 <= z0 < ell /\ forall z, is_scalar z -> (sig_batch B (l1 ++ (z, x) :: l2) = Ok true <-> sval z mod ell = z0).
Proof. exact batch_one. Qed.
Print Assumptions C96_one_scalar.
Theorem C96_one_string : forall B, shipped B -> forall l1 l2 x d, items (l1 ++ l2) -> signed_ok x -> readable (l1 ++ l2) -> misses_by x d -> d <> 0 ->
  exactly 1 (fun b => bytes 57 b /\ exists z, scalar_from_canonical_bytes b = Ok (Some z) /\ sig_batch B (l1 ++ (z, x) :: l2) = Ok true).
Proof. exact batch_string. Qed.
Print Assumptions C96_one_string.

(** That the sum of the equations, with no scalars, accepts valid signatures only is false. *)
Theorem C96_sum_refuted : forall B, shipped B -> exists A R S h A' R' S' h', let x := (A, R, S, h) in let y := (A', R', S', h') in signed_ok x /\ signed_ok y /\
  sig_verify B A R S h = Ok false /\ sig_verify B A' R' S' h' = Ok false /\ sig_batch B [(scalar_one, x); (scalar_one, y)] = Ok true.
Proof. exact batch_cancels. Qed.
Print Assumptions C96_sum_refuted.

(** Two signatures that miss by d1 and d2. *)
Example C96_case : forall B, shipped B -> forall z1 z2 d1 d2, is_scalar z1 -> is_scalar z2 -> 0 <= d1 < ell -> 0 <= d2 < ell ->
  let x d := (rfc8032_encode pzero, rfc8032_encode pzero, le_bytes 57 d, le_bytes 114 0) in
  misses_by (x d1) d1 /\ misses_by (x d2) d2 /\ sig_batch B [(z1, x d1); (z2, x d2)] = Ok ((sval z1 * d1 + sval z2 * d2) mod ell =? 0).
Proof. exact (fun B Sh z1 z2 d1 d2 S1 S2 H1 H2 => conj (off_misses d1 H1) (conj (off_misses d2 H2) (batch_pair B Sh z1 z2 d1 d2 S1 S2 H1 H2))). Qed.
