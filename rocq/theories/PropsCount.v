(** Property C88: how many strings stand for one value; and a theorem for C11.

    Reading guide.  [exactly n D] (SpecCount.v): exactly n strings satisfy D.  [ed_decompress], [mp_to_projective], [dc_decompress]: the
    crate's decoders; [ed_affine]: the point a value stands for.  [rfc8032_decode] (SpecRfc8032.v): the decoding of RFC 8032. *)
Require Import ZArith List Bool.
From Verif Require Import Base SpecParams SpecField SpecCurve SpecCount SpecRfc8032 FieldBackend Backends ScalarModel TwistedModel EdwardsModel PointSpec
  DecafModel MontgomeryModel CountStrings CountTotals.
Import ListNotations.
Open Scope Z_scope.
Open Scope res_scope.

(** A point of the curve: the low seven bits of the last byte are ignored, its top bit too if x = 0, and y + p fits in 448 bits if y <= 2^224. *)
Theorem C88_edwards : forall B, shipped B -> forall x y, on_curve ed_a ed_d (x, y) ->
  exactly ((if fval y <=? 2 ^ 224 then 2 else 1) * (if feqb x (of_Z 0) then 256 else 128))
    (fun b => bytes 57 b /\ exists P, ed_decompress B b = Ok (Some P) /\ ed_affine B P = (x, y)).
Proof. exact edwards_strings. Qed.
Print Assumptions C88_edwards.

(** In RFC 8032 it is one string for each point. *)
Theorem C88_rfc8032 : forall Q, on_curve ed_a ed_d Q -> exactly 1 (fun b => bytes 57 b /\ rfc8032_decode b = Some Q).
Proof. exact rfc_strings. Qed.
Print Assumptions C88_rfc8032.

(** A u-coordinate, given by its canonical string c. *)
Theorem C88_montgomery : forall B, shipped B -> forall c, bytes 56 c -> le_val c < p ->
  exactly (if le_val c <=? 2 ^ 224 then 2 else 1) (fun b => bytes 56 b /\ (x <- mp_to_projective B b ;; pm_to_affine B x) = Ok c).
Proof. exact montgomery_strings. Qed.
Print Assumptions C88_montgomery.

(** An element of the Decaf group. *)
Theorem C88_decaf : forall B, shipped B -> forall P, tw_valid B P ->
  exactly 1 (fun b => bytes 56 b /\ exists Q, dc_decompress B b = Ok (Some Q) /\ dc_equals B Q P = Ok true).
Proof. exact decaf_strings. Qed.
Print Assumptions C88_decaf.

(** A number modulo l: with [from_bytes], and with [from_canonical_bytes]. *)
Theorem C88_scalar : forall v, is_scalar v -> sval v < ell ->
  exactly (if sval v <? 2 ^ 448 - 4 * ell then 5 else 4) (fun b => bytes 56 b /\ scalar_mul (scalar_from_bytes b) scalar_one = Ok v).
Proof. exact scalar_strings. Qed.
Print Assumptions C88_scalar.
Theorem C88_scalar_canonical : forall v, is_scalar v -> sval v < ell ->
  exactly 1 (fun b => bytes 57 b /\ scalar_from_canonical_bytes b = Ok (Some v)).
Proof. exact scalar_canonical_strings. Qed.
Print Assumptions C88_scalar_canonical.

(** How many strings the two decoders with one string for each value accept. *)
Theorem C88_rfc8032_total : exactly (4 * ell) (fun b => bytes 57 b /\ exists Q, rfc8032_decode b = Some Q).
Proof. exact rfc_total. Qed.
Print Assumptions C88_rfc8032_total.
Theorem C88_decaf_total : forall B, shipped B -> exactly ell (fun b => bytes 56 b /\ exists P, dc_decompress B b = Ok (Some P)).
Proof. exact decaf_total. Qed.
Print Assumptions C88_decaf_total.

(** The identity, the point of order 2, a point with y = 3, and the base point. *)
Example C88_case : forall B, shipped B -> forall n Q, In (n, Q) [(512, (of_Z 0, of_Z 1)); (256, (of_Z 0, fopp (of_Z 1))); (256, (y3_x, of_Z 3)); (128, G)] ->
  on_curve ed_a ed_d Q /\ exactly n (fun b => bytes 57 b /\ exists P, ed_decompress B b = Ok (Some P) /\ ed_affine B P = Q).
Proof. exact strings_case. Qed.
(** The Montgomery generator has two strings; one has five and l - 1 four. *)
Example C88_number_case :
  (bytes 56 mp_generator /\ le_val mp_generator = 5) /\ sval scalar_one < 2 ^ 448 - 4 * ell /\
  (let v := digits 32 14 (ell - 1) in is_scalar v /\ sval v < ell /\ ~ sval v < 2 ^ 448 - 4 * ell).
Proof. exact number_case. Qed.

(** ** C11: the distance of random scalars from uniform ones.
    Of the 2^912 strings N lead into the set T of scalars; uniform would be 2^912 |T| / l.  The largest difference over all T is
    r (l - r) / l with r = 2^912 mod l, so no test tells the two apart with an advantage of 2^-468. *)
Theorem C11_random_distance : forall T, NoDup T -> (forall v, In v T -> is_scalar v /\ sval v < ell) ->
  exists N, exactly N (fun b => bytes 114 b /\ exists v, In v T /\ scalar_random b = Ok v) /\
    Z.abs (N * ell - Z.of_nat (length T) * 2 ^ 912) <= 2 ^ 912 mod ell * (ell - 2 ^ 912 mod ell).
Proof. exact random_distance. Qed.
Print Assumptions C11_random_distance.
Theorem C11_random_distance_reached : exists T N, NoDup T /\ (forall v, In v T -> is_scalar v /\ sval v < ell) /\
  exactly N (fun b => bytes 114 b /\ exists v, In v T /\ scalar_random b = Ok v) /\
  N * ell - Z.of_nat (length T) * 2 ^ 912 = 2 ^ 912 mod ell * (ell - 2 ^ 912 mod ell).
Proof. exact random_distance_reached. Qed.
Print Assumptions C11_random_distance_reached.
Theorem C11_random_advantage : 2 ^ 468 * (2 ^ 912 mod ell * (ell - 2 ^ 912 mod ell)) < ell * 2 ^ 912.
Proof. exact distance_small. Qed.
Print Assumptions C11_random_advantage.
