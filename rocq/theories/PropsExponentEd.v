(** Property C99: programs over Edwards points compute with integers modulo 4 l.

    Reading guide.  SpecExponentEd.v: [multiple n]: n times the point G + (1, 0), which has order 4 l; [string_ed n]: its encoding.
    [ed_element]: a program over the crate's Edwards points, made from the generator, the identity and received strings by addition, subtraction,
    negation, doubling, [torque], multiplication, [scalar_mod_four], the maps to the twisted curve and back, affine coordinates and selection;
    [ed_calls]: its calls; [ed_exponent]: the integer it computes.  [ed_shared b a]: b decoded, times a, encoded; [ed_shared_clear] doubles twice first. *)
Require Import ZArith List Bool.
From Verif Require Import Base SpecParams SpecEncoding FieldBackend Backends ScalarModel ApiExpr ProtocolMain SpecExponentEd ExponentEd.
Import ListNotations.
Open Scope Z_scope.

(** ** Strings and integers *)
Theorem C99_strings : forall m n, string_ed m = string_ed n <-> m mod (4 * ell) = n mod (4 * ell).
Proof. exact string_ed_inj. Qed.
Print Assumptions C99_strings.
(** Every accepted string, canonical or not, is some multiple. *)
Theorem C99_received : forall B, shipped B -> forall b, bytes 57 b ->
  (api_run B (AIsSome TEd (AEdDecompress b)) = Ok (Some true) <-> exists n, 0 <= n < 4 * ell /\ ed_decode b = Some (multiple n)).
Proof. exact received_all. Qed.
Print Assumptions C99_received.
Theorem C99_sent : forall n, bytes 57 (string_ed n) /\ ed_decode (string_ed n) = Some (multiple n).
Proof. exact string_ed_received. Qed.
Print Assumptions C99_sent.

(** ** Programs *)
Theorem C99_compress : forall B, shipped B -> forall e, ed_inputs_ok e -> api_run B (AEdCompress (ed_calls e)) = Ok (Some (string_ed (ed_exponent e))).
Proof. exact encoded_ed. Qed.
Print Assumptions C99_compress.
Theorem C99_equal : forall B, shipped B -> forall e f, ed_inputs_ok e -> ed_inputs_ok f ->
  api_run B (AEdEq (ed_calls e) (ed_calls f)) = Ok (Some (ed_exponent e mod (4 * ell) =? ed_exponent f mod (4 * ell))).
Proof. exact compared_ed. Qed.
Print Assumptions C99_equal.
Theorem C99_torsion_free : forall B, shipped B -> forall e, ed_inputs_ok e -> api_run B (AEdTorsionFree (ed_calls e)) = Ok (Some (ed_exponent e mod 4 =? 0)).
Proof. exact torsion_ed. Qed.
Print Assumptions C99_torsion_free.
(** The Montgomery coordinate keeps the integer up to sign and modulo 2 l, except that it sends both multiples of l to 0. *)
Theorem C99_montgomery : forall B, shipped B -> forall e f, ed_inputs_ok e -> ed_inputs_ok f -> let m := ed_exponent e in let n := ed_exponent f in
  (api_run B (AEdToMontgomery (ed_calls e)) = api_run B (AEdToMontgomery (ed_calls f)) <->
   m mod (2 * ell) = n mod (2 * ell) \/ m mod (2 * ell) = (- n) mod (2 * ell) \/ (m mod ell = 0 /\ n mod ell = 0)).
Proof. exact montgomery_ed. Qed.
Print Assumptions C99_montgomery.

(** ** Key agreement *)
Theorem C99_agree : forall B, shipped B -> forall a b pa pb, is_scalar a -> is_scalar b ->
  api_run B (ed_public a) = Ok (Some pa) -> api_run B (ed_public b) = Ok (Some pb) ->
  api_run B (ed_shared pb a) = api_run B (ed_shared pa b) /\ api_run B (ed_shared_clear pb a) = api_run B (ed_shared_clear pa b).
Proof. exact agree_ed. Qed.
Print Assumptions C99_agree.
(** Which secrets answer a received string alike. *)
Theorem C99_answers : forall B, shipped B -> forall b n s t, bytes 57 b -> ed_decode b = Some (multiple n) -> is_scalar s -> is_scalar t ->
  (api_run B (ed_shared b s) = api_run B (ed_shared b t) <-> (n * (sval s - sval t)) mod (4 * ell) = 0).
Proof. exact shared_same. Qed.
Print Assumptions C99_answers.
Theorem C99_answers_clear : forall B, shipped B -> forall b n s t, bytes 57 b -> ed_decode b = Some (multiple n) -> is_scalar s -> is_scalar t ->
  (api_run B (ed_shared_clear b s) = api_run B (ed_shared_clear b t) <-> (n * (sval s - sval t)) mod ell = 0).
Proof. exact clear_same. Qed.
Print Assumptions C99_answers_clear.
(** One accepted string shows exactly the secret modulo 4; doubling twice first shows nothing of it. *)
Theorem C99_leak : forall B, shipped B -> exists b, bytes 57 b /\ api_run B (AIsSome TEd (AEdDecompress b)) = Ok (Some true) /\
  (forall s t, is_scalar s -> is_scalar t -> (api_run B (ed_shared b s) = api_run B (ed_shared b t) <-> sval s mod 4 = sval t mod 4)) /\
  (forall s, is_scalar s -> api_run B (ed_shared_clear b s) = api_run B (AEdCompress AEdIdentity)).
Proof. exact leak_ed. Qed.
Print Assumptions C99_leak.
(** Secrets with one public key answer every accepted string alike, after doubling twice. *)
Theorem C99_public : forall B, shipped B -> forall s t, is_scalar s -> is_scalar t -> api_run B (ed_public s) = api_run B (ed_public t) ->
  forall b, bytes 57 b -> api_run B (AIsSome TEd (AEdDecompress b)) = Ok (Some true) -> api_run B (ed_shared_clear b s) = api_run B (ed_shared_clear b t).
Proof. exact clear_public. Qed.
Print Assumptions C99_public.
(** Without it this is false. *)
Theorem C99_public_refuted : forall B, shipped B -> exists s t b, is_scalar s /\ is_scalar t /\ api_run B (ed_public s) = api_run B (ed_public t) /\
  bytes 57 b /\ api_run B (AIsSome TEd (AEdDecompress b)) = Ok (Some true) /\ api_run B (ed_shared b s) <> api_run B (ed_shared b t).
Proof. exact public_refuted. Qed.
Print Assumptions C99_public_refuted.

(** Cases: a program that subtracts four times a received point from the torqued triple of the generator; scalars for the leak. *)
Example C99_case : forall B, shipped B ->
  (let e := GSub (GTorque (GTimes GBase (num 3))) (GRound (GReceived (string_ed 5) 5)) in ed_inputs_ok e /\ ed_exponent e = 5 * ell - 17 /\
     api_run B (AEdCompress (ed_calls e)) = Ok (Some (string_ed (ell - 17))) /\ api_run B (AEdTorsionFree (ed_calls e)) = Ok (Some false)) /\
  (string_ed (ell - 17) <> string_ed (5 * ell - 16)) /\
  (is_scalar (num 1) /\ is_scalar (num 2) /\ is_scalar (num 5) /\ sval (num 1) mod 4 = sval (num 5) mod 4 /\ sval (num 1) mod 4 <> sval (num 2) mod 4).
Proof. exact ed_cases. Qed.
Print Assumptions C99_case.
