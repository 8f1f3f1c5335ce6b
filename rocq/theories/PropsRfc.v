(** Property C59: the crate's Decaf interoperates with decaf448 of RFC 9496.

    Reading guide. The RFC works on Ed448 (untwisted, affine here), the crate on the twisted curve. [rfc_decode],
    [rfc_encode], [rfc_equal]: sections 5.3.1 to 5.3.3 of the RFC, transcribed (SpecDecaf.v). [rfc_internal R]: R is the
    double of a point of Ed448. [to_twisted]: the isogeny from Ed448 to the twisted curve (RfcExpr.v). The twisted P
    and the RFC's R stand for the same group element when to_twisted R = 2 P. [dcexp]: a program over the public Decaf API
    (DecafExpr.v); [rfc_val e]: what the RFC makes of the same program (RfcExpr.v). *)
Require Import ZArith List Bool.
From Verif Require Import Base SpecParams SpecField SpecCurve SpecEncoding SpecDecaf FieldBackend Backends ScalarModel
  TwistedModel DecafModel PointSpec EdwardsExpr DecafExpr RfcExpr RfcVectors RfcMain RfcFacts.
Import ListNotations.
Open Scope F_scope.
Open Scope res_scope.

(** ** C59 *)
Theorem C59_decode : forall B, shipped B -> forall b, bytes 56 b ->
  match rfc_decode b with
  | None => dc_decompress B b = Ok None
  | Some R => exists P, dc_decompress B b = Ok (Some P) /\ tw_valid B P /\ rfc_internal R /\ to_twisted R = padd tw_a tw_d (tw_affine B P) (tw_affine B P)
  end.
Proof. exact decode_agrees. Qed.
Print Assumptions C59_decode.

Theorem C59_encode : forall B, shipped B -> forall P R, tw_valid B P -> rfc_internal R -> to_twisted R = padd tw_a tw_d (tw_affine B P) (tw_affine B P) ->
  dc_compress B P = Ok (rfc_encode R).
Proof. exact encode_agrees. Qed.
Print Assumptions C59_encode.

Theorem C59_equals : forall B, shipped B -> forall P R P' R',
  tw_valid B P -> rfc_internal R -> to_twisted R = padd tw_a tw_d (tw_affine B P) (tw_affine B P) ->
  tw_valid B P' -> rfc_internal R' -> to_twisted R' = padd tw_a tw_d (tw_affine B P') (tw_affine B P') ->
  exists e, dc_equals B P P' = Ok e /\ (e = true <-> rfc_equal R R').
Proof. exact equals_agrees. Qed.
Print Assumptions C59_equals.

(** Whole programs: same bytes out, and the same failures, as an implementation of the RFC. *)
Theorem C59_programs : forall B, shipped B -> forall e, dcexp_ok e ->
  obind (dcexp_run B e) (fun P => osome (dc_compress B P)) = Ok (omap rfc_encode (rfc_val e)).
Proof. exact program_agrees. Qed.
Print Assumptions C59_programs.

Theorem C59_program_equals : forall B, shipped B -> forall e e' R R', dcexp_ok e -> dcexp_ok e' -> rfc_val e = Some R -> rfc_val e' = Some R' ->
  exists P P' b, dcexp_run B e = Ok (Some P) /\ dcexp_run B e' = Ok (Some P') /\ dc_equals B P P' = Ok b /\ (b = true <-> rfc_equal R R').
Proof. exact program_equals. Qed.
Print Assumptions C59_program_equals.

(** The generator, with the point the RFC decodes from its encoding; and strings the RFC rejects. *)
Example C59_case : forall B, shipped B -> exists R, rfc_decode rfc_generator = Some R /\ rfc_internal R /\ tw_valid B (dc_generator B) /\
  to_twisted R = padd tw_a tw_d (tw_affine B (dc_generator B)) (tw_affine B (dc_generator B)) /\ rfc_encode R = rfc_generator /\
  rfc_decode (le_bytes 56 p) = None /\ rfc_decode (le_bytes 56 (p - 1)) = None /\ rfc_decode (le_bytes 56 1) = None /\ rfc_decode (le_bytes 56 4) = None.
Proof. exact gen_agrees. Qed.

(** Both sides give the RFC's test vectors for twice and three times the generator. *)
Example C59_vectors : forall B, shipped B ->
  let enc e := obind (dcexp_run B e) (fun P => osome (dc_compress B P)) in
  let two := DAdd DGenerator DGenerator in
  let three := DAdd two DGenerator in
  enc two = Ok (Some vector_2) /\ omap rfc_encode (rfc_val two) = Some vector_2 /\
  enc three = Ok (Some vector_3) /\ omap rfc_encode (rfc_val three) = Some vector_3.
Proof. exact vectors_agree. Qed.
