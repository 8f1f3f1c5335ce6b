(** The crate's Decaf against RFC 9496. *)
Require Import ZArith List Bool.
From Verif Require Import Base BaseProofs SpecParams SpecField SpecCurve SpecEncoding SpecDecaf FieldTheory CurveTheory FieldBackend Backends BackendLaws
  ScalarModel TwistedModel DecafModel PointSpec TwistedProofs TwistedMain EdwardsExpr DecafExpr RfcExpr DecafTheory DecafGroup DecafRun DecafMain DecafRfc.
Import ListNotations.
Open Scope F_scope.
Open Scope res_scope.
Local Opaque fadd fsub fmul fopp fdiv finv fpow of_Z padd pmul pzero fsqrt D dc_compress dc_decompress dc_equals dcexp_run rfc_decode rfc_encode
  decaf_encode decaf_decode phi tw_affine.

Section WithB.
Variable B : backend.
Variable S : shipped B.

Theorem decode_agrees : forall b, bytes 56 b ->
  match rfc_decode b with
  | None => dc_decompress B b = Ok None
  | Some R => exists P, dc_decompress B b = Ok (Some P) /\ tw_valid B P /\ rfc_internal R /\ phi R = padd tw_a tw_d (tw_affine B P) (tw_affine B P)
  end.
Proof.
  intros b Hb. destruct (decode_interop b Hb) as [(R & P & O & ER & EP & H)|(O & ER & EP)]; rewrite ER.
  - destruct (accept B S b Hb O) as (Q & q & EQ & HQ & _). exists Q. split; [exact EQ|]. destruct (decoded_point B S b Q Hb EQ) as (V & C).
    split; [exact V|]. rewrite (proj1 (ok_decode b) O) in EP. apply (f_equal (fun o => match o with Some x => x | None => P end)) in EP. cbv beta iota in EP. rewrite EP in C.
    destruct (interop_class R P _ H (tw_valid_even B Q V) C) as (HR & _ & E). split; [exact HR|exact E].
  - exact (reject B S b Hb O).
Qed.
Theorem encode_agrees : forall P R, tw_valid B P -> rfc_internal R -> phi R = padd tw_a tw_d (tw_affine B P) (tw_affine B P) ->
  dc_compress B P = Ok (rfc_encode R).
Proof.
  intros P R V HR E. rewrite (compress_exact B S P V). apply (f_equal Ok). symmetry. apply encode_interop. split; [exact HR|]. split; [exact (tw_valid_even B P V)|exact E].
Qed.
Theorem equals_agrees : forall P R P' R', tw_valid B P -> rfc_internal R -> phi R = padd tw_a tw_d (tw_affine B P) (tw_affine B P) ->
  tw_valid B P' -> rfc_internal R' -> phi R' = padd tw_a tw_d (tw_affine B P') (tw_affine B P') ->
  exists e, dc_equals B P P' = Ok e /\ (e = true <-> rfc_equal R R').
Proof.
  intros P R P' R' V HR E V' HR' E'. destruct (equals_class B S P P' V V') as (e & Ee & H). exists e. split; [exact Ee|]. rewrite H. symmetry.
  apply equal_interop; (split; [assumption|split; [apply tw_valid_even; assumption|assumption]]).
Qed.
Theorem program_agrees : forall e, dcexp_ok e ->
  obind (dcexp_run B e) (fun P => osome (dc_compress B P)) = Ok (omap rfc_encode (rfc_val e)).
Proof.
  intros e He. destruct (dcexp_valid B S e He) as (o & E & H). pose proof (program_interop e He) as I2. rewrite E. unfold obind. cbn [bind].
  destruct o as [P|].
  - destruct H as (V & q & Eq & C). rewrite Eq in I2. destruct (rfc_val e) as [R|]; [|contradiction]. cbn [orel] in I2.
    rewrite (compress_exact B S P V). cbn [osome bind omap]. apply (f_equal (fun x => Ok (Some x))). symmetry. apply encode_interop.
    exact (interop_class R q _ I2 (tw_valid_even B P V) C).
  - rewrite H in I2. destruct (rfc_val e); [contradiction|]. reflexivity.
Qed.
Theorem program_equals : forall e e' R R', dcexp_ok e -> dcexp_ok e' -> rfc_val e = Some R -> rfc_val e' = Some R' ->
  exists P P' b, dcexp_run B e = Ok (Some P) /\ dcexp_run B e' = Ok (Some P') /\ dc_equals B P P' = Ok b /\ (b = true <-> rfc_equal R R').
Proof.
  intros e e' R R' He He' ER ER'. destruct (dcexp_valid B S e He) as (o & E & H), (dcexp_valid B S e' He') as (o' & E' & H').
  pose proof (program_interop e He) as I1. pose proof (program_interop e' He') as I2. rewrite ER in I1. rewrite ER' in I2.
  destruct o as [P|]; [|rewrite H in I1; contradiction]. destruct o' as [P'|]; [|rewrite H' in I2; contradiction].
  destruct H as (V & q & Eq & C), H' as (V' & q' & Eq' & C'). rewrite Eq in I1. rewrite Eq' in I2. cbn [orel] in I1, I2.
  destruct (equals_class B S P P' V V') as (b & Eb & H). exists P, P', b. split; [exact E|]. split; [exact E'|]. split; [exact Eb|]. rewrite H. symmetry.
  apply equal_interop; [exact (interop_class R q _ I1 (tw_valid_even B P V) C)|exact (interop_class R' q' _ I2 (tw_valid_even B P' V') C')].
Qed.
End WithB.
