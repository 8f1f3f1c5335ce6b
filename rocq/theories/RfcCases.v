(** Concrete cases for RFC 7748 and RFC 8032. *)
Require Import ZArith List Bool Lia.
From Verif Require Import Base BaseProofs SpecParams SpecField SpecCurve SpecEncoding SpecMontgomery SpecRfc7748 SpecRfc8032 FieldTheory FieldBackend Backends ScalarModel
  CurveTheory EdwardsTheory TwistedModel EdwardsModel MontgomeryModel PointSpec EdwardsRun EdwardsMain EdwardsFacts Rfc7748Main Rfc8032Main.
Import ListNotations.
Open Scope Z_scope.

(** RFC 7748, section 5.2. *)
Definition vector_k : list Z := rev (le_bytes 56
  0x3d262fddf9ec8e88495266fea19a34d28882acef045104d0d1aae121700a779c984c24f8cdd78fbff44943eba368f54b29259a4f1c600ad3).
Definition vector_u : list Z := rev (le_bytes 56
  0x06fce640fa3487bfda5f6cf2d5263f8aad88334cbd07437f020f08f9814dc031ddbdc38c19c6da2583fa5429db94ada18aa7a7fb4ef8a086).
Lemma rev_bytes : forall n b, bytes n b -> bytes n (rev b).
Proof. intros n b [L H]. split; [rewrite rev_length; exact L|apply Forall_rev; exact H]. Qed.
Lemma x448_case : bytes 56 vector_k /\ bytes 56 vector_u /\ hd 0 (clamp448 vector_k) = 0x3c /\ last (clamp448 vector_k) 0 = 0xd3 /\
  forall B, shipped B -> mp_mul B vector_u (scalar_from_bytes (clamp448 vector_k)) = Ok (rfc_x448 vector_k vector_u).
Proof.
  assert (Hk : bytes 56 vector_k) by (apply rev_bytes, EdwardsProofs.le_bytes_bytes). assert (Hu : bytes 56 vector_u) by (apply rev_bytes, EdwardsProofs.le_bytes_bytes).
  split; [exact Hk|]. split; [exact Hu|]. split; [vm_compute; reflexivity|]. split; [vm_compute; reflexivity|]. intros B S. exact (crate_x448 B S _ _ Hk Hu).
Qed.
Lemma decode_alone : forall B, shipped B ->
  forall b, In b [le_bytes 57 (p + 1); 1 :: repeat 0 55 ++ [1]; 1 :: repeat 0 55 ++ [0x80]] ->
  bytes 57 b /\ rfc8032_decode b = None /\ exists P, ed_decompress B b = Ok (Some P) /\ ed_valid B P.
Proof.
  intros B S b I. destruct (noncanonical_accepted B S b I) as (Hb & P & E & V & N). split; [exact Hb|]. split; [|exists P; split; assumption].
  destruct (rfc8032_decode b) as [Q|] eqn:D; [|reflexivity]. exfalso. apply (crate_decode B S b Q Hb) in D. destruct D as (P' & E' & _ & C).
  rewrite E in E'. apply ok_some_inj in E'. rewrite <- E' in C. exact (N C).
Qed.
Lemma decode_generator :
  rfc8032_decode (le_bytes 57 0x693f46716eb6bc248876203756c9c7624bea73736ca3984087789c1e05a0c2d73ad3ff1ce67c39c4fdbd132c4ed7c8ad9808795bf230fa14) = Some G.
Proof. rewrite <- G_enc, <- encode_same. apply rfc_roundtrip. exact (proj1 order_case). Qed.
