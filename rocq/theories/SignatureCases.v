(** The first Ed448 test vector of RFC 8032, section 7.4. *)
Require Import ZArith List Bool Lia.
From Verif Require Import Base BaseProofs SpecParams SpecField SpecCurve SpecEncoding SpecRfc8032 FieldTheory FieldBackend Backends ScalarModel ScalarProofs ScalarProofs2 ScalarMain EdwardsProofs EdwardsRun EdwardsMain EdwardsFacts Signature
  Rfc8032Main SignatureMain.
Import ListNotations.
Open Scope Z_scope.

(** The clamped first half of the hash of the secret key, and the two hashes of the signature. *)
Definition vec_s : scalar := digits 32 14 0xb7bbc01fa70105a74feece1566f5f98374d1ee1ed836c005b99c51381d5e0275eef3a45b54f011b488a572f46766edc78e80a0cea03039e8.
Definition vec_hr : list Z := le_bytes 114 0xd8d8bf9cb7a92bebe247033f7702498555e42dd2edff7cbedc346c2a5dc6985f7e8f77585590bd7aa323cb0458524e36776dfcd32977bcc7dd190daba7d7d2cac5b24acfe990defb8ce3fe209a9d279f042510c0d7a9e96e9711a811833712e12428f7bee98ae6e6a8892cf3aa8027c13e54.
Definition vec_hk : list Z := le_bytes 114 0xc406f9472990eb2f71bf5be5de3407dd85e76d348924e2ab09b2f560681bf280b5b9da8242e9220b66cc715d92b83e75e59cb6a6d29e1a16f37568a28ffc5a35f06c67a369852ba340926f7572443cb2cf975b95b17573c8ace37dc5683f1dfb073d14c1df9b4689076bca460e6c7ab20f6d.
(** The second half of the signature. *)
Definition vec_S : Z := 0x26652eff0858d9718c2663735af04911b6dbf4a013a13085dacdc7c59ab92d8504410bc08d5d925b342d1c5d6c003ef69d8ab1d428200dff.

Lemma pair_snd : forall (A B : Type) (x : A * B) y, snd x = y -> x = (fst x, y). Proof. intros A B [a b] y <-. reflexivity. Qed.
Lemma bytes_of : forall n v, bytes n (le_bytes n v). Proof. intros. apply digits_array. lia. Qed.
Lemma vector_case : forall B, shipped B -> exists A R,
  sig_public B vec_s = Ok A /\ sig_sign B vec_s vec_hr vec_hk = Ok (R, le_bytes 57 vec_S) /\
  sig_verify B A R (le_bytes 57 vec_S) vec_hk = Ok true /\ sig_verify B A R (le_bytes 57 (vec_S + ell)) vec_hk = Ok false.
Proof.
  intros B S. assert (Hs : is_scalar vec_s) by (apply digits_array; lia). pose proof (bytes_of 114 _ : bytes 114 vec_hr) as Hr. pose proof (bytes_of 114 _ : bytes 114 vec_hk) as Hk.
  exists (rfc8032_public (sval vec_s)), (fst (rfc8032_sign (sval vec_s) (le_val vec_hr) (le_val vec_hk))).
  assert (E : snd (rfc8032_sign (sval vec_s) (le_val vec_hr) (le_val vec_hk)) = le_bytes 57 vec_S) by (unfold rfc8032_sign; cbn [snd]; vm_compute; reflexivity).
  assert (EA := public_ok B S vec_s Hs). assert (ES := sign_ok B S vec_s vec_hr vec_hk Hs Hr Hk). apply pair_snd in E.
  split; [exact EA|]. apply (f_equal (@Ok _)) in E. apply (eq_trans ES) in E. clear ES. split; [exact E|]. split; [exact (api_complete B S _ _ _ _ _ _ Hs Hr Hk EA E)|].
  rewrite (verify_ok B S); [|unfold rfc8032_public; rewrite encode_same; exact (proj1 (encode_bytes _))|unfold rfc8032_sign; cbn [fst]; rewrite encode_same; exact (proj1 (encode_bytes _))|apply bytes_of|exact Hk].
  apply (f_equal (@Ok bool)). apply rfc_reject. vm_compute. discriminate.
Qed.
