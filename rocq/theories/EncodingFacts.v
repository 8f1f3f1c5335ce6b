(** [==] on the types that hold an encoding. *)
Require Import ZArith List Bool Lia.
From Verif Require Import Base BaseProofs SpecParams SpecField SpecCurve SpecDecaf FieldTheory FieldBackend Backends BackendLaws
  ScalarModel ScalarProofs ScalarMain EdwardsProofs EdwardsMain TwistedModel MontgomeryModel DecafModel PointSpec DecafMain DecafFacts MontgomeryProofs MontgomeryMain.
Import ListNotations.
Open Scope Z_scope.
Local Opaque p.

Theorem decaf_bytes_eq : forall a b, cd_eq a b = true <-> a = b. Proof. exact list_eqb_eq. Qed.
Theorem ristretto_bytes_eq : forall a b, cr_eq a b = true <-> a = b. Proof. exact list_eqb_eq. Qed.
Theorem montgomery_bytes_eq : forall a b, mp_eq a b = true <-> a = b. Proof. exact list_eqb_eq. Qed.

Section Decaf.
Variable B : backend.
Hypothesis S : shipped B.
Theorem decaf_eq_elements : forall a b P Q, bytes 56 a -> bytes 56 b -> dc_decompress B a = Ok (Some P) -> dc_decompress B b = Ok (Some Q) ->
  dc_equals B P Q = Ok (cd_eq a b).
Proof.
  intros a b P Q Ha Hb EP EQ. destruct (decompress_canonical B S a P Ha EP) as (VP & CP). destruct (decompress_canonical B S b Q Hb EQ) as (VQ & CQ).
  destruct (compress_function B S P Q VP VQ) as (a' & b' & e & Ea & Eb & -> & I). rewrite CP in Ea. rewrite CQ in Eb. apply ok_inj in Ea. apply ok_inj in Eb. subst a' b'.
  apply (f_equal (@Ok bool)). destruct e.
  - symmetry. apply decaf_bytes_eq. apply I. reflexivity.
  - destruct (cd_eq a b) eqn:E; [|reflexivity]. apply decaf_bytes_eq in E. apply I in E. discriminate E.
Qed.
Theorem decaf_eq_compressed : forall P Q, tw_valid B P -> tw_valid B Q ->
  exists a b, dc_compress B P = Ok a /\ dc_compress B Q = Ok b /\ dc_equals B P Q = Ok (cd_eq a b).
Proof.
  intros P Q VP VQ. destruct (compress_function B S P Q VP VQ) as (a & b & e & Ea & Eb & -> & I). exists a, b. split; [exact Ea|]. split; [exact Eb|].
  apply (f_equal (@Ok bool)). destruct e.
  - symmetry. apply decaf_bytes_eq. apply I. reflexivity.
  - destruct (cd_eq a b) eqn:E; [|reflexivity]. apply decaf_bytes_eq in E. apply I in E. discriminate E.
Qed.
End Decaf.

(** Two strings with the same u: equal, or p apart. *)
Theorem montgomery_same_u : forall a b, bytes 56 a -> bytes 56 b ->
  (le_val a mod p = le_val b mod p <-> mp_eq a b = true \/ le_val a = le_val b + p \/ le_val b = le_val a + p).
Proof.
  intros a b Ha Hb. rewrite montgomery_bytes_eq.
  assert (Ra : 0 <= le_val a < 2 ^ 448) by exact (array_range 8 56 a ltac:(lia) Ha).
  assert (Rb : 0 <= le_val b < 2 ^ 448) by exact (array_range 8 56 b ltac:(lia) Hb).
  assert (P : 2 ^ 448 < 2 * p /\ 0 < p) by (split; reflexivity). destruct P as [P2 P0].
  assert (I : a = b <-> le_val a = le_val b).
  { split; [intros ->; reflexivity|]. intro E. rewrite <- (bytes_le_bytes 56 a Ha), <- (bytes_le_bytes 56 b Hb), E. reflexivity. }
  rewrite I. rewrite (Z.div_mod (le_val a) p) at 2 3 4 by lia. rewrite (Z.div_mod (le_val b) p) at 2 3 4 by lia.
  assert (Qa : 0 <= le_val a / p < 2) by (split; [apply Z.div_pos; lia|apply Z.div_lt_upper_bound; lia]).
  assert (Qb : 0 <= le_val b / p < 2) by (split; [apply Z.div_pos; lia|apply Z.div_lt_upper_bound; lia]).
  pose proof (Z.mod_pos_bound (le_val a) p P0). pose proof (Z.mod_pos_bound (le_val b) p P0).
  set (qa := le_val a / p) in *. set (qb := le_val b / p) in *. set (ra := le_val a mod p) in *. set (rb := le_val b mod p) in *. clearbody qa qb ra rb.
  assert (Ca : qa = 0 \/ qa = 1) by lia. assert (Cb : qb = 0 \/ qb = 1) by lia. destruct Ca as [-> | ->], Cb as [-> | ->]; lia.
Qed.
Theorem montgomery_eq_canonical : forall a b, bytes 56 a -> bytes 56 b -> le_val a < p -> le_val b < p ->
  (mp_eq a b = true <-> le_val a mod p = le_val b mod p).
Proof.
  intros a b Ha Hb La Lb. rewrite (montgomery_same_u a b Ha Hb).
  assert (Ra : 0 <= le_val a < 2 ^ 448) by exact (array_range 8 56 a ltac:(lia) Ha).
  assert (Rb : 0 <= le_val b < 2 ^ 448) by exact (array_range 8 56 b ltac:(lia) Hb). split; [tauto|]. intros [H|[H|H]]; [exact H|lia|lia].
Qed.
Theorem montgomery_eq_wrong : exists a b, bytes 56 a /\ bytes 56 b /\ mp_eq a b = false /\ le_val a mod p = le_val b mod p /\
  forall B, shipped B -> forall s, is_scalar s -> mp_mul B a s = mp_mul B b s.
Proof.
  exists (le_bytes 56 5), (le_bytes 56 (p + 5)). split; [apply le_bytes_bytes|]. split; [apply le_bytes_bytes|].
  assert (E : le_val (le_bytes 56 5) mod p = le_val (le_bytes 56 (p + 5)) mod p) by (vm_compute; reflexivity).
  split; [vm_compute; reflexivity|]. split; [exact E|]. intros B H s Hs. destruct (mod_p B H _ _ s (le_bytes_bytes _ _) (le_bytes_bytes _ _) Hs E) as (r & E1 & E2 & _).
  exact (eq_trans E1 (eq_sym E2)).
Qed.
Theorem eq_bytes : forall a b, (cd_eq a b = true <-> a = b) /\ (cr_eq a b = true <-> a = b) /\ (mp_eq a b = true <-> a = b).
Proof. intros a b. split; [apply decaf_bytes_eq|]. split; [apply ristretto_bytes_eq|apply montgomery_bytes_eq]. Qed.
Lemma encoding_case : forall B, shipped B ->
  exists P, dc_decompress B rfc_generator = Ok (Some P) /\ dc_equals B P (dc_identity B) = Ok (cd_eq rfc_generator cd_identity) /\
    cd_eq rfc_generator cd_identity = false.
Proof.
  intros B S. destruct (decode_valid B S) as (P & E & C). exists P. split; [exact E|].
  destruct (decompress_canonical B S _ P rfc_gen_bytes E) as [V _]. destruct (identity_string B S) as (I & _).
  assert (VI : tw_valid B (dc_identity B)) by (destruct (three_decaf B S) as (T & _ & _ & VI & _); exact VI).
  destruct (decaf_eq_compressed B S P (dc_identity B) V VI) as (a & b & Ea & Eb & R). rewrite C in Ea. rewrite I in Eb.
  apply ok_inj in Ea. apply ok_inj in Eb. subst a b. split; [exact R|]. vm_compute. reflexivity.
Qed.
