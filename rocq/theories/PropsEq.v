(** Property C83: == is an equivalence relation on each type, and Hash agrees with it.

    Reading guide. [equivalence ok eq], [hash_agrees ok eq hash]: EqSpec.v. [mp_hash], [mp_zeroize]: the derived traits of MontgomeryPoint, HashModel.v.
    [mp_eq], [cd_eq], [cr_eq]: == of MontgomeryPoint, CompressedDecaf and CompressedRistretto, which are their bytes. [scalar_eqb], [fe_ct_eq], [ed_ct_eq], [tw_ct_eq], [xt_ct_eq],
    [twa_eq], [pn_eq]: == of Scalar, FieldElement, the two ExtendedPoints, ExtensiblePoint, AffinePoint and ProjectiveNielsPoint. [dc_equals], [rs_equals]: the methods named equals.
    [is_scalar]: 14 words; [fe_tight B]: the limbs field operations return; [ed_valid], ...: PointSpec.v. *)
Require Import ZArith List Bool.
From Verif Require Import Base SpecParams SpecField FieldBackend FieldModel FieldU32Model Backends ScalarModel TwistedModel EdwardsModel MontgomeryModel DecafModel PointSpec HashModel EqSpec EqMain.
Open Scope Z_scope.

Theorem C83_bytes_and_scalars :
  equivalence (fun _ => True) (fun a b => Ok (mp_eq a b)) /\ equivalence (fun _ => True) (fun a b => Ok (cd_eq a b)) /\ equivalence (fun _ => True) (fun a b => Ok (cr_eq a b)) /\
  equivalence is_scalar (fun a b => Ok (scalar_eqb a b)).
Proof. exact bytes_equivalences. Qed.
Print Assumptions C83_bytes_and_scalars.
Theorem C83_field : forall B, shipped B -> equivalence (fe_tight B) (fe_ct_eq B).
Proof. exact field_equivalence. Qed.
Print Assumptions C83_field.
Theorem C83_points : forall B, shipped B ->
  equivalence (ed_valid B) (ed_ct_eq B) /\ equivalence (tw_valid B) (tw_ct_eq B) /\ equivalence (xt_valid B) (xt_ct_eq B) /\
  equivalence (twa_valid B) (twa_eq B) /\ equivalence (tw_valid B) (dc_equals B) /\ equivalence (tw_valid B) (rs_equals B) /\
  equivalence (fun N => exists Q, pn_rep B N Q) (pn_eq B).
Proof. exact point_equivalences. Qed.
Print Assumptions C83_points.
(** Not on all coordinates: Rust's Eq asks it of all values of the type.  The fields are private to the crate, and C19 shows that no such point is produced. *)
Theorem C83_all_coordinates_refuted : exists P Q R : EdPoint u32_backend,
  ed_ct_eq u32_backend P Q = Ok true /\ ed_ct_eq u32_backend Q R = Ok true /\ ed_ct_eq u32_backend P R = Ok false.
Proof. exact equivalence_refuted. Qed.
Print Assumptions C83_all_coordinates_refuted.

(** Equal points hash equally for every hasher; points that do so are equal. *)
Theorem C83_hash : hash_agrees (fun _ => True) (fun a b => Ok (mp_eq a b)) mp_hash.
Proof. exact hash_ok. Qed.
Print Assumptions C83_hash.
Theorem C83_hash_exact : forall a b, (forall H s, mp_hash H a s = mp_hash H b s) <-> mp_eq a b = true.
Proof. exact hash_exact. Qed.
Print Assumptions C83_hash_exact.
(** Results of multiplications hash equally if they have the same u; other points need not. *)
Theorem C83_hash_products : forall B, shipped B -> forall a b s t, bytes 56 a -> bytes 56 b -> is_scalar s -> is_scalar t ->
  exists u v, mp_mul B a s = Ok u /\ mp_mul B b t = Ok v /\ ((forall H x, mp_hash H u x = mp_hash H v x) <-> le_val u mod p = le_val v mod p).
Proof. exact hash_products. Qed.
Print Assumptions C83_hash_products.
Theorem C83_hash_u_refuted : exists a b, bytes 56 a /\ bytes 56 b /\ le_val a mod p = le_val b mod p /\ ~ (forall H s, mp_hash H a s = mp_hash H b s).
Proof. exact hash_refuted. Qed.
Print Assumptions C83_hash_u_refuted.
Example C83_case : bytes 56 mp_generator /\ mp_eq mp_generator LOW_B = false /\ is_scalar scalar_one /\ fe_tight u32_backend one28.
Proof. exact eq_case. Qed.

(** Zeroizing leaves 56 zeros: the u-coordinate 0, a point of low order. *)
Theorem C83_zeroize : forall a, bytes 56 a -> mp_zeroize a = List.repeat 0 56 /\ mp_is_low_order (mp_zeroize a) = true.
Proof. exact zeroize_ok. Qed.
Print Assumptions C83_zeroize.
