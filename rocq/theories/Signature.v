(** Ed448 signatures as a user of the crate would write them.  This code is not in the crate: every step is a call of its public
    API. *)
Require Import ZArith List Bool.
From Verif Require Import Base FieldBackend ScalarModel TwistedModel ScalarMulModel EdwardsModel.
Import ListNotations.
Open Scope res_scope.

Section Signature.
Variable B : backend.

(** The secret is [Scalar::from_bytes] of the clamped bytes, not reduced. *)
Definition sig_public (s : scalar) : res (list Z) :=
  P <- ed_scalar_mul B (ed_generator B) s ;;
  ed_compress B P.

Definition sig_sign (s : scalar) (hr hk : list Z) : res (list Z * list Z) :=
  r <- scalar_from_bytes_mod_order_wide hr ;;
  k <- scalar_from_bytes_mod_order_wide hk ;;
  P <- ed_scalar_mul B (ed_generator B) r ;;
  R <- ed_compress B P ;;
  ks <- scalar_mul k s ;;
  t <- scalar_add r ks ;;
  Ok (R, scalar_to_bytes_rfc_8032 t).

(** [decompress] alone accepts too much (C30), so points are encoded again. *)
Definition sig_verify (A R S h : list Z) : res bool :=
  a <- ed_decompress B A ;;
  r <- ed_decompress B R ;;
  s <- scalar_from_canonical_bytes S ;;
  match a, r, s with
  | Some a, Some r, Some s =>
      A' <- ed_compress B a ;;
      R' <- ed_compress B r ;;
      k <- scalar_from_bytes_mod_order_wide h ;;
      P <- ed_scalar_mul B (ed_generator B) s ;;
      P <- ed_double B P ;;
      P <- ed_double B P ;;
      Q <- ed_scalar_mul B a k ;;
      Q <- ed_add B r Q ;;
      Q <- ed_double B Q ;;
      Q <- ed_double B Q ;;
      e <- ed_ct_eq B P Q ;;
      Ok (list_eqb A' A && list_eqb R' R && e)
  | _, _, _ => Ok false
  end.
End Signature.
