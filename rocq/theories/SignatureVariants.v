(** Checking Ed448 signatures with one step of [sig_verify] (Signature.v) left out or done another way, as users of the crate may
    well do.  Not in the crate: every step is a call of its public API (for C95). *)
Require Import ZArith List Bool.
From Verif Require Import Base FieldBackend ScalarModel TwistedModel ScalarMulModel EdwardsModel.
Import ListNotations.
Open Scope res_scope.

Section Variants.
Variable B : backend.

(** Without the multiplication by 4. *)
Definition sig_direct (A R S h : list Z) : res bool :=
  a <- ed_decompress B A ;;
  r <- ed_decompress B R ;;
  s <- scalar_from_canonical_bytes S ;;
  match a, r, s with
  | Some a, Some r, Some s =>
      A' <- ed_compress B a ;;
      R' <- ed_compress B r ;;
      k <- scalar_from_bytes_mod_order_wide h ;;
      P <- ed_scalar_mul B (ed_generator B) s ;;
      Q <- ed_scalar_mul B a k ;;
      Q <- ed_add B r Q ;;
      e <- ed_ct_eq B P Q ;;
      Ok (list_eqb A' A && list_eqb R' R && e)
  | _, _, _ => Ok false
  end.

(** Without encoding the points again. *)
Definition sig_loose (A R S h : list Z) : res bool :=
  a <- ed_decompress B A ;;
  r <- ed_decompress B R ;;
  s <- scalar_from_canonical_bytes S ;;
  match a, r, s with
  | Some a, Some r, Some s =>
      k <- scalar_from_bytes_mod_order_wide h ;;
      P <- ed_scalar_mul B (ed_generator B) s ;;
      P <- ed_double B P ;;
      P <- ed_double B P ;;
      Q <- ed_scalar_mul B a k ;;
      Q <- ed_add B r Q ;;
      Q <- ed_double B Q ;;
      Q <- ed_double B Q ;;
      ed_ct_eq B P Q
  | _, _, _ => Ok false
  end.

(** S of 56 bytes, read by [Scalar::from_bytes]. *)
Definition sig_raw (A R S h : list Z) : res bool :=
  a <- ed_decompress B A ;;
  r <- ed_decompress B R ;;
  match a, r with
  | Some a, Some r =>
      A' <- ed_compress B a ;;
      R' <- ed_compress B r ;;
      k <- scalar_from_bytes_mod_order_wide h ;;
      P <- ed_scalar_mul B (ed_generator B) (scalar_from_bytes S) ;;
      P <- ed_double B P ;;
      P <- ed_double B P ;;
      Q <- ed_scalar_mul B a k ;;
      Q <- ed_add B r Q ;;
      Q <- ed_double B Q ;;
      Q <- ed_double B Q ;;
      e <- ed_ct_eq B P Q ;;
      Ok (list_eqb A' A && list_eqb R' R && e)
  | _, _ => Ok false
  end.
End Variants.
