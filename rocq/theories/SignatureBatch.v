(** Checking many Ed448 signatures at once, with a scalar for each, as a user of the crate would write it.  Not in the crate: every
    step is a call of its public API (for C96). *)
Require Import ZArith List Bool.
From Verif Require Import Base FieldBackend ScalarModel TwistedModel ScalarMulModel EdwardsModel.
Import ListNotations.
Open Scope res_scope.

(** A key, the two halves of a signature and the hash. *)
Definition signed : Type := list Z * list Z * list Z * list Z.

Section Batch.
Variable B : backend.

(** The sums of z S and of z (R + h A). *)
Fixpoint batch_sums (l : list (scalar * signed)) : res (option (scalar * EdPoint B)) :=
  match l with
  | [] => Ok (Some (scalar_zero, ed_identity B))
  | (z, (A, R, S0, h)) :: l' =>
      a <- ed_decompress B A ;;
      r <- ed_decompress B R ;;
      s <- scalar_from_canonical_bytes S0 ;;
      match a, r, s with
      | Some a, Some r, Some s =>
          A' <- ed_compress B a ;;
          R' <- ed_compress B r ;;
          k <- scalar_from_bytes_mod_order_wide h ;;
          rest <- batch_sums l' ;;
          match rest with
          | Some (t, Q) =>
              zs <- scalar_mul z s ;;
              t <- scalar_add t zs ;;
              W <- ed_scalar_mul B a k ;;
              W <- ed_add B r W ;;
              W <- ed_scalar_mul B W z ;;
              Q <- ed_add B Q W ;;
              Ok (if list_eqb A' A && list_eqb R' R then Some (t, Q) else None)
          | None => Ok None
          end
      | _, _, _ => Ok None
      end
  end.

Definition sig_batch (l : list (scalar * signed)) : res bool :=
  sums <- batch_sums l ;;
  match sums with
  | Some (t, Q) =>
      P <- ed_scalar_mul B (ed_generator B) t ;;
      P <- ed_double B P ;;
      P <- ed_double B P ;;
      Q <- ed_double B Q ;;
      Q <- ed_double B Q ;;
      ed_ct_eq B P Q
  | None => Ok false
  end.
End Batch.
