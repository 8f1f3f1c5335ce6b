(** Property C94: key agreement among any number of parties.

    Reading guide.  [chain B u l] (SpecChain.v): the coordinate u is multiplied by the scalars of l one after the other, each time by the crate's
    [&MontgomeryPoint * &Scalar]; [even_product l]: the product of the scalars, each rounded up to an even number.  [mont_mul mont_A e n P]: n times P on
    Curve448 (e = 1) or its twist (e = -1); [u_on_curve], [u_on_twist], [u_low], [ell_twist]: SpecTwist.v; [clamp448]: the decoding of secrets of RFC 7748. *)
Require Import ZArith List Bool Permutation.
From Verif Require Import Base SpecParams SpecField SpecMontgomery SpecTwist SpecChain FieldBackend Backends ScalarModel MontgomeryModel TwistMain ChainMain.
Import ListNotations.
Open Scope Z_scope.

(** The order of the parties does not matter. *)
Theorem C94_order : forall B, shipped B -> forall u l l', bytes 56 u -> Forall is_scalar l -> Permutation l l' ->
  chain B u l = chain B u l' /\ exists r, chain B u l = Ok r /\ bytes 56 r.
Proof. exact chain_order. Qed.
Print Assumptions C94_order.

(** The result is the multiple of the point by the product. *)
Theorem C94_exact : forall B, shipped B -> forall u s l e v, bytes 56 u -> is_scalar s -> Forall is_scalar l -> curve_or_twist e ->
  on_mont mont_A e (Some (of_Z (le_val u), v)) ->
  chain B u (s :: l) = Ok (le_bytes 56 (fval (ucoord (mont_mul mont_A e (even_product (s :: l)) (Some (of_Z (le_val u), v)))))).
Proof. exact chain_exact. Qed.
Print Assumptions C94_exact.

(** When it is zero: for any scalars, for reduced ones, and for the secrets of X448. *)
Theorem C94_zero : forall B, shipped B -> forall u s l, bytes 56 u -> is_scalar s -> Forall is_scalar l ->
  (chain B u (s :: l) = Ok zeros <->
   u_low (le_val u) \/ (u_on_curve (le_val u) /\ (ell | even_product (s :: l))) \/ (u_on_twist (le_val u) /\ (ell_twist | even_product (s :: l)))).
Proof. exact chain_zero. Qed.
Print Assumptions C94_zero.
Theorem C94_reduced : forall B, shipped B -> forall u l, bytes 56 u -> l <> [] -> Forall (fun s => is_scalar s /\ 0 < sval s < ell) l ->
  (chain B u l = Ok zeros <-> u_low (le_val u)).
Proof. exact chain_reduced. Qed.
Print Assumptions C94_reduced.
Theorem C94_x448 : forall B, shipped B -> forall u l, bytes 56 u -> l <> [] -> Forall (bytes 56) l ->
  (chain B u (map (fun k => scalar_from_bytes (clamp448 k)) l) = Ok zeros <->
   u_low (le_val u) \/ (u_on_curve (le_val u) /\ Exists (fun k => le_val (clamp448 k) = 4 * ell) l)).
Proof. exact chain_x448. Qed.
Print Assumptions C94_x448.

(** When two groups of parties get the same result. *)
Theorem C94_equal : forall B, shipped B -> forall u s l s' l', bytes 56 u -> ~ u_low (le_val u) -> is_scalar s -> Forall is_scalar l -> is_scalar s' -> Forall is_scalar l' ->
  (4 | even_product (s :: l)) -> (4 | even_product (s' :: l')) ->
  (chain B u (s :: l) = chain B u (s' :: l') <->
   (u_on_curve (le_val u) /\ ((ell | even_product (s :: l) - even_product (s' :: l')) \/ (ell | even_product (s :: l) + even_product (s' :: l')))) \/
   (u_on_twist (le_val u) /\ ((ell_twist | even_product (s :: l) - even_product (s' :: l')) \/ (ell_twist | even_product (s :: l) + even_product (s' :: l'))))).
Proof. exact chain_equal. Qed.
Print Assumptions C94_equal.

(** Three parties with an odd, an even and the largest reduced scalar; a fourth whose secret clamps to 4 l spoils it. *)
Example C94_case : forall B, shipped B -> let l := [party 3; party 4; party (ell - 1)] in
  Forall (fun s => is_scalar s /\ 0 < sval s < ell) l /\ Permutation l [party (ell - 1); party 3; party 4] /\ even_product l = 16 * (ell - 1) /\
  chain B (le_bytes 56 5) l <> Ok zeros /\ chain B (le_bytes 56 5) (l ++ [scalar_from_bytes (clamp448 weak_secret)]) = Ok zeros.
Proof. exact chain_case. Qed.
