(** Properties C19-C35, C55 and C56: Edwards points, the isogenies and scalar multiplication.

    Reading guide. [shipped B]: B is the 32-bit backend, or the fiat backend over functions meeting the documented
    contract. [ed_valid B P]: extended coordinates (X : Y : Z : T) with Z <> 0, T Z = X Y and (X/Z, Y/Z) on the curve;
    [ed_affine B P] = (X/Z, Y/Z) (PointSpec.v). [tw_valid], [tw_affine]: the same for the twisted curve. [padd a d],
    [pneg], [pmul a d]: the Edwards addition law, negation and repeated addition (SpecCurve.v). [edexp]: a program over
    the public API (EdwardsExpr.v). [is_scalar s], [sval s]: 14 words of 32 bits and the integer they stand for. [Ok r]:
    returns r without panicking; [x <- e ;; k] runs e then k. *)
Require Import ZArith Znumtheory List Bool Lia Permutation.
From Verif Require Import Base SpecParams SpecField SpecCurve SpecEncoding FieldBackend FieldU32Model Backends ScalarModel ScalarMain
  TwistedModel ScalarMulModel EdwardsModel PointSpec EdwardsExpr EdwardsMain TwistedMain GroupOrder EdwardsCases EdwardsFacts.
Import ListNotations.
Open Scope F_scope.
Open Scope res_scope.

(** ** C19 *)
Theorem C19_reachable_points_valid : forall B, shipped B -> forall e, edexp_ok e ->
  exists o, edexp_run B e = Ok o /\
    match o with
    | Some P => ed_valid B P /\ ed_is_on_curve B P = Ok true /\ edexp_val e = Some (ed_affine B P) /\
        exists A, ed_to_affine B P = Ok A /\ (fv B (edAx A), fv B (edAy A)) = ed_affine B P
    | None => edexp_val e = None
    end.
Proof. exact edexp_valid. Qed.
Print Assumptions C19_reachable_points_valid.

Example C19_case :
  let e := EAdd (EMul (EDecompress (ed_encode G)) (digits 32 14 (ell - 1))) (ESum [ETorque EGenerator; EGenerator; ENeg EIdentity]) in
  edexp_ok e /\ edexp_val e = Some (padd ed_a ed_d (pmul ed_a ed_d (ell - 1) G)
    (padd ed_a ed_d (padd ed_a ed_d G (0, - (1))) (padd ed_a ed_d G (padd ed_a ed_d (pneg pzero) pzero)))).
Proof. exact reach_case. Qed.

(** ** C20 *)
Theorem C20_abelian_group : forall B, shipped B -> forall P Q R, ed_valid B P -> ed_valid B Q -> ed_valid B R ->
  (t <- ed_add B P Q ;; l <- ed_add B t R ;; u <- ed_add B Q R ;; r <- ed_add B P u ;; ed_ct_eq B l r) = Ok true /\
  (l <- ed_add B P Q ;; r <- ed_add B Q P ;; ed_ct_eq B l r) = Ok true /\
  (l <- ed_add B P (ed_identity B) ;; ed_ct_eq B l P) = Ok true /\
  (n <- ed_negate B P ;; l <- ed_add B P n ;; ed_ct_eq B l (ed_identity B)) = Ok true.
Proof. exact ed_abelian. Qed.
Print Assumptions C20_abelian_group.

(** Three distinct valid points for the hypotheses here and below. *)
Example C20_case : forall B, shipped B ->
  ed_valid B (ed_generator B) /\ ed_valid B (ed_identity B) /\ ed_valid B (t4_point B) /\
  ed_affine B (ed_generator B) = G /\ ed_affine B (ed_identity B) = pzero /\ ed_affine B (t4_point B) = (1, 0) /\
  ed_ct_eq B (ed_generator B) (ed_identity B) = Ok false /\ ed_ct_eq B (t4_point B) (ed_generator B) = Ok false.
Proof. exact three_points. Qed.

(** ** C21 *)
Theorem C21_equality_is_affine : forall B, shipped B -> forall P Q, ed_valid B P -> ed_valid B Q ->
  exists b, ed_ct_eq B P Q = Ok b /\ (b = true <-> ed_affine B P = ed_affine B Q).
Proof. exact ed_eq_iff. Qed.
Print Assumptions C21_equality_is_affine.

Theorem C21_equivalence : forall B, shipped B ->
  (forall P, ed_valid B P -> ed_ct_eq B P P = Ok true) /\
  (forall P Q, ed_valid B P -> ed_valid B Q -> ed_ct_eq B P Q = Ok true -> ed_ct_eq B Q P = Ok true) /\
  (forall P Q R, ed_valid B P -> ed_valid B Q -> ed_valid B R ->
     ed_ct_eq B P Q = Ok true -> ed_ct_eq B Q R = Ok true -> ed_ct_eq B P R = Ok true).
Proof. exact ed_eq_equiv. Qed.
Print Assumptions C21_equivalence.

Theorem C21_congruence : forall B, shipped B -> forall P P' Q Q' s,
  ed_valid B P -> ed_valid B P' -> ed_valid B Q -> ed_valid B Q' -> is_scalar s ->
  ed_ct_eq B P P' = Ok true -> ed_ct_eq B Q Q' = Ok true ->
  (l <- ed_add B P Q ;; r <- ed_add B P' Q' ;; ed_ct_eq B l r) = Ok true /\
  (l <- ed_sub B P Q ;; r <- ed_sub B P' Q' ;; ed_ct_eq B l r) = Ok true /\
  (l <- ed_negate B P ;; r <- ed_negate B P' ;; ed_ct_eq B l r) = Ok true /\
  (l <- ed_double B P ;; r <- ed_double B P' ;; ed_ct_eq B l r) = Ok true /\
  (l <- ed_torque B P ;; r <- ed_torque B P' ;; ed_ct_eq B l r) = Ok true /\
  (l <- ed_scalar_mul B P s ;; r <- ed_scalar_mul B P' s ;; ed_ct_eq B l r) = Ok true /\
  (l <- ed_scalar_mod_four B P s ;; r <- ed_scalar_mod_four B P' s ;; ed_ct_eq B l r) = Ok true /\
  ed_ct_eq B P Q = ed_ct_eq B P' Q' /\
  ed_compress B P = ed_compress B P' /\
  ed_to_montgomery B P = ed_to_montgomery B P' /\
  ed_is_torsion_free B P = ed_is_torsion_free B P' /\
  ed_is_on_curve B P = ed_is_on_curve B P'.
Proof. exact ed_eq_congruence. Qed.
Print Assumptions C21_congruence.

(** Two different representations of one point: (0 : 1 : 1 : 0) and (0 : 2 : 2 : 0). *)
Example C21_case : ed_valid u32_backend id_scaled /\ ed_ct_eq u32_backend id_scaled (ed_identity u32_backend) = Ok true /\
  edY id_scaled <> edY (ed_identity u32_backend).
Proof. exact id_scaled_case. Qed.

(** ** C22 *)
Theorem C22_add_is_edwards_law : forall B, shipped B -> forall P Q, ed_valid B P -> ed_valid B Q ->
  exists R, ed_add B P Q = Ok R /\ ed_valid B R /\ ed_affine B R = padd ed_a ed_d (ed_affine B P) (ed_affine B Q).
Proof. exact ed_add_law. Qed.
Print Assumptions C22_add_is_edwards_law.

Theorem C22_law_complete : forall x1 y1 x2 y2, on_curve ed_a ed_d (x1, y1) -> on_curve ed_a ed_d (x2, y2) ->
  1 + ed_d * x1 * x2 * y1 * y2 <> 0 /\ 1 - ed_d * x1 * x2 * y1 * y2 <> 0.
Proof. exact ed_law_complete. Qed.
Print Assumptions C22_law_complete.

(** (1, 0) + (1, 0) = (0, -1). *)
Example C22_case : forall B, shipped B -> exists R, ed_add B (t4_point B) (t4_point B) = Ok R /\ ed_affine B R = (0, - (1)).
Proof. exact add_case. Qed.

(** ** C23 *)
Theorem C23_sub_double_negate : forall B, shipped B -> forall P Q, ed_valid B P -> ed_valid B Q ->
  (exists R, ed_sub B P Q = Ok R /\ ed_valid B R /\ ed_affine B R = padd ed_a ed_d (ed_affine B P) (pneg (ed_affine B Q))) /\
  (exists R, ed_double B P = Ok R /\ ed_valid B R /\ ed_affine B R = padd ed_a ed_d (ed_affine B P) (ed_affine B P)) /\
  (exists R, ed_negate B P = Ok R /\ ed_valid B R /\ ed_affine B R = pneg (ed_affine B P)) /\
  (l <- ed_sub B P Q ;; n <- ed_negate B Q ;; r <- ed_add B P n ;; ed_ct_eq B l r) = Ok true /\
  (l <- ed_double B P ;; r <- ed_add B P P ;; ed_ct_eq B l r) = Ok true /\
  (l <- ed_sub B P Q ;; r <- ed_add B l Q ;; ed_ct_eq B r P) = Ok true.
Proof. exact ed_sub_double. Qed.
Print Assumptions C23_sub_double_negate.

Theorem C23_sums : forall B, shipped B -> forall l, Forall (ed_valid B) l ->
  (exists R, ed_sum B l = Ok R /\ ed_valid B R /\ ed_affine B R = fold_right (padd ed_a ed_d) pzero (map (ed_affine B) l)) /\
  (forall l', Permutation l l' -> (x <- ed_sum B l ;; y <- ed_sum B l' ;; ed_ct_eq B x y) = Ok true) /\
  (forall l1 l2, l = l1 ++ l2 ->
     (x <- ed_sum B l ;; y <- ed_sum B l1 ;; z <- ed_sum B l2 ;; w <- ed_add B y z ;; ed_ct_eq B x w) = Ok true).
Proof. exact ed_sums. Qed.
Print Assumptions C23_sums.

Example C23_case : forall B, shipped B -> let l := [ed_generator B; t4_point B; ed_generator B] in
  Forall (ed_valid B) l /\ Permutation l [t4_point B; ed_generator B; ed_generator B].
Proof. exact sum_case. Qed.

(** ** C24 *)
Theorem C24_torque : forall B, shipped B -> forall P, ed_valid B P ->
  (exists R, ed_torque B P = Ok R /\ ed_valid B R /\ ed_affine B R = padd ed_a ed_d (ed_affine B P) (0, - (1))) /\
  (t <- ed_torque B P ;; u <- ed_torque B t ;; ed_ct_eq B u P) = Ok true.
Proof. exact ed_torque_law. Qed.
Print Assumptions C24_torque.

Theorem C24_two_torsion : on_curve ed_a ed_d (0, - (1)) /\ (0, - (1)) <> pzero /\ padd ed_a ed_d (0, - (1)) (0, - (1)) = pzero.
Proof. exact two_torsion_point. Qed.
Print Assumptions C24_two_torsion.

Example C24_case : forall B, shipped B -> exists R, ed_torque B (t4_point B) = Ok R /\ ed_affine B R = (- (1), 0).
Proof. exact torque_case. Qed.

(** ** C25 *)
Theorem C25_scalar_mul : forall B, shipped B -> forall P s, ed_valid B P -> is_scalar s ->
  exists R, ed_scalar_mul B P s = Ok R /\ ed_valid B R /\ ed_affine B R = pmul ed_a ed_d (sval s) (ed_affine B P).
Proof. exact ed_scalar_mul_law. Qed.
Print Assumptions C25_scalar_mul.

(** [2^448 - 1](1, 0) = (-1, 0), with the largest scalar; [l + 2]G = [2]G. *)
Example C25_case : forall B, shipped B ->
  (exists R, ed_scalar_mul B (t4_point B) (digits 32 14 (2 ^ 448 - 1)) = Ok R /\ ed_affine B R = (- (1), 0)) /\
  (exists R, ed_scalar_mul B (ed_generator B) (digits 32 14 (ell + 2)) = Ok R /\ ed_affine B R = padd ed_a ed_d G G).
Proof. exact mul_case. Qed.

(** ** C26 *)
Theorem C26_scalar_homomorphism : forall B, shipped B -> forall P a b,
  ed_valid B P -> ed_is_torsion_free B P = Ok true -> canonical a -> canonical b ->
  (c <- scalar_add a b ;; l <- ed_scalar_mul B P c ;;
   x <- ed_scalar_mul B P a ;; y <- ed_scalar_mul B P b ;; r <- ed_add B x y ;; ed_ct_eq B l r) = Ok true /\
  (c <- scalar_sub a b ;; l <- ed_scalar_mul B P c ;;
   x <- ed_scalar_mul B P a ;; y <- ed_scalar_mul B P b ;; r <- ed_sub B x y ;; ed_ct_eq B l r) = Ok true /\
  (c <- scalar_mul a b ;; l <- ed_scalar_mul B P c ;;
   x <- ed_scalar_mul B P a ;; r <- ed_scalar_mul B x b ;; ed_ct_eq B l r) = Ok true /\
  (sval a <> 0%Z ->
   (i <- scalar_invert a ;; x <- ed_scalar_mul B P a ;; r <- ed_scalar_mul B x i ;; ed_ct_eq B r P) = Ok true).
Proof. exact ed_scalar_hom. Qed.
Print Assumptions C26_scalar_homomorphism.

Example C26_case : forall B, shipped B ->
  ed_is_torsion_free B (ed_generator B) = Ok true /\ canonical (digits 32 14 (ell - 1)) /\ canonical (digits 32 14 (2 ^ 445 + 7)).
Proof. exact hom_case. Qed.
(** The hypothesis on P cannot be dropped: with P = (1, 0), [(l-1) + 1 mod l]P is the identity, [l-1]P + [1]P is not. *)
Example C26_torsion_needed : forall B, shipped B ->
  (c <- scalar_add (digits 32 14 (ell - 1)) scalar_one ;; l <- ed_scalar_mul B (t4_point B) c ;;
   x <- ed_scalar_mul B (t4_point B) (digits 32 14 (ell - 1)) ;; y <- ed_scalar_mul B (t4_point B) scalar_one ;;
   r <- ed_add B x y ;; ed_ct_eq B l r) = Ok false.
Proof. exact hom_needs_torsion. Qed.

(** ** C27 *)
Theorem C27_compress_roundtrip : forall B, shipped B -> forall P, ed_valid B P ->
  exists b, ed_compress B P = Ok b /\ bytes 57 b /\
    le_val (firstn 56 b) = fval (snd (ed_affine B P)) /\
    nth 56 b 0%Z = (if fodd (fst (ed_affine B P)) then 0x80 else 0x00)%Z /\
    exists R, ed_decompress B b = Ok (Some R) /\ ed_valid B R /\ ed_ct_eq B R P = Ok true.
Proof. exact ed_roundtrip. Qed.
Print Assumptions C27_compress_roundtrip.

(** The generator of RFC 8032 in its standard encoding, and (1, 0), whose x is odd. *)
Example C27_case : forall B, shipped B ->
  ed_compress B (ed_generator B) =
    Ok (le_bytes 57 0x693f46716eb6bc248876203756c9c7624bea73736ca3984087789c1e05a0c2d73ad3ff1ce67c39c4fdbd132c4ed7c8ad9808795bf230fa14) /\
  ed_compress B (t4_point B) = Ok (repeat 0%Z 56 ++ [0x80%Z]).
Proof. exact compress_case. Qed.

(** ** C28 *)
Theorem C28_compress_injective : forall B, shipped B -> forall P Q, ed_valid B P -> ed_valid B Q ->
  (ed_compress B P = ed_compress B Q <-> ed_ct_eq B P Q = Ok true).
Proof. exact ed_compress_injective. Qed.
Print Assumptions C28_compress_injective.

Example C28_case : forall B, shipped B -> ed_compress B (t4_point B) <> ed_compress B (ed_generator B).
Proof. exact injective_case. Qed.

(** ** C29 *)
Theorem C29_decompress_exact : forall B, shipped B -> forall b, bytes 57 b ->
  let y := of_Z (le_val (firstn 56 b)) in
  (forall P, ed_decompress B b = Ok (Some P) -> ed_valid B P /\ snd (ed_affine B P) = y /\
     (fst (ed_affine B P) <> 0 -> fodd (fst (ed_affine B P)) = (128 <=? nth 56 b 0%Z)%Z)) /\
  ((exists P, ed_decompress B b = Ok (Some P)) <-> exists x, on_curve ed_a ed_d (x, y)) /\
  (ed_decompress B b = Ok None <-> ~ exists x, on_curve ed_a ed_d (x, y)).
Proof. exact ed_decompress_exact. Qed.
Print Assumptions C29_decompress_exact.

(** One string of each kind: y = 2 is the y-coordinate of no point. *)
Example C29_case : forall B, shipped B ->
  (exists P, ed_decompress B (ed_encode G) = Ok (Some P) /\ ed_affine B P = G) /\
  ed_decompress B (2%Z :: repeat 0%Z 56) = Ok None.
Proof. exact decompress_case. Qed.

(** ** C30: false as stated. Exactly which accepted strings re-encode to themselves: *)
Theorem C30_decompress_canonical_exact : forall B, shipped B -> forall b P, bytes 57 b -> ed_decompress B b = Ok (Some P) ->
  (ed_compress B P = Ok b <->
   (le_val (firstn 56 b) < p)%Z /\ (nth 56 b 0 = 0x00 \/ nth 56 b 0 = 0x80 /\ fst (ed_affine B P) <> of_Z 0)%Z).
Proof. exact ed_decompress_canonical. Qed.
Print Assumptions C30_decompress_canonical_exact.

(** Witnesses: y = p + 1; a stray low bit in the last byte; a sign bit with x = 0. *)
Theorem C30_rejects_noncanonical_refuted : forall B, shipped B ->
  forall b, In b [le_bytes 57 (p + 1); 1%Z :: repeat 0%Z 55 ++ [1%Z]; 1%Z :: repeat 0%Z 55 ++ [0x80%Z]] ->
  bytes 57 b /\ exists P, ed_decompress B b = Ok (Some P) /\ ed_valid B P /\ ed_compress B P <> Ok b.
Proof. exact noncanonical_accepted. Qed.
Print Assumptions C30_rejects_noncanonical_refuted.

Example C30_case : bytes 57 (ed_encode G) /\ (le_val (firstn 56 (ed_encode G)) < p)%Z /\ nth 56 (ed_encode G) 0%Z = 0%Z.
Proof. exact canonical_case. Qed.

(** ** C31 *)
Theorem C31_is_torsion_free : forall B, shipped B -> forall P, ed_valid B P ->
  exists b, ed_is_torsion_free B P = Ok b /\
    (b = true <-> pmul ed_a ed_d ell (ed_affine B P) = pzero) /\
    (b = true <-> exists k, (0 <= k < ell)%Z /\ ed_affine B P = pmul ed_a ed_d k G).
Proof. exact ed_torsion_free_iff. Qed.
Print Assumptions C31_is_torsion_free.

Theorem C31_point_count :
  exists l : list point, NoDup l /\ (forall P, In P l <-> on_curve ed_a ed_d P) /\ Z.of_nat (length l) = (4 * ell)%Z.
Proof. exact ed_count. Qed.
Print Assumptions C31_point_count.

Example C31_case : forall B, shipped B ->
  ed_is_torsion_free B (ed_generator B) = Ok true /\ ed_is_torsion_free B (t4_point B) = Ok false.
Proof. exact torsion_case. Qed.

(** ** C32 *)
Theorem C32_generator_order : forall B, shipped B ->
  ed_valid B (ed_generator B) /\ ed_affine B (ed_generator B) = G /\
  (forall n, (0 <= n)%Z -> (pmul ed_a ed_d n (ed_affine B (ed_generator B)) = pzero <-> (ell | n)%Z)).
Proof. exact ed_generator_order. Qed.
Print Assumptions C32_generator_order.

Example C32_case : on_curve ed_a ed_d G /\ pmul ed_a ed_d ell G = pzero /\ pmul ed_a ed_d 4 G <> pzero /\ prime ell.
Proof. exact order_case. Qed.

(** ** C33 *)
Theorem C33_isogenies_multiply_by_four : forall B, shipped B -> forall P, ed_valid B P ->
  exists T R, ed_to_twisted B P = Ok T /\ tw_valid B T /\ tw_to_untwisted B T = Ok R /\ ed_valid B R /\
     ed_affine B R = pmul ed_a ed_d 4 (ed_affine B P).
Proof. exact isogenies. Qed.
Print Assumptions C33_isogenies_multiply_by_four.

Theorem C33_dual_composition : forall B, shipped B -> forall T, tw_valid B T ->
  exists R U, tw_to_untwisted B T = Ok R /\ ed_valid B R /\ ed_to_twisted B R = Ok U /\ tw_valid B U /\
    tw_affine B U = pmul tw_a tw_d 4 (tw_affine B T).
Proof. exact dual_isogenies. Qed.
Print Assumptions C33_dual_composition.

Theorem C33_isogenies_additive : forall B, shipped B -> forall P Q T U,
  ed_valid B P -> ed_valid B Q -> tw_valid B T -> tw_valid B U ->
  (s <- ed_add B P Q ;; l <- ed_to_twisted B s ;; x <- ed_to_twisted B P ;; y <- ed_to_twisted B Q ;; r <- tw_add B x y ;; tw_ct_eq B l r) = Ok true /\
  (s <- tw_add B T U ;; l <- tw_to_untwisted B s ;; x <- tw_to_untwisted B T ;; y <- tw_to_untwisted B U ;; r <- ed_add B x y ;; ed_ct_eq B l r) = Ok true.
Proof. exact isogeny_additive. Qed.
Print Assumptions C33_isogenies_additive.

(** The denominators y^2 - a x^2 and 2 - y^2 - a x^2 of [edwards_isogeny], for a = 1 and a = -1. *)
Theorem C33_denominators :
  (forall x y, on_curve ed_a ed_d (x, y) -> y * y - x * x <> 0 /\ of_Z 2 - y * y - x * x <> 0) /\
  (forall x y, on_curve tw_a tw_d (x, y) -> is_square (1 + x * x) ->
     y * y - - (1) * (x * x) <> 0 /\ of_Z 2 - y * y - - (1) * (x * x) <> 0).
Proof. exact isogeny_denominators. Qed.
Print Assumptions C33_denominators.

(** The base point maps to the base point of the twisted curve; (1, 0) maps to the identity. *)
Example C33_case : forall B, shipped B ->
  (exists T, ed_to_twisted B (ed_generator B) = Ok T /\ tw_affine B T = D) /\
  (exists T, ed_to_twisted B (t4_point B) = Ok T /\ tw_affine B T = pzero) /\ tw_valid B (tw_generator B).
Proof. exact isogeny_case. Qed.

(** ** C34 *)
Theorem C34_window_and_bitwise : forall B, shipped B -> forall T s, tw_valid B T -> is_scalar s ->
  (exists R, variable_base B T s = Ok R /\ tw_valid B R /\ tw_affine B R = pmul tw_a tw_d (sval s) (tw_affine B T)) /\
  (exists R, double_and_add B T s = Ok R /\ tw_valid B R /\ tw_affine B R = pmul tw_a tw_d (sval s) (tw_affine B T)) /\
  (l <- variable_base B T s ;; r <- double_and_add B T s ;; tw_ct_eq B l r) = Ok true.
Proof. exact window_bitwise. Qed.
Print Assumptions C34_window_and_bitwise.

Theorem C34_table_lookup : forall B, shipped B -> forall T k, tw_valid B T -> (0 <= k <= 8)%Z ->
  exists t N R, lookup_from B T = Ok t /\ lookup_select B t k = Ok N /\ pn_to_extended B N = Ok R /\ tw_valid B R /\
    tw_affine B R = pmul tw_a tw_d k (tw_affine B T).
Proof. exact lookup_exact. Qed.
Print Assumptions C34_table_lookup.

Theorem C34_recoding : forall s, is_scalar s ->
  exists d, to_radix_16 s = Ok d /\ length d = 113%nat /\ Forall (fun x => -8 <= x < 8)%Z (firstn 112 d) /\
    (nth 112 d 0 = 0 \/ nth 112 d 0 = 1)%Z /\ fold_right (fun x acc => x + 16 * acc)%Z 0%Z d = sval s.
Proof. exact recoding_exact. Qed.
Print Assumptions C34_recoding.

Example C34_case : (forall B, shipped B -> tw_valid B (tw_generator B) /\ tw_affine B (tw_generator B) = D) /\
  to_radix_16 (digits 32 14 (2 ^ 448 - 8)) = Ok (-8 :: repeat 0 111 ++ [1])%Z.
Proof. exact recoding_case. Qed.

(** ** C35 *)
Theorem C35_scalar_mod_four : forall B, shipped B -> forall P s, ed_valid B P -> is_scalar s ->
  exists R, ed_scalar_mod_four B P s = Ok R /\ ed_valid B R /\ ed_affine B R = pmul ed_a ed_d (sval s mod 4) (ed_affine B P).
Proof. exact mod_four_law. Qed.
Print Assumptions C35_scalar_mod_four.

Example C35_case : forall B, shipped B ->
  exists R, ed_scalar_mod_four B (t4_point B) (digits 32 14 (2 ^ 440 + 7)) = Ok R /\ ed_affine B R = (- (1), 0).
Proof. exact mod_four_case. Qed.

(** ** C55 *)
Theorem C55_double_base : forall B, shipped B -> forall a A b, is_scalar a -> tw_valid B A -> is_scalar b ->
  exists R, double_base_scalar_mul B a A b = Ok R /\ tw_valid B R /\
    tw_affine B R = padd tw_a tw_d (pmul tw_a tw_d (sval a) (tw_affine B A)) (pmul tw_a tw_d (sval b) D).
Proof. exact double_base_law. Qed.
Print Assumptions C55_double_base.

(** [a]D + [b]D is the identity when a + b = l. *)
Example C55_case : forall B, shipped B ->
  exists R, double_base_scalar_mul B (digits 32 14 (ell - 5)) (tw_generator B) (digits 32 14 5) = Ok R /\ tw_affine B R = pzero.
Proof. exact double_base_case. Qed.

(** ** C56: false. For every pair of points the cached addition gives twice the coordinates of the sum, which is never
    the sum, and the conversion back gives twice the coordinates of the point. *)
Theorem C56_affine_niels_exact : forall B, shipped B -> forall P A, xt_valid B P -> twa_valid B A ->
  exists N R E, twa_to_affine_niels B A = Ok N /\
    xt_add_affine_niels B P N = Ok R /\
    xt_affine B R = pdbl_coords (padd tw_a tw_d (xt_affine B P) (twa_affine B A)) /\
    xt_affine B R <> padd tw_a tw_d (xt_affine B P) (twa_affine B A) /\
    an_to_extended B N = Ok E /\
    tw_affine B E = pdbl_coords (twa_affine B A) /\ tw_affine B E <> twa_affine B A.
Proof. exact affine_niels_law. Qed.
Print Assumptions C56_affine_niels_exact.

(** All coordinates: the sum still has T1 T2 Z = X Y and Z <> 0; after the conversion back T is y^2 - x^2, not X Y / Z. *)
Theorem C56_affine_niels_coordinates : forall B, shipped B -> forall P A, xt_valid B P -> twa_valid B A -> let x := fv B (twAx A) in let y := fv B (twAy A) in
  exists N R E, twa_to_affine_niels B A = Ok N /\ xt_add_affine_niels B P N = Ok R /\ an_to_extended B N = Ok E /\
    fv B (anYpX N) = y + x /\ fv B (anYmX N) = y - x /\ fv B (anTd N) = x * y * tw_d /\
    fv B (xtZ R) <> 0 /\ fv B (xtT1 R) * fv B (xtT2 R) * fv B (xtZ R) = fv B (xtX R) * fv B (xtY R) /\
    fv B (twX E) = of_Z 2 * x /\ fv B (twY E) = of_Z 2 * y /\ fv B (twZ E) = 1 /\ fv B (twT E) = y * y - x * x.
Proof. exact affine_niels_coords. Qed.
Print Assumptions C56_affine_niels_coordinates.

Theorem C56_affine_niels_refuted : forall B, shipped B ->
  exists P A N R, xt_valid B P /\ twa_valid B A /\ twa_to_affine_niels B A = Ok N /\ xt_add_affine_niels B P N = Ok R /\
    xt_affine B R <> padd tw_a tw_d (xt_affine B P) (twa_affine B A).
Proof. exact affine_niels_wrong. Qed.
Print Assumptions C56_affine_niels_refuted.
