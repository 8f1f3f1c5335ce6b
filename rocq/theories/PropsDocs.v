(** Properties C76 and C77: what the crate's comments and readme say about its field, scalars and curves.

    Reading guide. [chain + carry] is the variable borrow of scalar.rs:386. [val28], [val56]: the integer 16 or 8 limbs stand for; [wf28]: the limbs
    field operations of the 32-bit backend return; [tight56]: those of the 64-bit one. [shipped B]: B is one of the two backends. [fv B a]: the field element a stands for.
    [ed_valid], [tw_valid], [xt_valid], [ed_affine], [tw_affine], [xt_affine], [pn_rep]: PointSpec.v. [padd], [pmul], [on_curve]: SpecCurve.v. [costs]: CostSpec.v. *)
Require Import ZArith Znumtheory List Bool Lia.
From Verif Require Import Base SpecParams SpecField SpecCurve FieldBackend FieldModel FieldU32Model FieldFiatModel Backends ScalarModel
  TwistedModel ScalarMulModel EdwardsModel PointSpec StepCurve Steps TraceSpec ApiExpr CostSpec FiatCode CurveTheory DocsField DocsCurve DocsMain DocsCost DocsCases.
Import ListNotations.
Open Scope Z_scope.

(** ** C76: scalars *)

(** constants.rs:11-14 gives the order of the base point with the wrong sign. *)
Theorem C76_order_text_refuted : sval MODULUS = 2 ^ 446 - 0x8335dc163bb124b65129c96fde933d8d723a70aadc873d6d54a7bb0d /\
  sval MODULUS <> 2 ^ 446 + 0x8335dc163bb124b65129c96fde933d8d723a70aadc873d6d54a7bb0d.
Proof. exact order_text. Qed.
Print Assumptions C76_order_text_refuted.

(** scalar.rs:381-385: "the case of borrow == 1 should never happen".  In additions it happens for the sums from 2^448 + l on, in multiplications never. *)
Theorem C76_borrow_add : forall a b, is_scalar a -> is_scalar b ->
  exists r carry d chain, add_loop a b 0 = Ok (r, carry) /\ sub_loop r MODULUS 0 = Ok (d, chain) /\
    -1 <= chain + carry <= 1 /\ (chain + carry = 1 <-> 2 ^ 448 + ell <= sval a + sval b).
Proof. exact borrow_add. Qed.
Print Assumptions C76_borrow_add.
Theorem C76_borrow_mul : forall x y, is_scalar x -> is_scalar y ->
  exists r carry d chain, mont_loop x y (scalar_zero, 0) = Ok (r, carry) /\ sub_loop r MODULUS 0 = Ok (d, chain) /\
    0 <= carry <= 1 /\ -1 <= chain + carry <= 0.
Proof. exact borrow_mul. Qed.
Print Assumptions C76_borrow_mul.
Theorem C76_borrow_refuted : exists a b r d, is_scalar a /\ is_scalar b /\ add_loop a b 0 = Ok (r, 1) /\ sub_loop r MODULUS 0 = Ok (d, 0).
Proof. exact borrow_refuted. Qed.
Print Assumptions C76_borrow_refuted.
Example C76_borrow_case : is_scalar (digits 32 14 (ell - 1)) /\ ~ 2 ^ 448 + ell <= sval (digits 32 14 (ell - 1)) + sval (digits 32 14 (ell - 1)).
Proof. exact borrow_case. Qed.

(** ** C76: the 32-bit field *)

(** u32/prime_field.rs:257-258, 270: after weak_reduce the value is below 2p, and may be 0. *)
Theorem C76_weak_bounds : forall a, length a = 16%nat -> Forall (fun x => 0 <= x < 2 ^ 31 - 8) a ->
  exists r, weak_reduce28 a = Ok r /\ 0 <= val28 r < 2 * p /\ val28 r mod p = val28 a mod p /\ Forall (fun x => 0 <= x < 2 ^ 28 + 8) r.
Proof. exact weak_bounds. Qed.
Print Assumptions C76_weak_bounds.
Theorem C76_weak_refuted : exists a, wf28 a /\ weak_reduce28 a = Ok a /\ ~ 0 < val28 a.
Proof. exact weak_refuted. Qed.
Print Assumptions C76_weak_refuted.

(** u32/prime_field.rs:270-273, 320-330, 385-390: the range after subtracting p, what the borrow says, and the two assertions. *)
Theorem C76_strong_chains : forall a, wf28 a ->
  exists w s borrow, weak_reduce28 a = Ok w /\ - p <= val28 w - p < p /\
    borrow_chain w p_limbs 0 = Ok (s, borrow) /\ (borrow = 0 /\ p <= val28 w \/ borrow = -1 /\ val28 w < p) /\
    exists r carry, carry_chain s (if borrow =? 0 then repeat 0 16 else p_limbs) 0 = Ok (r, carry) /\ carry + borrow = 0 /\
      strong_reduce28 a = Ok r /\ val28 r = val28 a mod p.
Proof. exact strong_chains. Qed.
Print Assumptions C76_strong_chains.

(** u32/prime_field.rs:196: "Bias adds 'b' multiples of `p` to self": up to 14, of which the crate uses 2. *)
Theorem C76_bias : forall a b, wf28 a -> 0 <= b <= 14 -> exists r, bias28 a b = Ok r /\ length r = 16%nat /\ val28 r = val28 a + b * p.
Proof. exact bias_multiple. Qed.
Print Assumptions C76_bias.
Theorem C76_bias_refuted : (exists a r, wf28 a /\ bias28 a 15 = Ok r /\ val28 r <> val28 a + 15 * p) /\ forall a, wf28 a -> bias28 a 17 = Panic.
Proof. exact bias_refuted. Qed.
Print Assumptions C76_bias_refuted.
Example C76_limbs_case : wf28 (repeat (2 ^ 28 + 511) 16) /\ 2 ^ 448 < val28 (repeat (2 ^ 28 + 511) 16).
Proof. exact limbs_case. Qed.

(** ** C76: the 64-bit field *)

(** fiat_u64/prime_field.rs:188: "Reduces the field element to a canonical representation".  It leaves p as it is. *)
Theorem C76_fiat_strong_refuted : exists a r, tight56 a /\ strong_reduce56 fiat_code a = Ok r /\ val56 a mod p = 0 /\ val56 r = p.
Proof. exact fiat_strong_refuted. Qed.
Print Assumptions C76_fiat_strong_refuted.

(** ** C76: both fields *)

(** field/mod.rs:121-123: for u = 0 the inverse root is zero, which is wanted, and its flag is 0. *)
Theorem C76_ratio_zero : forall B, shipped B -> forall u v, fe_tight B u -> fe_tight B v ->
  (fv B u = of_Z 0 -> exists x i r, fe_mul B u v = Ok x /\ fe_inverse_square_root B x = Ok (i, false) /\ fv B i = of_Z 0 /\
     fe_sqrt_ratio B u v = Ok (r, true) /\ fv B r = of_Z 0) /\
  (fv B u <> of_Z 0 -> fv B v = of_Z 0 -> exists r, fe_sqrt_ratio B u v = Ok (r, false) /\ fv B r = of_Z 0).
Proof. exact ratio_zero. Qed.
Print Assumptions C76_ratio_zero.
Example C76_ratio_case : shipped u32_backend /\ fe_tight u32_backend zero28 /\ fv u32_backend zero28 = of_Z 0 /\ fe_tight u32_backend one28 /\ fv u32_backend one28 <> of_Z 0.
Proof. exact ratio_case. Qed.

(** field/mod.rs:37: "new length 460". *)
Theorem C76_chain_length : forall B, shipped B -> forall (a : fe (tagged B)), fe_tight B (fst a) ->
  exists c, costs (fe_invertS _ _ (field_machine B) a) c /\ (muls c + squares c = 460)%N.
Proof. exact chain_length. Qed.
Print Assumptions C76_chain_length.

Open Scope F_scope.
(** ** C77: the curves *)

(** readme.md:35: cofactor 4.  The twisted curve has 4l - 2 points with two coordinates (and two at infinity); those with 1 + x^2 a square are 2l. *)
Theorem C77_twisted_count : exists L : list point, NoDup L /\ (forall P, In P L <-> on_curve tw_a tw_d P) /\ Z.of_nat (length L) = (4 * ell - 2)%Z.
Proof. exact tw_count. Qed.
Print Assumptions C77_twisted_count.
Theorem C77_twisted_half : exists L : list point, NoDup L /\ (forall P, In P L <-> on_curve tw_a tw_d P /\ is_square (1 + fst P * fst P)) /\ Z.of_nat (length L) = (2 * ell)%Z.
Proof. exact even_count. Qed.
Print Assumptions C77_twisted_half.

(** edwards/mod.rs:4: "Passing the point back to the Goldilocks curve using the dual-isogeny clears the cofactor." *)
Theorem C77_untwist_clears : forall B, shipped B -> forall T, tw_valid B T -> exists R, tw_to_untwisted B T = Ok R /\ ed_valid B R /\ ed_is_torsion_free B R = Ok true.
Proof. exact untwist_clears. Qed.
Print Assumptions C77_untwist_clears.

(** edwards/mod.rs:8-9: scalar multiplication clears the cofactor if the scalar is a multiple of 4 or the point has no torsion, and only then if the point has a part of order 4. *)
Theorem C77_mul_clears : forall B, shipped B -> forall P s, ed_valid B P -> is_scalar s ->
  exists R b, ed_scalar_mul B P s = Ok R /\ ed_is_torsion_free B R = Ok b /\
    ((4 | sval s)%Z \/ ed_is_torsion_free B P = Ok true -> b = true) /\
    (pmul ed_a ed_d (2 * ell) (ed_affine B P) <> pzero -> (b = true <-> (4 | sval s)%Z)).
Proof. exact mul_clears. Qed.
Print Assumptions C77_mul_clears.
Theorem C77_mul_clears_refuted : forall B, shipped B -> exists P s, ed_valid B P /\ is_scalar s /\ ~ (4 | sval s)%Z /\ ed_is_torsion_free B P = Ok false /\
  exists R, ed_scalar_mul B P s = Ok R /\ ed_is_torsion_free B R = Ok true.
Proof. exact mul_clears_converse_refuted. Qed.
Print Assumptions C77_mul_clears_refuted.
Example C77_torsion_case : forall B, shipped B -> exists P, ed_valid B P /\ pmul ed_a ed_d (2 * ell) (ed_affine B P) <> pzero.
Proof. exact torsion_case. Qed.
Example C77_twisted_case : forall B, shipped B -> tw_valid B (tw_generator B).
Proof. exact twisted_case. Qed.

(** edwards/extended.rs:441: "the original basepoint which had order 2q".  It, which is the crate's base point, and its double have order l. *)
Theorem C77_base_orders : forall n, (0 <= n)%Z ->
  (pmul ed_a ed_d n G = pzero <-> (ell | n)%Z) /\ (pmul ed_a ed_d n (pmul ed_a ed_d 2 G) = pzero <-> (ell | n)%Z).
Proof. exact base_orders. Qed.
Print Assumptions C77_base_orders.
Theorem C77_base_order_refuted : pmul ed_a ed_d ell G = pzero /\ ~ (2 * ell | ell)%Z.
Proof. exact order_2q_refuted. Qed.
Print Assumptions C77_base_order_refuted.

(** edwards/extended.rs:218 and twedwards/affine.rs:12 have a minus sign before D.  With the constants of the crate their equations hold at few points of the curves. *)
Theorem C77_comment_equation : forall x y, on_curve ed_a ed_d (x, y) -> (y * y + x * x = 1 - ed_d * (x * x * (y * y)) <-> x = 0 \/ y = 0).
Proof. exact comment_equation_ed. Qed.
Print Assumptions C77_comment_equation.
Theorem C77_comment_equation_twisted : forall x y, on_curve tw_a tw_d (x, y) -> (y * y - x * x = 1 - tw_d * (x * x * (y * y)) <-> x = 0).
Proof. exact comment_equation_tw. Qed.
Print Assumptions C77_comment_equation_twisted.
Theorem C77_comment_equation_refuted : exists x y, on_curve ed_a ed_d (x, y) /\ y * y + x * x <> 1 - ed_d * (x * x * (y * y)).
Proof. exact comment_equation_refuted. Qed.
Print Assumptions C77_comment_equation_refuted.

(** ** C77: multiplication *)

(** wnaf/mod.rs:9: "Precomputes odd multiples".  It holds all multiples from 1 to 8. *)
Theorem C77_table : forall B, shipped B -> forall T, tw_valid B T ->
  exists t, lookup_from B T = Ok t /\ length t = 8%nat /\ forall i d, (i < 8)%nat -> pn_rep B (nth i t d) (pmul tw_a tw_d (1 + Z.of_nat i) (tw_affine B T)).
Proof. exact table_multiples. Qed.
Print Assumptions C77_table.
Theorem C77_table_refuted : forall B, shipped B -> exists T t, tw_valid B T /\ lookup_from B T = Ok t /\
  forall d k, (0 <= k < 16)%Z -> pn_rep B (nth 1 t d) (pmul tw_a tw_d k (tw_affine B T)) -> k = 2%Z.
Proof. exact odd_multiples_refuted. Qed.
Print Assumptions C77_table_refuted.

(** variable_base.rs:22-27: the mask is -1 for negative numbers, not 1; sign and absolute value come out right except for -128. *)
Theorem C77_digit_mask : forall d, (-128 < d < 128)%Z ->
  shr d 7 = (if d <? 0 then -1 else 0)%Z /\ Z.land (shr d 7) 1 = (if d <? 0 then 1 else 0)%Z /\
  exists t, i8_add d (shr d 7) = Ok t /\ as_u32 (Z.lxor t (shr d 7)) = Z.abs d.
Proof. exact digit_mask. Qed.
Print Assumptions C77_digit_mask.
Theorem C77_digit_mask_refuted : exists d, (-128 <= d < 0)%Z /\ shr d 7 <> 1%Z /\ i8_add d (shr d 7) = Panic.
Proof. exact digit_mask_refuted. Qed.
Print Assumptions C77_digit_mask_refuted.

(** twedwards/projective.rs:14: ((y+x)/2, (y-x)/2, dxy, Z), once divided by the Z that is stored. *)
Theorem C77_niels : forall B, shipped B -> forall P, xt_valid B P -> exists N, xt_to_projective_niels B P = Ok N /\ fv B (pnZ N) <> 0 /\
  let (x, y) := xt_affine B P in
  fv B (pnYpX N) / fv B (pnZ N) = (y + x) / of_Z 2 /\ fv B (pnYmX N) / fv B (pnZ N) = (y - x) / of_Z 2 /\ fv B (pnTd N) / fv B (pnZ N) = tw_d * x * y.
Proof. exact niels_projective. Qed.
Print Assumptions C77_niels.

(** extensible.rs:137: "Cost 8M". *)
Theorem C77_cost_8M : forall B, shipped B -> forall (P : XtPoint (tagged B)) (N : PNiels (tagged B)) R,
  xt_valid B (field_values (s := TXt) P) -> pn_rep B (field_values (s := TPn) N) R ->
  costs (xt_add_projective_nielsS _ _ (field_machine B) P N) (mkCost 8 0 3 3 0 0 0).
Proof. exact cost_8M. Qed.
Print Assumptions C77_cost_8M.

(** edwards/extended.rs:144-147: the last step "should be cheaper than calling double_and_add or a scalar mul operation", "this claim has not been tested". *)
Theorem C77_cost_mod_four : forall B, shipped B -> forall (P : EdPoint (tagged B)) t, ed_valid B (field_values (s := TEd) P) -> is_scalar t ->
  costs (ed_scalar_mod_fourS _ _ (field_machine B) P t) (mkCost 26 0 8 8 0 16 0).
Proof. exact cost_mod_four. Qed.
Print Assumptions C77_cost_mod_four.
Example C77_cost_case : forall B, shipped B -> exists (P : XtPoint (tagged B)) (N : PNiels (tagged B)), xt_valid B (field_values (s := TXt) P) /\ pn_rep B (field_values (s := TPn) N) D.
Proof. exact cost_case. Qed.
