(** decaf448 as RFC 9496 defines it, on Ed448, against the crate's Decaf on the twisted curve: the point R that the RFC
    decodes and the point P that the crate decodes from the same bytes satisfy phi(R) = [2]P, and encodings agree on all
    pairs related in this way. *)
Require Import ZArith List Bool Lia Ring Field.
From Verif Require Import Base BaseProofs SpecParams SpecField SpecCurve SpecEncoding SpecDecaf FieldTheory FieldProofs EdwardsTheory CurveTheory EdSigns
  AbGroup Order GroupOrder TwistedProofs TwistedMain DecafTheory DecafGroup DecafProofs
  FieldBackend Backends ScalarModel ScalarProofs ScalarMain PointSpec TwistedModel DecafModel EdwardsExpr DecafExpr RfcExpr EdwardsRun EdwardsMain DecafRun DecafMain DecafFacts PhiHat MontTheory.
Import ListNotations.
Open Scope F_scope.
Local Opaque fadd fsub fmul fopp fdiv finv fpow of_Z padd pmul zmul pzero fsqrt SpecCurve.G D T4 ell.
Local Notation "P ⊞ Q" := (padd ed_a ed_d P Q) (at level 50, left associativity).
Local Notation N := (of_Z 0, - of_Z 1).

Lemma rfc_sqrt : rfc_SQRT_MINUS_D = rK.
Proof.
  apply even_sq; [vm_compute; reflexivity|exact rK_even|]. rewrite rK_sq. apply fval_eq. vm_compute. reflexivity.
Qed.
Local Transparent isr_exp.
Lemma isr_exp_eq : isr_exp = ((p - 3) / 4)%Z. Proof. reflexivity. Qed.
Local Opaque isr_exp.
Lemma sqrt_ratio_1 : forall w, rfc_SQRT_RATIO_M1 1 w = (feqb (chi w) 1, fabs (isr w)).
Proof.
  intro w. unfold rfc_SQRT_RATIO_M1. replace (1 * w) with w by ring.
  replace (1 * fpow w ((p - 3) / 4)) with (isr w) by (unfold isr; rewrite isr_exp_eq; ring).
  rewrite <- (isr_sq w). replace (isr w * isr w * w) with (w * (isr w * isr w)) by ring. reflexivity.
Qed.
Lemma fabs_opp : forall x, fabs (- x) = fabs x.
Proof. intro x. apply even_sq; try apply fabs_even. rewrite !fabs_sq. ring. Qed.
Lemma fabs_alt : forall x y, x * x = y * y -> fabs x = fabs y.
Proof. intros x y E. apply even_sq; try apply fabs_even. rewrite !fabs_sq. exact E. Qed.

(** s encodes the point (x, y) of Ed448. *)
Definition rrel (Q : point) (s : F) : Prop :=
  let (x, y) := Q in
  on_ed (x, y) /\ fodd s = false /\ exists t, t <> 0 /\ t * t = 1 - x * x /\ fodd (rK * (x * y) / t) = false /\ s * s * (1 + t) = 1 - t.

(** ** Decoding *)
Lemma v_u2 : forall s, decaf_v s = (1 + s * s) * (1 + s * s) - of_Z 4 * rfc_D * (s * s).
Proof.
  intro s. rewrite v_alt. unfold rfc_D. rewrite ed_d_K. replace (of_Z 4) with (of_Z 2 + of_Z 2) by (rewrite <- of_Z_add; reflexivity).
  replace (of_Z 2) with (1 + 1) by (rewrite <- of_Z_add; reflexivity). ring.
Qed.
Lemma decode_alg : forall s, fodd s = false -> s * s <> 1 -> is_square (decaf_v s) -> decaf_v s <> 0 ->
  let w := decaf_v s * ((1 + s * s) * (1 + s * s)) in
  let i := fabs (isr w) in
  chi w = 1 /\
  rrel (fabs (of_Z 2 * s * i * (1 + s * s) * rK) * i * decaf_v s * finv rK, (1 - s * s) * i * (1 + s * s)) s.
Proof.
  intros s Es N1 V NV w i. pose proof (one_plus_sq_nz s) as NU. assert (N : 1 - s * s <> 0). { intro Z. apply N1. transitivity (1 - (1 - s * s)); [ring|]. rewrite Z. ring. }
  assert (NW : w <> 0) by (repeat apply fmul_nonzero; assumption).
  assert (SW : is_square w). { destruct V as [r R]. exists (r * (1 + s * s)). unfold w. rewrite <- R. ring. }
  split; [apply chi_square; split; assumption|].
  assert (I2 : i * i * w = 1) by (unfold i; rewrite fabs_sq; apply isr_square; assumption).
  set (v := decaf_v s) in *. set (u := 1 + s * s) in *. set (q := fabs (of_Z 2 * s * i * u * rK)).
  pose proof rK_nz as NK.
  assert (Q2 : q * q = of_Z 4 * (s * s) * (i * i) * (u * u) * K).
  { unfold q. rewrite fabs_sq, <- rK_sq. replace (of_Z 4) with (of_Z 2 * of_Z 2) by (rewrite <- of_Z_mul; reflexivity). ring. }
  assert (II : i * i = finv (v * (u * u))). { fold w. apply (fmul_cancel_l w); [exact NW|]. transitivity (i * i * w); [ring|]. rewrite I2. field. exact NW. }
  assert (X2 : q * i * v * finv rK * (q * i * v * finv rK) = of_Z 4 * (s * s) / (u * u)).
  { transitivity (q * q * (i * i) * (v * v) / (rK * rK)); [field; exact NK|]. rewrite Q2, II, rK_sq. field. repeat split; assumption || exact K_nz. }
  assert (Y2 : (1 - s * s) * i * u * ((1 - s * s) * i * u) = (1 - s * s) * (1 - s * s) / v).
  { transitivity ((1 - s * s) * (1 - s * s) * (u * u) * (i * i)); [ring|]. rewrite II. field. split; assumption. }
  assert (T1 : (1 - s * s) / u * ((1 - s * s) / u) = 1 - of_Z 4 * (s * s) / (u * u)).
  { replace (of_Z 4) with (of_Z 2 * of_Z 2) by (rewrite <- of_Z_mul; reflexivity). replace (of_Z 2) with (1 + 1) by (rewrite <- of_Z_add; reflexivity).
    unfold u. field. exact NU. }
  split; [|split; [exact Es|]].
  - unfold on_ed, on_curve. rewrite X2, Y2, ed_d_K. unfold ed_a. pose proof (v_u2 s) as VV. fold v u in VV. unfold rfc_D in VV. rewrite ed_d_K in VV.
    assert (E : (1 - of_Z 4 * (s * s) / (u * u)) * (1 - (1 - s * s) * (1 - s * s) / v) = (K + 1) * (of_Z 4 * (s * s) / (u * u)) * ((1 - s * s) * (1 - s * s) / v)).
    { rewrite <- T1. transitivity ((1 - s * s) * (1 - s * s) / (u * u) * ((v - (1 - s * s) * (1 - s * s)) / v)); [field; split; assumption|].
      replace (v - (1 - s * s) * (1 - s * s)) with (of_Z 4 * (K + 1) * (s * s)); [field; split; assumption|]. unfold v. rewrite v_alt. ring. }
    set (X := of_Z 4 * (s * s) / (u * u)) in *. set (Y := (1 - s * s) * (1 - s * s) / v) in *.
    transitivity (1 + X * Y - (1 - X) * (1 - Y)); [ring|]. rewrite E. ring.
  - exists ((1 - s * s) / u). split; [|split; [|split]].
    + intro Z. apply N. transitivity ((1 - s * s) / u * u); [field; exact NU|]. rewrite Z. ring.
    + rewrite X2. exact T1.
    + replace (rK * (q * i * v * finv rK * ((1 - s * s) * i * u)) / ((1 - s * s) / u)) with (q * (i * i) * (v * (u * u))) by (field; repeat split; assumption).
      replace (q * (i * i) * (v * (u * u))) with q; [apply fabs_even|]. rewrite II. field. split; assumption.
    + unfold u. field. exact NU.
Qed.

Lemma rfc_accept : forall b, bytes 56 b -> decaf_ok b -> exists R, rfc_decode b = Some R /\ rrel R (of_Z (le_val b)).
Proof.
  intros b Hb O. pose proof (ok_even b Hb O) as Es. destruct O as (L & _ & N1 & V & NV). unfold rfc_decode.
  destruct (p <=? le_val b)%Z eqn:C; [apply Z.leb_le in C; lia|]. rewrite Es. cbv zeta. set (s := of_Z (le_val b)) in *.
  rewrite <- v_u2. rewrite sqrt_ratio_1, rfc_sqrt. destruct (decode_alg s Es N1 V NV) as (H & R). rewrite H. replace (feqb 1 1) with true by (symmetry; apply feqb_eq; reflexivity).
  eexists. split; [reflexivity|]. unfold rfc_INVSQRT_MINUS_D. rewrite rfc_sqrt. exact R.
Qed.
Lemma rfc_reject : forall b, bytes 56 b -> ~ decaf_ok b -> rfc_decode b = None.
Proof.
  intros b Hb O. unfold rfc_decode. destruct (p <=? le_val b)%Z eqn:C; [reflexivity|]. apply Z.leb_gt in C.
  destruct (fodd (of_Z (le_val b))) eqn:Es; [reflexivity|]. cbv zeta. set (s := of_Z (le_val b)) in *.
  rewrite <- v_u2. rewrite sqrt_ratio_1. destruct (feqb (chi (decaf_v s * ((1 + s * s) * (1 + s * s)))) 1) eqn:E; [|reflexivity]. exfalso. apply O.
  apply feqb_eq in E. apply chi_square in E. destruct E as (NW & SW). pose proof (one_plus_sq_nz s) as NU.
  assert (NV : decaf_v s <> 0). { intro Z. apply NW. rewrite Z. ring. }
  assert (SV : is_square (decaf_v s)).
  { destruct SW as [r R]. exists (r / (1 + s * s)). transitivity (r * r / ((1 + s * s) * (1 + s * s))); [field; exact NU|]. rewrite R. field. exact NU. }
  split; [exact C|]. split; [rewrite <- fodd_Z; [exact Es|]; pose proof (le_val_nonneg b Hb); lia|]. fold s. split; [|split; assumption].
  intro Z. apply nsq_39082. destruct SV as [r R]. rewrite v_alt in R. exists (r / of_Z 2). rewrite K1.
  transitivity (r * r / (of_Z 2 * of_Z 2)); [field; repeat split; exact four_nz || exact two_nz|]. rewrite R, Z. replace (of_Z 4) with (of_Z 2 * of_Z 2) by (rewrite <- of_Z_mul; reflexivity).
  field. repeat split; exact four_nz || exact two_nz.
Qed.

(** ** Encoding *)
Lemma ed_ident : forall x y, on_ed (x, y) -> (1 - x * x) * (1 - y * y) = (K + 1) * (x * x) * (y * y).
Proof.
  intros x y H. apply ed_eq in H. rewrite ed_d_K in H. transitivity (1 - (x * x + y * y - 1) - 1 + x * x * (y * y)); [ring|]. rewrite <- H. ring.
Qed.
Lemma ratio_simpl : forall r x y t : F, r <> 0 -> t <> 0 -> finv r * (r * (x * y) / t) * 1 - x * y = x * y * (1 - t) / t.
Proof. intros r x y t N1 N2. field. split; assumption. Qed.
Lemma encode_alg : forall x y s, rrel (x, y) s -> rfc_encode (x, y) = le_bytes 56 (fval s).
Proof.
  intros x y s (O & Es & t & NT & T1 & T2 & T3). unfold rfc_encode. cbv zeta. rewrite sqrt_ratio_1. change rfc_CT_ABS with fabs.
  unfold rfc_INVSQRT_MINUS_D, rfc_ONE_MINUS_D. rewrite rfc_sqrt, K1. set (u := (x + x * y) * (x - x * y)). apply (f_equal (fun s => le_bytes 56 (fval s))).
  apply even_sq; [apply fabs_even|exact Es|]. rewrite fabs_sq. pose proof rK_nz as NK.
  assert (N1 : 1 + t <> 0). { intro Z. apply two_nz. transitivity (1 - t + (1 + t)); [replace (of_Z 2) with (1 + 1) by (rewrite <- of_Z_add; reflexivity); ring|].
    rewrite <- T3, Z. ring. }
  destruct (F_eq_dec x 0) as [X|NX].
  - subst x. assert (S0 : s * s = 0).
    { assert (TT : t * t = 1 * 1) by (rewrite T1; ring). destruct (fsq_eq _ _ TT) as [E|E].
      - apply (fmul_cancel_l (1 + t)); [exact N1|]. transitivity (s * s * (1 + t)); [ring|]. rewrite T3, E. ring.
      - destruct N1. rewrite E. ring. }
    rewrite S0. replace (u * (K + 1) * (0 * 0)) with 0 by ring. rewrite isr_0. replace (fabs 0) with 0 by (unfold fabs; rewrite fodd_0; reflexivity). ring.
  - assert (NY : y <> 0). { intro Z. pose proof (ed_ident _ _ O) as H. rewrite Z in H. apply (fmul_nonzero _ _ NT NT). rewrite T1. transitivity ((1 - x * x) * (1 - 0 * 0)); [ring|]. rewrite H. ring. }
    assert (NK1 : K + 1 <> 0) by (rewrite <- K1; exact nz_39082).
    assert (Y2 : 1 - y * y = (K + 1) * (x * x) * (y * y) / (t * t)).
    { apply (fmul_cancel_l (t * t)); [apply fmul_nonzero; exact NT|]. transitivity ((1 - x * x) * (1 - y * y)); [rewrite T1; ring|]. rewrite (ed_ident _ _ O). field. exact NT. }
    assert (U : u = (K + 1) * (x * x) * (x * x) * (y * y) / (t * t)).
    { unfold u. transitivity (x * x * (1 - y * y)); [ring|]. rewrite Y2. field. exact NT. }
    pose (h := (K + 1) * x * x * x * y / t).
    assert (W : u * (K + 1) * (x * x) = h * h) by (rewrite U; unfold h; field; exact NT).
    assert (NH : h <> 0). { intro Z. apply (fmul_nonzero _ _ NK1 (fmul_nonzero _ _ NX (fmul_nonzero _ _ NX (fmul_nonzero _ _ NX NY)))).
      transitivity (h * t); [unfold h; field; exact NT|]. rewrite Z. ring. }
    rewrite W. set (i := fabs (isr (h * h))).
    assert (I2 : i * i * (h * h) = 1). { unfold i. rewrite fabs_sq. apply isr_square; [apply fmul_nonzero; exact NH|apply square_sq]. }
    assert (IH : i * h = 1 \/ i * h = - (1)). { apply fsq_eq. transitivity (i * i * (h * h)); [ring|]. rewrite I2. ring. }
    assert (R : fabs (i * u * rK) = rK * (x * y) / t).
    { apply even_sq; [apply fabs_even|exact T2|]. rewrite fabs_sq. transitivity (i * h * (i * h) * (rK * (x * y) / t * (rK * (x * y) / t))).
      - rewrite U. unfold h. field. exact NT.
      - destruct IH as [-> | ->]; ring. }
    rewrite R. rewrite (ratio_simpl rK x y t NK NT).
    transitivity (i * h * (i * h) * ((1 - t) / x * ((1 - t) / x))); [unfold h; field; repeat split; assumption|].
    transitivity ((1 - t) * (1 - t) / (x * x)); [destruct IH as [-> | ->]; field; exact NX|].
    replace (x * x) with ((1 - t) * (1 + t)) by (transitivity (1 - t * t); [ring|]; rewrite T1; ring).
    assert (N2 : 1 - t <> 0). { intro Z. apply (fmul_nonzero _ _ NX NX). transitivity (1 - t * t); [rewrite T1; ring|]. transitivity ((1 - t) * (1 + t)); [ring|]. rewrite Z. ring. }
    apply (fmul_cancel_l (1 + t)); [exact N1|]. transitivity (1 - t); [field; split; assumption|]. rewrite <- T3. ring.
Qed.
Lemma encode_neg : forall x y, rfc_encode (- x, - y) = rfc_encode (x, y).
Proof.
  intros x y. unfold rfc_encode. cbv zeta. replace (- x * - y) with (x * y) by ring. replace ((- x + x * y) * (- x - x * y)) with ((x + x * y) * (x - x * y)) by ring.
  replace (- x * - x) with (x * x) by ring. rewrite sqrt_ratio_1. change rfc_CT_ABS with fabs. set (u := (x + x * y) * (x - x * y)).
  match goal with |- le_bytes 56 (fval (fabs ?a)) = le_bytes 56 (fval (fabs ?b)) => replace a with (- b) by ring; rewrite fabs_opp; reflexivity end.
Qed.

(** ** The two curves *)
Lemma rrel_phi : forall R P s, rrel R s -> even_tw P -> drel P s -> phi R = padd tw_a tw_d P P.
Proof.
  intros [x y] [a b] s (O & Es & t & NT & T1 & T2 & T3) [O' _] (_ & r & R1 & R2 & R3). rewrite tw_dbl_eq by exact O'. unfold phi.
  pose proof (root_nz _ _ R1) as NR. pose proof (root_m1 _ _ R3) as M.
  assert (N1 : 1 + t <> 0). { intro Z. apply two_nz. transitivity (1 - t + (1 + t)); [replace (of_Z 2) with (1 + 1) by (rewrite <- of_Z_add; reflexivity); ring|].
    rewrite <- T3, Z. ring. }
  assert (RT : r * t = 1).
  { assert (E : (1 - t) * (r + 1) = (r - 1) * (1 + t)).
    { rewrite <- T3, <- R3. ring. }
    apply (fmul_cancel_l (of_Z 2)); [exact two_nz|]. replace (of_Z 2) with (1 + 1) by (rewrite <- of_Z_add; reflexivity).
    transitivity (r * t + (r * t + ((1 - t) * (r + 1) - (r - 1) * (1 + t)))); [rewrite E; ring|]. ring. }
  assert (A2 : a * a = x * x / (t * t)).
  { transitivity (r * r - 1); [rewrite R1; ring|]. replace (x * x) with (1 - t * t) by (rewrite T1; ring).
    transitivity ((r * t * (r * t) - t * t) / (t * t)); [field; exact NT|]. rewrite RT. field. exact NT. }
  assert (B2 : b * b = y * y / (t * t)).
  { pose proof (tw_y2 _ _ O') as H. pose proof (ed_ident _ _ O) as HI.
    assert (NB : 1 + (K + 1) * (a * a) <> 0). { intro Z. rewrite Z in H. apply (one_plus_sq_nz a). rewrite <- H. ring. }
    apply (fmul_cancel_l (1 + (K + 1) * (a * a))); [exact NB|]. transitivity (1 + a * a); [rewrite <- H; ring|]. rewrite A2.
    transitivity ((t * t + x * x) / (t * t)); [field; exact NT|].
    transitivity (1 / (t * t)); [replace (t * t + x * x) with 1 by (rewrite T1; ring); reflexivity|].
    transitivity ((t * t * (y * y) + (K + 1) * (x * x) * (y * y)) / (t * t * (t * t))); [|field; exact NT].
    rewrite <- HI. replace (1 - x * x) with (t * t) by exact T1. field. exact NT. }
  assert (AB : a * b = x * y / (t * t)).
  { assert (E : rK * (a * b) / r = rK * (x * y) / t).
    { apply even_sq; [exact R2|exact T2|]. transitivity (rK * rK * (a * a) * (b * b) / (r * r)); [field; exact NR|]. rewrite A2, B2.
      transitivity (rK * rK * (x * x) * (y * y) / (r * t * (r * t) * (t * t))); [field; split; assumption|]. rewrite RT. field. exact NT. }
    apply (fmul_cancel_l rK); [exact rK_nz|]. transitivity (rK * (a * b) / r * r); [field; exact NR|]. rewrite E.
    transitivity (rK * (x * y) * (r * t) / (t * t)); [field; exact NT|]. rewrite RT. field. exact NT. }
  assert (TT : t * t <> 0) by (apply fmul_nonzero; exact NT).
  pose proof (ed_yx_nz _ _ O) as D1. pose proof (ed_E_nz _ _ O) as D2. pose proof NT as NT'.
  apply pt_eq.
  - replace (of_Z 2 * a * b) with (of_Z 2 * (a * b)) by ring. rewrite AB, A2, B2. field. repeat split; assumption.
  - rewrite A2, B2. replace (of_Z 2 - (y * y / (t * t) - x * x / (t * t))) with ((of_Z 2 - (y * y + x * x)) / (t * t)).
    + field. repeat split; assumption.
    + transitivity ((of_Z 2 * (t * t) - (y * y - x * x)) / (t * t)); [|field; exact NT]. apply fdiv_cong; [|reflexivity].
      rewrite T1. replace (of_Z 2) with (1 + 1) by (rewrite <- of_Z_add; reflexivity). ring.
Qed.

(** ** Doubles of points of Ed448 *)
Local Notation "n • P" := (pmul ed_a ed_d n P) (at level 40).
Lemma int_on : forall R, rfc_internal R -> on_ed R.
Proof. intros R (S & O & ->). apply (eg_add _ _ _ ed_group); exact O. Qed.
Lemma int_add : forall R R', rfc_internal R -> rfc_internal R' -> rfc_internal (R ⊞ R').
Proof.
  intros R R' (S & O & ->) (S' & O' & ->). exists (S ⊞ S'). split; [apply (eg_add _ _ _ ed_group); assumption|].
  apply (g_swap _ _ _ ed_group); assumption.
Qed.
Lemma int_neg : forall R, rfc_internal R -> rfc_internal (pneg R).
Proof. intros R (S & O & ->). exists (pneg S). split; [apply (eg_neg _ _ _ ed_group); exact O|]. symmetry. apply padd_pneg. Qed.
Lemma int_zero : rfc_internal pzero.
Proof. exists pzero. split; [exact (eg_0 _ _ _ ed_group)|]. symmetry. apply padd_0_l. Qed.
Lemma int_mul : forall n R, (0 <= n)%Z -> rfc_internal R -> rfc_internal (n • R).
Proof.
  intros n R Hn (S & O & ->). exists (n • S). split; [apply (pmul_S _ _ _ ed_group); exact O|]. apply (pmul_padd _ _ _ ed_group); assumption.
Qed.
Lemma int_G : forall b, (0 <= b)%Z -> rfc_internal (b • SpecCurve.G).
Proof.
  intros b Hb. pose proof ell_pos' as L. pose proof ell_mod4 as M4.
  pose (h := ((ell + 1) / 2)%Z). assert (Eh : (ell + 1 = h + h)%Z).
  { unfold h. pose proof (Z.div_mod (ell + 1) 2 ltac:(lia)) as E. assert ((ell + 1) mod 2 = 0)%Z; [|lia].
    pose proof (Z.div_mod ell 4 ltac:(lia)) as E4. rewrite M4 in E4. rewrite E4. replace (4 * (ell / 4) + 3 + 1)%Z with ((2 * (ell / 4) + 2) * 2)%Z by ring. apply Z_mod_mult. }
  clearbody h. assert (Hh : (0 <= h)%Z) by lia.
  exists ((b * h)%Z • SpecCurve.G). split; [apply (pmul_S _ _ _ ed_group); exact on_G|].
  rewrite <- (pmul_add _ _ _ ed_group) by (nia || exact on_G). replace (b * h + b * h)%Z with (b * ell + b)%Z by lia.
  rewrite (pmul_add _ _ _ ed_group) by (nia || exact on_G). rewrite (pmul_mul _ _ _ ed_group) by (lia || exact on_G).
  rewrite ell_G, pmul_zero by exact Hb. rewrite padd_0_l. reflexivity.
Qed.
Lemma add_T4 : forall x y, (x, y) ⊞ (of_Z 1, of_Z 0) = (y, - x).
Proof.
  intros x y. rewrite padd_unf. unfold ed_a. apply pt_eq; apply fdiv_val; try ring.
  - replace (1 + ed_d * x * 1 * y * 0) with 1 by ring. exact F_1_neq_0.
  - replace (1 - ed_d * x * 1 * y * 0) with 1 by ring. exact F_1_neq_0.
Qed.
Lemma add_T12 : forall x y, (x, y) ⊞ (- of_Z 1, of_Z 0) = (- y, x).
Proof.
  intros x y. rewrite padd_unf. unfold ed_a. apply pt_eq; apply fdiv_val; try ring.
  - replace (1 + ed_d * x * - (1) * y * 0) with 1 by ring. exact F_1_neq_0.
  - replace (1 - ed_d * x * - (1) * y * 0) with 1 by ring. exact F_1_neq_0.
Qed.
Lemma int_x : forall x y, rfc_internal (x, y) -> exists q, q <> 0 /\ q * q = 1 - x * x.
Proof.
  intros x y ([a b] & O & E). rewrite ed_dbl_eq in E by exact O. pose proof (ed_C_nz _ _ O) as NC. pose proof (ed_yx_nz _ _ O) as NB.
  exists ((b * b - a * a) / (b * b + a * a)). split.
  - intro Z. apply NB. transitivity ((b * b - a * a) / (b * b + a * a) * (b * b + a * a)); [field; exact NC|]. rewrite Z. ring.
  - rewrite (pair_fst _ _ _ _ E). replace (of_Z 2) with (1 + 1) by (rewrite <- of_Z_add; reflexivity). field. exact NC.
Qed.
Lemma int_not_y : forall x y t, rfc_internal (x, y) -> t <> 0 -> t * t = 1 - y * y -> False.
Proof.
  intros x y t H NT T. destruct (int_x _ _ H) as (q & NQ & Q). pose proof (ed_ident _ _ (int_on _ H)) as E. rewrite <- Q, <- T in E.
  assert (NXY : x * y <> 0). { intro Z. apply (fmul_nonzero _ _ (fmul_nonzero _ _ NQ NQ) (fmul_nonzero _ _ NT NT)). rewrite E. transitivity ((K + 1) * (x * y) * (x * y)); [ring|]. rewrite Z. ring. }
  apply nsq_39082. exists (q * t / (x * y)). rewrite K1. apply (fmul_cancel_l ((x * y) * (x * y))); [apply fmul_nonzero; exact NXY|].
  transitivity (q * q * (t * t)); [field; split; intro Z; apply NXY; rewrite Z; ring|]. rewrite E. ring.
Qed.
Lemma T4_pair : T4 = (of_Z 1, of_Z 0). Proof. reflexivity. Qed.
Lemma int_of_root : forall x y t, on_ed (x, y) -> t <> 0 -> t * t = 1 - x * x -> rfc_internal (x, y).
Proof.
  intros x y t O NT T. destruct (ed_structure _ O) as (b & c & Hb & Hc & E). pose proof (int_G b (proj1 Hb)) as HI.
  assert (C : (c = 0 \/ c = 1 \/ c = 2 \/ c = 3)%Z) by lia. destruct C as [->|[->|[->| ->]]].
  - rewrite pmul_0, padd_0_r in E. rewrite E. exact HI.
  - exfalso. rewrite pmul_1, T4_pair in E. destruct (b • SpecCurve.G) as [x' y']. rewrite add_T4 in E. apply (int_not_y x' y' t HI NT).
    rewrite T, (pair_fst _ _ _ _ E). reflexivity.
  - rewrite E. apply int_add; [exact HI|]. exists T4. split; [exact on_T4|]. apply pmul_2.
  - exfalso. rewrite T4_3 in E. destruct (b • SpecCurve.G) as [x' y']. rewrite add_T12 in E. apply (int_not_y x' y' t HI NT).
    rewrite T, (pair_fst _ _ _ _ E). ring.
Qed.
Lemma rrel_int : forall R s, rrel R s -> rfc_internal R.
Proof. intros [x y] s (O & _ & t & NT & T & _). exact (int_of_root x y t O NT T). Qed.

(** The kernel of phi on these points. *)
Lemma ed_x0 : forall y, on_ed (0, y) -> (of_Z 0, y) = pzero \/ (of_Z 0, y) = N.
Proof.
  intros y O. assert (W : y * y = 1 * 1). { pose proof (ed_ident _ _ O) as H. transitivity (1 - (1 - 0 * 0) * (1 - y * y)); [ring|]. rewrite H. ring. }
  destruct (fsq_eq _ _ W) as [-> | ->]; [left; reflexivity|right; reflexivity].
Qed.
Lemma two_tors : forall Q, on_ed Q -> Q ⊞ Q = pzero -> Q = pzero \/ Q = N.
Proof.
  intros [x y] H E. apply (g_neg_unique _ _ _ ed_group) in E; [|exact H|exact H]. cbn [pneg] in E.
  assert (x = 0) as -> by (apply self_opp_0; exact (pair_fst _ _ _ _ E)). apply ed_x0. exact H.
Qed.
Lemma not_dbl_dbl_N : forall Q, rfc_internal Q -> Q ⊞ Q <> N.
Proof.
  intros [x y] H E. pose proof (int_on _ H) as O. pose proof (eg_neg _ _ _ ed_group _ O) as On.
  assert (E2 : (x, y) = N ⊞ pneg (x, y)).
  { rewrite <- E. rewrite (g_assoc _ _ _ ed_group) by assumption. rewrite (g_neg_r _ _ _ ed_group) by assumption. rewrite padd_0_r. reflexivity. }
  rewrite padd_comm in E2. cbn [pneg] in E2. rewrite padd_N in E2. assert (y = 0) as -> by (apply self_opp_0; exact (pair_snd _ _ _ _ E2)).
  destruct (int_x _ _ H) as (q & NQ & Q). pose proof (ed_ident _ _ O) as I2. rewrite <- Q in I2. apply (fmul_nonzero _ _ NQ NQ).
  transitivity (q * q * (1 - 0 * 0)); [ring|]. rewrite I2. ring.
Qed.
Lemma phi_kernel : forall W, rfc_internal W -> phi W = pzero -> W = pzero \/ W = N.
Proof.
  intros W H E. pose proof (int_on _ H) as O. assert (E4 : 4 • W = pzero) by (rewrite <- phihat_phi by exact O; rewrite E; exact phihat_zero).
  rewrite (pmul_4 _ _ _ ed_group) in E4 by exact O. destruct (two_tors _ (eg_add _ _ _ ed_group _ _ O O) E4) as [X|X]; [exact (two_tors _ O X)|].
  destruct (not_dbl_dbl_N _ H X).
Qed.
Lemma phi_N : phi N = pzero.
Proof.
  unfold phi. rewrite zero_pair. apply pt_eq; apply fdiv_val.
  - replace (- (1) * - (1) - 0 * 0) with 1 by ring. exact F_1_neq_0.
  - ring.
  - replace (of_Z 2 - (- (1) * - (1) + 0 * 0)) with (of_Z 2 - 1) by ring. replace (of_Z 2 - 1) with (of_Z 1); [exact F_1_neq_0|]. rewrite <- of_Z_sub. reflexivity.
  - replace (of_Z 2) with (1 + 1); [ring|]. rewrite <- of_Z_add. reflexivity.
Qed.
Lemma on_N : on_ed N. Proof. pose proof (ed_ident 0) as _. unfold on_ed, on_curve, ed_a. ring. Qed.
Lemma phi_same : forall R R', rfc_internal R -> rfc_internal R' -> phi R = phi R' -> R = R' \/ R = R' ⊞ N.
Proof.
  intros R R' H H' E. pose proof (int_on _ H) as O. pose proof (int_on _ H') as O'. pose proof (eg_neg _ _ _ ed_group _ O') as On.
  assert (EW : R = R' ⊞ (R ⊞ pneg R')).
  { rewrite padd_comm. rewrite (g_assoc _ _ _ ed_group) by assumption. rewrite (padd_comm _ _ (pneg _)), (g_neg_r _ _ _ ed_group) by assumption. rewrite padd_0_r. reflexivity. }
  destruct (phi_kernel (R ⊞ pneg R')) as [X|X].
  - apply int_add; [exact H|apply int_neg; exact H'].
  - rewrite phi_add, phi_neg, E by assumption. apply (g_neg_r _ _ _ tw_group). apply phi_even. exact O'.
  - left. rewrite X, padd_0_r in EW. exact EW.
  - right. rewrite X in EW. exact EW.
Qed.
Lemma rfc_equal_iff : forall R R', rfc_internal R -> rfc_internal R' -> (rfc_equal R R' <-> phi R = phi R').
Proof.
  intros R R' H H'. pose proof (int_on _ H) as O. pose proof (int_on _ H') as O'. pose proof (eg_neg _ _ _ ed_group _ O') as On. split.
  - intro E. assert (EW : R = R' ⊞ (R ⊞ pneg R')).
    { rewrite padd_comm. rewrite (g_assoc _ _ _ ed_group) by assumption. rewrite (padd_comm _ _ (pneg _)), (g_neg_r _ _ _ ed_group) by assumption. rewrite padd_0_r. reflexivity. }
    assert (Z : fst (R ⊞ pneg R') = 0).
    { destruct R as [x y], R' as [x' y']. unfold rfc_equal in E. cbn [fst snd] in E. cbn [pneg]. rewrite padd_unf. cbn [fst].
      replace (x * y' + y * - x') with 0 by (rewrite E; ring). apply fdiv_0_l. }
    pose proof (eg_add _ _ _ ed_group _ _ O On) as OW. rewrite EW. destruct (R ⊞ pneg R') as [wx wy]. cbn [fst] in Z. subst wx.
    rewrite phi_add by assumption. destruct (ed_x0 wy OW) as [X|X]; rewrite X; [rewrite phi_zero|rewrite phi_N]; apply padd_0_r.
  - intro E. destruct R as [x y], R' as [x' y']. unfold rfc_equal. cbn [fst snd]. destruct (phi_same _ _ H H' E) as [X|X].
    + rewrite (pair_fst _ _ _ _ X), (pair_snd _ _ _ _ X). ring.
    + rewrite padd_N in X. rewrite (pair_fst _ _ _ _ X), (pair_snd _ _ _ _ X). ring.
Qed.

(** ** Related pairs *)
Definition interop (R P : point) : Prop := rfc_internal R /\ even_tw P /\ phi R = padd tw_a tw_d P P.
Lemma interop_rel : forall R P s, rrel R s -> even_tw P -> drel P s -> interop R P.
Proof. intros R P s HR EP HP. split; [exact (rrel_int _ _ HR)|]. split; [exact EP|]. exact (rrel_phi R P s HR EP HP). Qed.
Lemma rrel_encode : forall R s, rrel R s -> rfc_encode R = le_bytes 56 (fval s).
Proof. intros [x y] s H. apply encode_alg. exact H. Qed.
Lemma encode_interop : forall R P, interop R P -> rfc_encode R = decaf_encode P.
Proof.
  intros R P (HR & EP & E). destruct (rfc_accept (decaf_encode P) (decaf_encode_bytes P) (encode_ok P EP)) as (R' & _ & H). rewrite encode_s in H.
  pose proof (rrel_phi R' P _ H EP (enc_drel P EP)) as E'.
  assert (X : rfc_encode R = rfc_encode R').
  { destruct (phi_same R R' HR (rrel_int _ _ H) (eq_trans E (eq_sym E'))) as [X|X]; [rewrite X; reflexivity|]. rewrite X. destruct R' as [x y]. rewrite padd_N. apply encode_neg. }
  rewrite X. exact (rrel_encode _ _ H).
Qed.
Lemma equal_interop : forall R P R' P', interop R P -> interop R' P' -> (rfc_equal R R' <-> same_class P P').
Proof.
  intros R P R' P' (HR & EP & E) (HR' & EP' & E'). rewrite (rfc_equal_iff R R' HR HR'). rewrite (class_dbl P P' EP EP'). rewrite E, E'. reflexivity.
Qed.
Lemma decode_interop : forall b, bytes 56 b ->
  (exists R P, decaf_ok b /\ rfc_decode b = Some R /\ decaf_decode b = Some P /\ interop R P) \/
  (~ decaf_ok b /\ rfc_decode b = None /\ decaf_decode b = None).
Proof.
  intros b Hb. destruct (ok_dec b) as [O|O]; [left|right].
  - destruct (rfc_accept b Hb O) as (R & ER & H). destruct (ok_point b Hb O) as (EP & HP). exists R, (decaf_point (of_Z (le_val b))). split; [exact O|]. split; [exact ER|].
    split; [exact (proj1 (ok_decode b) O)|]. exact (interop_rel _ _ _ H EP HP).
  - split; [exact O|]. split; [exact (rfc_reject b Hb O)|exact (proj2 (ok_decode b) O)].
Qed.
Lemma interop_add : forall R P R' P', interop R P -> interop R' P' -> interop (R ⊞ R') (padd tw_a tw_d P P').
Proof.
  intros R P R' P' (HR & EP & E) (HR' & EP' & E'). split; [apply int_add; assumption|]. split; [apply even_add; assumption|].
  rewrite phi_add by (apply int_on; assumption). rewrite E, E'. apply (g_swap _ _ _ tw_group); assumption.
Qed.
Lemma interop_neg : forall R P, interop R P -> interop (pneg R) (pneg P).
Proof.
  intros R P (HR & EP & E). split; [apply int_neg; assumption|]. split; [apply even_neg; assumption|]. rewrite phi_neg, E. symmetry. apply padd_pneg.
Qed.
Lemma interop_mul : forall n R P, (0 <= n)%Z -> interop R P -> interop (n • R) (pmul tw_a tw_d n P).
Proof.
  intros n R P Hn (HR & EP & E). split; [apply int_mul; assumption|]. split; [apply even_pmul; assumption|]. rewrite phi_mul by (exact Hn || exact (int_on _ HR)).
  rewrite E. apply (pmul_padd _ _ _ tw_group); assumption.
Qed.
Lemma interop_zero : interop pzero pzero.
Proof. split; [exact int_zero|]. split; [exact even_zero|]. rewrite phi_zero. symmetry. apply padd_0_l. Qed.
Lemma interop_class : forall R P P', interop R P -> even_tw P' -> same_class P' P -> interop R P'.
Proof.
  intros R P P' (HR & EP & E) EP' C. split; [exact HR|]. split; [exact EP'|]. rewrite E. symmetry. apply class_dbl; assumption.
Qed.
Lemma interop_gen : exists R, rfc_decode rfc_generator = Some R /\ interop R D.
Proof.
  destruct (rfc_accept _ rfc_gen_bytes accept_gen) as (R & E & H). exists R. split; [exact E|]. exact (interop_rel R D _ H even_D gen_drel).
Qed.

Definition orel (r q : option point) : Prop := match r, q with Some R, Some P => interop R P | None, None => True | _, _ => False end.
Lemma orel1 : forall f g r q, (forall R P, interop R P -> interop (f R) (g P)) -> orel r q -> orel (omap f r) (omap g q).
Proof. intros f g [R|] [P|] H O; cbn in *; try contradiction; [apply H; exact O|exact I]. Qed.
Lemma orel2 : forall f g r q r' q', (forall R P R' P', interop R P -> interop R' P' -> interop (f R R') (g P P')) -> orel r q -> orel r' q' ->
  orel (omap2 f r r') (omap2 g q q').
Proof. intros f g [R|] [P|] [R'|] [P'|] H O O'; cbn in *; try contradiction; try exact I. apply H; assumption. Qed.
Theorem program_interop : forall e, dcexp_ok e -> orel (rfc_val e) (dcexp_val e).
Proof.
  induction e as [| |b|x IHx y IHy|x IHx y IHy|x IHx|x IHx s]; cbn [dcexp_ok rfc_val dcexp_val].
  - intros _. exact interop_zero.
  - intros _. destruct interop_gen as (R & E & H). rewrite E. exact H.
  - intro Hb. destruct (decode_interop b Hb) as [(R & P & _ & ER & EP & H)|(_ & ER & EP)]; rewrite ER, EP; [exact H|exact I].
  - intros [Ox Oy]. apply orel2; [exact interop_add|exact (IHx Ox)|exact (IHy Oy)].
  - intros [Ox Oy]. apply orel2; [|exact (IHx Ox)|exact (IHy Oy)]. intros R P R' P' H H'. apply interop_add; [exact H|apply interop_neg; exact H'].
  - intro Ox. apply orel1; [exact interop_neg|exact (IHx Ox)].
  - intros [Ox Os]. apply orel1; [|exact (IHx Ox)]. intros R P H. apply interop_mul; [exact (proj1 (scalar_range s Os))|exact H].
Qed.
