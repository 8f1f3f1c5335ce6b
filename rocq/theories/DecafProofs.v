(** The Decaf code computes the encoding of SpecDecaf.v, and its inverse. *)
Require Import ZArith List Bool Lia Ring Field.
From Verif Require Import Base BaseProofs SpecParams SpecField SpecCurve SpecEncoding SpecDecaf FieldTheory FieldBackend FieldModel BackendLaws FieldProofs Wp
  ScalarModel EdwardsTheory CurveTheory TwistedModel ScalarMulModel DecafModel PointSpec EdSigns TwistedProofs ScalarMulProofs EdwardsProofs EdwardsRun TwistedMain MontTheory DecafTheory DecafGroup.
Import ListNotations.
Open Scope F_scope.
Open Scope res_scope.
Local Opaque fadd fsub fmul fopp fdiv finv fpow of_Z padd pmul pzero fsqrt G D ell.

(** ** The formulas of [compress] *)
Lemma abs_case : forall x, (if fodd x then - x else x) = fabs x. Proof. reflexivity. Qed.
Lemma abs_scaled : forall x k, k <> 0 -> fodd ((if fodd (x * k) then - x else x) * k) = false.
Proof.
  intros x k N. destruct (fodd (x * k)) eqn:E; [|exact E]. replace (- x * k) with (- (x * k)) by ring.
  rewrite fodd_opp, E; [reflexivity|]. intro Z. rewrite Z in E. discriminate E.
Qed.
Lemma cond_sq : forall (b : bool) x, (if b then - x else x) * (if b then - x else x) = x * x. Proof. intros [|] x; ring. Qed.

Lemma zero_term : forall k y t : F, k * (0 * y) / t = 0.
Proof. intros k y t. replace (k * (0 * y)) with 0 by ring. apply fdiv_0_l. Qed.
Lemma compress_alg : forall x y z, even_tw (x, y) -> z <> 0 ->
  let X := x * z in let T := x * y * z in
  let U := (X + T) * (X - T) in
  let i := isr (X * X * U * K) in
  let r := if fodd (i * U * rK) then - (i * U) else i * U in
  let s := (r * z - T) * K * i * X in
  drel (x, y) (if fodd s then - s else s).
Proof.
  intros x y z H NZ X T U i r s. rewrite abs_case. split; [apply fabs_even|]. rewrite fabs_sq.
  destruct H as [O [t0 T0]]. cbn [fst] in T0. pose proof (tw_y_nz _ _ O) as NY. pose proof (root_nz _ _ T0) as NT0.
  pose proof (tw_ident _ _ O) as I. pose proof (one_plus_sq_nz x) as N1. pose proof K_nz as NK.
  destruct (F_eq_dec x 0) as [Zx|NX].
  - assert (s = 0) as ->. { unfold s, X. rewrite Zx. ring. } subst x. exists 1. split; [ring|]. split; [|ring].
    rewrite zero_term. apply fodd_0.
  - assert (Y1 : 1 - y * y = K * (x * x) * (y * y) / (t0 * t0)).
    { rewrite T0. apply (fmul_cancel_l (1 + x * x)); [exact N1|]. rewrite I. field. exact N1. }
    assert (EU : U = x * x * (z * z) * (1 - y * y)) by (unfold U, X, T; ring).
    assert (NY1 : 1 - y * y <> 0).
    { intro Z. apply (fmul_nonzero (K * (x * x)) (y * y)); [repeat apply fmul_nonzero; assumption|repeat apply fmul_nonzero; assumption|].
      rewrite <- I, Z. ring. }
    assert (NU : U <> 0) by (rewrite EU; repeat apply fmul_nonzero; assumption).
    assert (NXX : X <> 0) by (apply fmul_nonzero; assumption).
    assert (NA : X * X * U * K <> 0) by (apply fmul_nonzero; [apply fmul_nonzero; [apply fmul_nonzero|]|]; assumption).
    assert (II : i * i * (X * X * U * K) = 1).
    { apply isr_square; [exact NA|]. exists (x * x * (z * z) * (K * x * y / t0)).
      rewrite EU, Y1. unfold X. field. exact NT0. }
    assert (RR : r * r * K = 1 - y * y).
    { unfold r. rewrite cond_sq. apply (fmul_cancel_l (X * X)); [apply fmul_nonzero; assumption|].
      transitivity (i * i * (X * X * U * K) * U); [ring|]. rewrite II, EU. unfold X. ring. }
    assert (NR : r <> 0). { intro Z. apply NY1. rewrite <- RR, Z. ring. }
    assert (ER : (1 + x * x) * (r * r) = x * x * (y * y)).
    { apply (fmul_cancel_l K); [exact NK|]. transitivity ((1 + x * x) * (r * r * K)); [ring|]. rewrite RR, I. ring. }
    assert (TT : x * y / r * (x * y / r) = 1 + x * x).
    { transitivity (x * x * (y * y) / (r * r)); [field; exact NR|]. rewrite <- ER. field. exact NR. }
    exists (x * y / r). split; [exact TT|]. split.
    + replace (rK * (x * y) / (x * y / r)) with (r * rK) by (field; auto). apply abs_scaled. exact rK_nz.
    + assert (S2 : s * s = (x * y / r - 1) * (x * y / r - 1) / (x * x)).
      { apply (fmul_cancel_l (X * X * U * K)); [exact NA|].
        transitivity (i * i * (X * X * U * K) * ((r * z - T) * K * X * ((r * z - T) * K * X))); [unfold s; ring|]. rewrite II.
        rewrite EU, <- RR. unfold X, T. field. auto. }
      rewrite S2. replace ((x * y / r - 1) * (x * y / r - 1) / (x * x) * (x * y / r + 1)) with ((x * y / r * (x * y / r) - 1) * (x * y / r - 1) / (x * x)) by (field; auto).
      rewrite TT. field. auto.
Qed.

(** ** The formulas of [decompress] *)
Lemma decompress_alg : forall s, fodd s = false -> s * s <> 1 -> is_square (decaf_v s) -> decaf_v s <> 0 ->
  let v := decaf_v s in
  let u1 := 1 - s * s in
  let i := isr (v * (u1 * u1)) in
  let dx := i * u1 in
  let dxs := (s + s) * dx in
  let x0 := dxs * i * v in
  let x := if fodd (dxs * rK) then - x0 else x0 in
  let y := dx * (1 + s * s) in
  even_tw (x, y) /\ drel (x, y) s.
Proof.
  intros s Es N1 V NV v u1 i dx dxs x0 x y.
  assert (N : u1 <> 0). { intro Z. apply N1. transitivity (1 - u1); [unfold u1; ring|]. rewrite Z. ring. }
  assert (II : i * i * (v * (u1 * u1)) = 1).
  { apply isr_square; [apply fmul_nonzero; [exact NV|apply fmul_nonzero; exact N]|]. apply square_mul; [exact V|apply square_sq]. }
  assert (Ni : i <> 0). { intro Z. apply F_1_neq_0. rewrite <- II, Z. ring. }
  assert (DD : dx * dx * v = 1) by (unfold dx; rewrite <- II; ring).
  assert (NDx : dx <> 0) by (apply fmul_nonzero; assumption).
  assert (E0 : x0 = of_Z 2 * s / u1).
  { apply (fmul_cancel_l u1); [exact N|]. transitivity ((s + s) * (dx * dx * v)); [unfold x0, dxs, dx; ring|]. rewrite DD.
    replace (s + s) with (of_Z 2 * s); [field; exact N|]. replace (of_Z 2) with (1 + 1); [ring|]. rewrite <- of_Z_add. reflexivity. }
  apply (build_drel s (finv dx)); [exact Es|exact N| | | | |].
  - apply (fmul_cancel_l (dx * dx)); [apply fmul_nonzero; exact NDx|]. transitivity (1 : F); [field; exact NDx|]. rewrite <- DD. unfold v. ring.
  - intro Z. apply F_1_neq_0. rewrite <- (finv_r dx NDx), Z. ring.
  - unfold x. rewrite cond_sq, E0. reflexivity.
  - unfold y. field. split; [exact NDx|exact F_1_neq_0].
  - fold u1. pose proof (one_plus_sq_nz s) as NP.
    replace (rK * (x * y) / ((1 + s * s) / u1)) with ((if fodd (dxs * rK) then - dxs else dxs) * rK); [apply abs_scaled; exact rK_nz|].
    assert (XD : x0 * dx * u1 = dxs).
    { unfold x0. transitivity (dxs * (dx * dx * v)); [unfold dx; ring|]. rewrite DD. ring. }
    unfold x, y. destruct (fodd (dxs * rK)); rewrite <- XD; field; auto.
Qed.

Section WithLaws.
Variable B : backend.
Hypothesis L : laws B.
Local Notation fv := (fv B).

Lemma isr_step : forall A a (f : fe B * bool -> res A) Q, fe_tight B a ->
  (forall r b, fe_tight B r -> fv r = isr (fv a) -> b = feqb (chi (fv a)) (of_Z 1) -> okp (f (r, b)) Q) ->
  okp (bind (fe_inverse_square_root B a) f) Q.
Proof.
  intros A a f Q Ta H. eapply okp_bind; [apply (inverse_square_root_ok B L); exact Ta|]. intros [r b] [[Tr Vr] Vb]. cbn [fst snd] in *. auto.
Qed.

Theorem dc_compress_ok : forall P Q, tw_rep B P Q -> dc_compress B P = Ok (decaf_encode Q).
Proof.
  intros P [x y] ((TX & TY & TZ & TT) & HQ & NZ & EX & EY & ET). cbn [fst snd] in *.
  pose proof (compress_alg x y (fv (twZ P)) HQ NZ) as C. cbv zeta in C.
  assert (H : okp (dc_compress B P) (fun b => b = decaf_encode (x, y))); [|destruct H as (b & E & ->); exact E].
  unfold dc_compress. fsteps. apply isr_step; [assumption|]. intros i b Ti Vi _. fsteps.
  exists (le_bytes 56 (fval (fv r13))). split; [apply (l_to B L); assumption|].
  assert (drel (x, y) (fv r13)) as R.
  { revert C. rewrite <- EX, <- ET. fvals. fconsts. change decaf_factor with rK. change (of_Z 39081) with K.
    intro C. exact C. }
  unfold decaf_encode. rewrite <- (drel_unique _ _ _ (proj1 HQ) R (enc_drel _ HQ)). reflexivity.
Qed.

Lemma le_val_nonneg : forall b, bytes 56 b -> (0 <= le_val b)%Z.
Proof. intros b [_ H]. exact (proj1 (eval_range 8 b ltac:(lia) H)). Qed.
Lemma le_lt_p : forall b, bytes 56 b -> (list_eqb (le_bytes 56 (fval (of_Z (le_val b)))) b = true <-> (le_val b < p)%Z).
Proof.
  intros b Hb. rewrite list_eqb_eq. pose proof (le_val_nonneg b Hb) as H0. split.
  - intro E. rewrite <- E, le_val_canon. apply fval_range.
  - intro H. rewrite fval_of_Z, Z.mod_small by lia. exact (array_digits_eval 8 56 b ltac:(lia) Hb).
Qed.
Theorem dc_decompress_ok : forall b, bytes 56 b -> okp (dc_decompress B b) (fun o => match o with
  | Some P => decaf_ok b /\ exists Q, tw_rep B P Q /\ drel Q (of_Z (le_val b))
  | None => ~ decaf_ok b end).
Proof.
  intros b Hb. unfold dc_decompress. eapply okp_bind; [apply (l_from B L); exact Hb|]. intros s [Ts Vs]. fsteps. rewrite Vs.
  set (s0 := of_Z (le_val b)) in *.
  destruct (list_eqb (le_bytes 56 (fval s0)) b) eqn:EC; cbn [negb bind]; [|apply okp_ret].
  2: { intros (H & _). unfold s0 in EC. rewrite (proj2 (le_lt_p b Hb) H) in EC. discriminate EC. }
  apply (le_lt_p b Hb) in EC. cbn [bind].
  assert (EO : fodd s0 = Z.odd (le_val b)).
  { unfold fodd, s0. rewrite fval_of_Z, Z.mod_small; [reflexivity|]. split; [|exact EC]. exact (le_val_nonneg b Hb). }
  destruct (fodd s0) eqn:FO; [apply okp_ret; intros (_ & H & _); rewrite <- EO in H; discriminate H|].
  fsteps. apply isr_step; [assumption|]. intros i ok Ti Vi Vok.
  assert (U1 : fv r0 = 1 - s0 * s0) by (fvals; fconsts; ring).
  assert (U2 : fv r1 = 1 + s0 * s0) by (fvals; fconsts; ring).
  assert (VV : fv r4 = decaf_v s0) by (fvals; fconsts; unfold decaf_v; ring).
  assert (VA : fv r5 = decaf_v s0 * ((1 - s0 * s0) * (1 - s0 * s0))) by (rewrite Vr5, Vr2, VV, U1; reflexivity).
  clear Vr Vr0 Vr1 Vr2 Vr3 Vr4 Vr5. rewrite VA in Vi, Vok.
  assert (W : ok = true <-> decaf_ok b).
  { rewrite Vok, feqb_eq, chi_square. unfold decaf_ok. fold s0. cbv zeta. rewrite <- EO. split.
    - intros [N S]. assert (N1 : (1 - s0 * s0) * (1 - s0 * s0) <> 0). { intro Z. apply N. rewrite Z. ring. }
      split; [exact EC|]. split; [reflexivity|]. split.
      + intro E. apply N1. rewrite E. ring.
      + split; [apply (square_mul_cancel _ _ N1 (square_sq _) S)|]. intro Z. apply N. rewrite Z. ring.
    - intros (_ & _ & N & S & NV). split; [|apply square_mul; [exact S|apply square_sq]].
      assert (1 - s0 * s0 <> 0). { intro Z. apply N. transitivity (1 - (1 - s0 * s0)); [ring|]. rewrite Z. ring. }
      apply fmul_nonzero; [exact NV|]. apply fmul_nonzero; assumption. }
  destruct ok; cbn [negb].
  - pose proof (proj1 W eq_refl) as OK. assert (OK' := OK). destruct OK' as (_ & _ & N & S & NV). fold s0 in N, S, NV.
    pose proof (decompress_alg s0 FO N S NV) as A. cbv zeta in A. rewrite <- Vi in A.
    fsteps. apply okp_ret. split; [exact OK|].
    assert (AA : even_tw (fv r12, fv r13) /\ drel (fv r12, fv r13) s0).
    { revert A. rewrite <- U1, <- U2, <- VV. fvals. fconsts. change decaf_factor with rK. intro A. exact A. }
    exists (fv r12, fv r13). split; [|exact (proj2 AA)]. unfold tw_rep. cbn [twX twY twZ twT fst snd]. rewrite Vr14. fconsts.
    pose proof (proj1 (l_one B L)). split; [auto 10|]. split; [exact (proj1 AA)|]. split; [exact F_1_neq_0|]. split; [ring|]. split; ring.
  - apply okp_ret. intro H. apply W in H. discriminate H.
Qed.
End WithLaws.
