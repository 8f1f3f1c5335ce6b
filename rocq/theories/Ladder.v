(** The Montgomery ladder over field elements: what it computes on an Edwards curve with suitable numerator and
    denominator maps for the u-coordinate. *)
Require Import ZArith List Bool Lia Ring Field.
From Verif Require Import SpecParams SpecField SpecCurve SpecMontgomery FieldTheory EdwardsTheory CurveTheory ScalarMulProofs MontTheory.
Import ListNotations.
Open Scope F_scope.
Local Opaque fadd fsub fmul fopp fdiv finv fpow of_Z.

(** One step: double the first pair, add both with difference u (as numerator, 1 as denominator). *)
Definition lstep (u : F) (x0 x1 : F * F) : (F * F) * (F * F) :=
  let (U1, W1) := x0 in let (U2, W2) := x1 in
  (((U1 * U1 - W1 * W1) * (U1 * U1 - W1 * W1), of_Z 4 * (U1 * W1) * (U1 * U1 + mont_A * (U1 * W1) + W1 * W1)),
   (of_Z 4 * ((U1 * U2 - W1 * W2) * (U1 * U2 - W1 * W2)), u * (of_Z 4 * ((W1 * U2 - U1 * W2) * (W1 * U2 - U1 * W2))))).
Definition lswap (c : bool) (x : (F * F) * (F * F)) : (F * F) * (F * F) := if c then (snd x, fst x) else x.
Fixpoint lloop (u : F) (bits : list bool) (swap : bool) (x : (F * F) * (F * F)) : F * F :=
  match bits with
  | [] => fst x
  | b :: bits' => let y := lswap (xorb swap b) x in lloop u bits' b (lstep u (fst y) (snd y))
  end.
Definition lval (x : F * F) : F := fst x * finv (snd x).

(** u = 0: one of the two coordinates is always zero. *)
Definition degen (x : F * F) : Prop := fst x * snd x = 0.
Lemma lval_degen : forall x, degen x -> lval x = 0.
Proof.
  intros [U W] H. unfold degen, lval in *. cbn [fst snd] in *. apply fmul_integral in H. destruct H as [E|E]; rewrite E.
  - ring.
  - rewrite finv_0. ring.
Qed.
Lemma lloop_degen : forall bits swap x, degen (fst x) -> degen (snd x) -> degen (lloop 0 bits swap x).
Proof.
  induction bits as [|b bits IH]; intros swap x H0 H1; cbn [lloop]; [exact H0|]. apply IH.
  - destruct (xorb swap b); destruct x as [[U1 W1] [U2 W2]]; unfold degen, lswap in *; cbn [fst snd lstep] in *; [ring [H1]|ring [H0]].
  - destruct (xorb swap b); destruct x as [[U1 W1] [U2 W2]]; unfold degen, lswap in *; cbn [fst snd lstep] in *; ring.
Qed.

Section Ladder.
Variables (a d : F) (S : point -> Prop) (N D : point -> F).
Hypothesis G : edw_group a d S.
Hypothesis Nneg : forall P, N (pneg P) = N P.
Hypothesis Dneg : forall P, D (pneg P) = D P.
Hypothesis D0 : D pzero = 0.
Hypothesis N0 : N pzero <> 0.
Hypothesis Hdbl : forall P, S P -> exists z, z <> 0 /\
  (N P * N P - D P * D P) * (N P * N P - D P * D P) = N (padd a d P P) * z /\
  of_Z 4 * (N P * D P) * (N P * N P + mont_A * (N P * D P) + D P * D P) = D (padd a d P P) * z.
Hypothesis Hadd : forall P Q, S P -> S Q -> N (padd a d P (pneg Q)) <> 0 -> D (padd a d P (pneg Q)) <> 0 -> exists z, z <> 0 /\
  D (padd a d P (pneg Q)) * (of_Z 4 * ((N P * N Q - D P * D Q) * (N P * N Q - D P * D Q))) = N (padd a d P Q) * z /\
  N (padd a d P (pneg Q)) * (of_Z 4 * ((D P * N Q - N P * D Q) * (D P * N Q - N P * D Q))) = D (padd a d P Q) * z.

Definition lrep (x : F * F) (P : point) : Prop := exists z, z <> 0 /\ fst x = N P * z /\ snd x = D P * z.

Lemma lval_rep : forall x P, lrep x P -> lval x = N P * finv (D P).
Proof.
  intros [U W] P (z & Nz & EU & EW). cbn [fst snd] in *. unfold lval. cbn [fst snd]. rewrite EU, EW.
  destruct (F_eq_dec (D P) 0) as [E|ND].
  - rewrite E. replace (0 * z) with (0 : F) by ring. rewrite finv_0. ring.
  - field. split; assumption.
Qed.

Lemma dbl_rep : forall x P y u, S P -> lrep x P -> lrep (fst (lstep u x y)) (padd a d P P).
Proof.
  intros [U W] P [U2 W2] u HP (z & Nz & EU & EW). cbn [lstep fst snd] in *. destruct (Hdbl P HP) as (w & Nw & E1 & E2).
  exists (w * (z * z * z * z)). split; [repeat apply fmul_nonzero; assumption|]. cbn [fst snd]. split.
  - transitivity ((N P * N P - D P * D P) * (N P * N P - D P * D P) * (z * z * z * z)); [rewrite EU, EW; ring|]. rewrite E1. ring.
  - transitivity (of_Z 4 * (N P * D P) * (N P * N P + mont_A * (N P * D P) + D P * D P) * (z * z * z * z)); [rewrite EU, EW; ring|].
    rewrite E2. ring.
Qed.
Lemma add_rep : forall x P y Q u, S P -> S Q -> N (padd a d P (pneg Q)) <> 0 -> D (padd a d P (pneg Q)) <> 0 ->
  u = N (padd a d P (pneg Q)) / D (padd a d P (pneg Q)) -> lrep x P -> lrep y Q -> lrep (snd (lstep u x y)) (padd a d P Q).
Proof.
  intros [U1 W1] P [U2 W2] Q u HP HQ NN ND Eu (z & Nz & EU & EW) (z' & Nz' & EU' & EW'). cbn [lstep fst snd] in *.
  destruct (Hadd P Q HP HQ NN ND) as (w & Nw & E1 & E2). set (NR := N (padd a d P (pneg Q))) in *. set (DR := D (padd a d P (pneg Q))) in *.
  exists (w * (z * z * (z' * z')) / DR). split.
  { rewrite (Fdiv_def F_field). repeat apply fmul_nonzero; try assumption. apply finv_nonzero. exact ND. }
  cbn [fst snd]. split.
  - transitivity (DR * (of_Z 4 * ((N P * N Q - D P * D Q) * (N P * N Q - D P * D Q))) * (z * z * (z' * z')) / DR).
    + rewrite EU, EW, EU', EW'. field. exact ND.
    + rewrite E1. field. exact ND.
  - transitivity (NR * (of_Z 4 * ((D P * N Q - N P * D Q) * (D P * N Q - N P * D Q))) * (z * z * (z' * z')) / DR).
    + rewrite EU, EW, EU', EW', Eu. field. exact ND.
    + rewrite E2. field. exact ND.
Qed.

Variable Q : point.
Hypothesis HQ : S Q.
Hypothesis NQ : N Q <> 0.
Hypothesis DQ : D Q <> 0.
Let u := N Q / D Q.
Local Notation mul := (pmul a d).
Local Notation b2z := Z.b2z.

Lemma diff_Q : forall k b, (0 <= k)%Z ->
  padd a d (mul (k + b2z b) Q) (pneg (mul (k + 1 - b2z b) Q)) = if b then Q else pneg Q.
Proof.
  intros k b Hk. pose proof (pmul_S a d S G k Q HQ) as HK. pose proof (eg_neg _ _ _ G _ HK) as HNK. pose proof (eg_neg _ _ _ G _ HQ) as HNQ. destruct b; cbn [Z.b2z].
  - replace (k + 1 - 1)%Z with k by ring. rewrite pmul_succ by exact Hk. rewrite (g_assoc _ _ _ G) by assumption.
    rewrite (g_neg_r _ _ _ G) by assumption. apply padd_0_r.
  - replace (k + 1 - 0)%Z with (k + 1)%Z by ring. rewrite Z.add_0_r, pmul_succ by exact Hk. rewrite <- padd_pneg, (padd_comm _ _ (pneg Q)).
    rewrite <- (g_assoc _ _ _ G) by assumption. rewrite (g_neg_r _ _ _ G) by assumption. apply padd_0_l.
Qed.

Lemma step_rep : forall k b x, (0 <= k)%Z -> lrep (fst x) (mul (k + b2z b) Q) -> lrep (snd x) (mul (k + 1 - b2z b) Q) ->
  let y := lstep u (fst x) (snd x) in
  lrep (fst y) (mul (2 * k + b2z b + b2z b) Q) /\ lrep (snd y) (mul (2 * k + b2z b + 1 - b2z b) Q).
Proof.
  intros k b x Hk H0 H1. cbv zeta. assert (Hb : (0 <= b2z b <= 1)%Z) by (destruct b; cbn; lia).
  pose proof (pmul_S a d S G (k + b2z b) Q HQ) as S0. pose proof (pmul_S a d S G (k + 1 - b2z b) Q HQ) as S1.
  split.
  - replace (2 * k + b2z b + b2z b)%Z with ((k + b2z b) + (k + b2z b))%Z by ring. rewrite (pmul_add _ _ _ G) by (lia || exact HQ).
    apply dbl_rep; assumption.
  - replace (2 * k + b2z b + 1 - b2z b)%Z with ((k + b2z b) + (k + 1 - b2z b))%Z by ring. rewrite (pmul_add _ _ _ G) by (lia || exact HQ).
    pose proof (diff_Q k b Hk) as E. apply add_rep; try assumption; rewrite E; destruct b; rewrite ?Nneg, ?Dneg; try assumption; reflexivity.
Qed.

Lemma lloop_rep : forall bits k swap x, (0 <= k)%Z ->
  lrep (fst x) (mul (k + b2z swap) Q) -> lrep (snd x) (mul (k + 1 - b2z swap) Q) ->
  lrep (lloop u bits swap x) (mul (bits_acc bits k + b2z (last bits swap)) Q).
Proof.
  induction bits as [|b bits IH]; intros k swap x Hk H0 H1.
  - cbn [lloop last bits_acc fold_left]. exact H0.
  - cbn [lloop]. set (y := lswap (xorb swap b) x).
    assert (K : lrep (fst y) (mul (k + b2z b) Q) /\ lrep (snd y) (mul (k + 1 - b2z b) Q)).
    { subst y. destruct swap, b; cbn [xorb lswap fst snd Z.b2z] in *; split; try assumption.
      - replace (k + 0)%Z with (k + 1 - 1)%Z by ring. assumption.
      - replace (k + 1 - 0)%Z with (k + 1)%Z by ring. assumption.
      - replace (k + 1)%Z with (k + 1 - 0)%Z by ring. assumption.
      - replace (k + 1 - 1)%Z with (k + 0)%Z by ring. assumption. }
    destruct (step_rep k b y Hk (proj1 K) (proj2 K)) as [R0 R1].
    assert (Hb : (0 <= b2z b <= 1)%Z) by (destruct b; cbn; lia).
    pose proof (IH (2 * k + b2z b)%Z b (lstep u (fst y) (snd y)) ltac:(lia) R0 R1) as R.
    replace (bits_acc (b :: bits) k) with (bits_acc bits (2 * k + b2z b)) by reflexivity.
    replace (last (b :: bits) swap) with (last bits b); [exact R|]. clear. destruct bits as [|c bits]; [reflexivity|].
    revert b c. induction bits as [|e bits IH]; intros b c; [reflexivity|]. exact (IH b e).
Qed.

Theorem lladder : forall bits, lval (lloop u bits false ((1, 0), (u, 1))) =
  N (mul (bits_acc bits 0 + b2z (last bits false)) Q) * finv (D (mul (bits_acc bits 0 + b2z (last bits false)) Q)).
Proof.
  intro bits. apply lval_rep. apply lloop_rep; [lia| |]; cbn [fst snd Z.b2z].
  - rewrite pmul_0. exists (finv (N pzero)). split; [apply finv_nonzero; exact N0|]. cbn [fst snd]. rewrite D0. split; [field; exact N0|ring].
  - change (0 + 1 - 0)%Z with 1%Z. rewrite pmul_1. exists (finv (D Q)). split; [apply finv_nonzero; exact DQ|]. cbn [fst snd]. unfold u. split; field; exact DQ.
Qed.
End Ladder.

(** ** Ed448, with u = y^2 / x^2 *)
Definition edN (P : point) : F := snd P * snd P.
Definition edD (P : point) : F := fst P * fst P.

Lemma mont_A_ed : mont_A = of_Z 2 - of_Z 4 * ed_d.
Proof. rewrite ed_d_eq. unfold mont_A. rewrite <- of_Z_opp, <- of_Z_mul, <- of_Z_sub. reflexivity. Qed.

Lemma ed_mont_dbl : forall P, on_ed P -> exists z, z <> 0 /\
  (edN P * edN P - edD P * edD P) * (edN P * edN P - edD P * edD P) = edN (padd ed_a ed_d P P) * z /\
  of_Z 4 * (edN P * edD P) * (edN P * edN P + mont_A * (edN P * edD P) + edD P * edD P) = edD (padd ed_a ed_d P P) * z.
Proof.
  intros [x y] H. rewrite ed_dbl_eq by exact H. pose proof (ed_C_nz x y H) as NC. pose proof (ed_E_nz x y H) as NE. apply ed_eq in H.
  unfold edN, edD. cbn [fst snd]. exists ((y * y + x * x) * (y * y + x * x) * ((of_Z 2 - (y * y + x * x)) * (of_Z 2 - (y * y + x * x)))).
  split; [repeat apply fmul_nonzero; assumption|]. split; [field; auto|].
  transitivity (of_Z 4 * (y * y * (x * x)) * ((of_Z 2 - (y * y + x * x)) * (of_Z 2 - (y * y + x * x)))); [|field; auto].
  apply (f_equal (fmul (of_Z 4 * (y * y * (x * x))))). rewrite mont_A_ed. ring [H].
Qed.
Lemma ed_mont_add : forall P Q, on_ed P -> on_ed Q -> edN (padd ed_a ed_d P (pneg Q)) <> 0 -> edD (padd ed_a ed_d P (pneg Q)) <> 0 ->
  exists z, z <> 0 /\
  edD (padd ed_a ed_d P (pneg Q)) * (of_Z 4 * ((edN P * edN Q - edD P * edD Q) * (edN P * edN Q - edD P * edD Q))) = edN (padd ed_a ed_d P Q) * z /\
  edN (padd ed_a ed_d P (pneg Q)) * (of_Z 4 * ((edD P * edN Q - edN P * edD Q) * (edD P * edN Q - edN P * edD Q))) = edD (padd ed_a ed_d P Q) * z.
Proof.
  intros [x1 y1] [x2 y2] H1 H2 NN ND. pose proof (eg_den _ _ _ ed_group _ _ H1 H2) as [D1 D2].
  pose proof (eg_den _ _ _ ed_group _ _ H1 (eg_neg _ _ _ ed_group _ H2)) as [D3 D4].
  unfold edN, edD, padd, pneg, ed_a in *. cbn [fst snd] in *.
  replace (1 - ed_d * x1 * - x2 * y1 * y2) with (1 + ed_d * x1 * x2 * y1 * y2) in * by ring.
  replace (1 + ed_d * x1 * - x2 * y1 * y2) with (1 - ed_d * x1 * x2 * y1 * y2) in * by ring.
  set (p := 1 + ed_d * x1 * x2 * y1 * y2) in *. set (q := 1 - ed_d * x1 * x2 * y1 * y2) in *.
  exists (of_Z 4 * ((x1 * y2 - y1 * x2) * (x1 * y2 - y1 * x2)) * ((y1 * y2 + x1 * x2) * (y1 * y2 + x1 * x2))).
  split.
  - assert (KN : y1 * y2 + x1 * x2 <> 0).
    { intro E. apply NN. replace (y1 * y2 - 1 * x1 * - x2) with (y1 * y2 + x1 * x2) by ring. rewrite E, fdiv_0_l. ring. }
    assert (KD : x1 * y2 - y1 * x2 <> 0).
    { intro E. apply ND. replace (x1 * y2 + y1 * - x2) with (x1 * y2 - y1 * x2) by ring. rewrite E, fdiv_0_l. ring. }
    pose proof F_4_neq_0. repeat apply fmul_nonzero; assumption.
  - split; field; auto.
Qed.

Lemma padd_fst : forall a d P Q, fst (padd a d P Q) = (fst P * snd Q + snd P * fst Q) / (1 + d * fst P * fst Q * snd P * snd Q).
Proof. intros a d [x1 y1] [x2 y2]. reflexivity. Qed.
Lemma padd_snd : forall a d P Q, snd (padd a d P Q) = (snd P * snd Q - a * fst P * fst Q) / (1 - d * fst P * fst Q * snd P * snd Q).
Proof. intros a d [x1 y1] [x2 y2]. reflexivity. Qed.

(** The points with x y = 0. *)
Lemma four_mul : forall n P, fst P * snd P = 0 -> fst (pmul ed_a ed_d n P) * snd (pmul ed_a ed_d n P) = 0.
Proof.
  intros n P H. unfold pmul. induction (Z.to_nat n) as [|k IH]; cbn [pmul_nat]; [cbn [fst snd pzero]; ring|].
  rewrite padd_fst, padd_snd, !(Fdiv_def F_field). unfold ed_a. destruct (pmul_nat _ _ k P) as [x2 y2]. destruct P as [x1 y1]. cbn [fst snd] in *.
  set (i := finv _). set (j := finv _). transitivity ((x1 * y1 * (y2 * y2 - x2 * x2) + x2 * y2 * (y1 * y1 - x1 * x1)) * (i * j)); [ring|].
  rewrite H, IH. ring.
Qed.

Theorem ed_ladder : forall bits Q, on_ed Q -> let u := edN Q * finv (edD Q) in
  let R := pmul ed_a ed_d (bits_acc bits 0 + Z.b2z (last bits false)) Q in
  lval (lloop u bits false ((1, 0), (u, 1))) = edN R * finv (edD R).
Proof.
  intros bits Q H. cbv zeta. destruct (F_eq_dec (fst Q * snd Q) 0) as [E|N].
  - assert (E1 : edN Q * finv (edD Q) = 0).
    { apply fmul_integral in E. unfold edN, edD. destruct E as [E|E]; rewrite E.
      - replace (0 * 0) with (0 : F) by ring. rewrite finv_0. ring.
      - ring. }
    rewrite E1. rewrite lval_degen by (apply lloop_degen; unfold degen; cbn [fst snd]; ring).
    pose proof (four_mul (bits_acc bits 0 + Z.b2z (last bits false)) Q E) as E2.
    set (R := pmul _ _ _ Q) in *. symmetry. apply fmul_integral in E2. unfold edN, edD. destruct E2 as [E2|E2]; rewrite E2.
    + replace (0 * 0) with (0 : F) by ring. rewrite finv_0. ring.
    + ring.
  - apply fmul_nonzero_inv in N. destruct N as [Nx Ny]. rewrite <- (Fdiv_def F_field).
    apply (lladder ed_a ed_d on_ed edN edD ed_group); try assumption.
    + intros [x y]. reflexivity.
    + intros [x y]. unfold edD, pneg. cbn [fst]. ring.
    + unfold edD, pzero. cbn [fst]. ring.
    + unfold edN, pzero. cbn [snd]. replace (1 * 1) with (1 : F) by ring. exact F_1_neq_0.
    + exact ed_mont_dbl.
    + exact ed_mont_add.
    + apply fmul_nonzero; assumption.
    + apply fmul_nonzero; assumption.
Qed.
