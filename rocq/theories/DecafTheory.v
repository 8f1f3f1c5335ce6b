(** The algebra behind the Decaf encoding: [drel Q s] says that s encodes the class of Q. *)
Require Import ZArith List Bool Lia Ring Field.
From Verif Require Import Base BaseProofs SpecParams SpecField SpecCurve SpecEncoding SpecDecaf FieldTheory EdwardsTheory CurveTheory EdSigns
  TwistedProofs EdwardsRun BackendLaws FieldMain TwistedMain MontTheory.
Import ListNotations.
Open Scope F_scope.
Local Opaque fadd fsub fmul fopp fdiv finv fpow of_Z padd pmul pzero fsqrt.

Definition K : F := of_Z 39081.
Definition rK : F := decaf_factor.
Lemma rK_sq : rK * rK = K. Proof. exact (proj1 decaf_factor_spec). Qed.
Lemma rK_even : fodd rK = false. Proof. exact (proj2 decaf_factor_spec). Qed.
Lemma K_nz : K <> 0. Proof. exact nz_39081. Qed.
Lemma rK_nz : rK <> 0. Proof. intro E. apply K_nz. rewrite <- rK_sq, E. ring. Qed.
Lemma tw_d_K : tw_d = - (K + 1). Proof. rewrite tw_d_eq, ed_d_eq. unfold K. ring. Qed.
Lemma ed_d_K : ed_d = - K. Proof. exact ed_d_eq. Qed.
Lemma K4 : of_Z 156328 = of_Z 4 * (K + 1). Proof. unfold K. rewrite <- of_Z_add, <- of_Z_mul. reflexivity. Qed.
Lemma K1 : of_Z 39082 = K + 1. Proof. unfold K. rewrite <- of_Z_add. reflexivity. Qed.
Global Opaque K rK.

Lemma fabs_even : forall x, fodd (fabs x) = false.
Proof.
  intro x. unfold fabs. destruct (fodd x) eqn:E; [|exact E]. rewrite fodd_opp, E; [reflexivity|]. intro Z. rewrite Z in E. discriminate E.
Qed.
Lemma fabs_sq : forall x, fabs x * fabs x = x * x. Proof. intro x. unfold fabs. destruct (fodd x); ring. Qed.
Lemma fopp_0 : - (of_Z 0) = 0. Proof. ring. Qed.
Lemma even_opp_0 : forall a, fodd a = false -> fodd (- a) = false -> a = 0.
Proof. intros a H H'. destruct (F_eq_dec a 0) as [E|N]; [exact E|]. rewrite fodd_opp, H in H' by exact N. discriminate H'. Qed.
Lemma even_sq : forall a b, fodd a = false -> fodd b = false -> a * a = b * b -> a = b.
Proof.
  intros a b Ha Hb E. destruct (fsq_eq _ _ E) as [X|X]; [exact X|]. rewrite X in Ha. pose proof (even_opp_0 b Hb Ha) as Z.
  rewrite X, Z. ring.
Qed.
Lemma fabs_of_even : forall x, fodd x = false -> fabs x = x. Proof. intros x E. unfold fabs. rewrite E. reflexivity. Qed.

Lemma div_opp : forall n t, t <> 0 -> n / - t = - (n / t).
Proof. intros n t N. field. split; [exact N|]. intro Z. apply N. apply fopp_0_iff. exact Z. Qed.
Lemma sqrt_K : sqrt_39081 = rK.
Proof.
  unfold sqrt_39081. apply even_sq; [apply fabs_even|exact rK_even|]. rewrite fabs_sq, rK_sq. apply fsqrt_ok. exact sq_39081.
Qed.

Definition drel (Q : point) (s : F) : Prop :=
  let (x, y) := Q in
  fodd s = false /\ exists t, t * t = 1 + x * x /\ fodd (rK * (x * y) / t) = false /\ s * s * (t + 1) = t - 1.

(** ** Facts about even points *)
Lemma tw_ident : forall x y, on_tw (x, y) -> (1 + x * x) * (1 - y * y) = K * (x * x) * (y * y).
Proof.
  intros x y H. apply tw_eq in H. rewrite tw_d_K in H. transitivity (1 + x * x - y * y - x * x * (y * y)); [ring|].
  replace (K * (x * x) * (y * y)) with (- (- (K + 1) * x * x * y * y) - x * x * (y * y)) by ring. rewrite H. ring.
Qed.
Lemma tw_y_nz : forall x y, on_tw (x, y) -> y <> 0.
Proof.
  intros x y H E. apply tw_ident in H. apply (one_plus_sq_nz x). rewrite E in H. transitivity ((1 + x * x) * (1 - 0 * 0)); [ring|].
  rewrite H. ring.
Qed.
Lemma two_nz : of_Z 2 <> 0. Proof. apply of_Z_small_nonzero. split; reflexivity. Qed.
Lemma four_nz : of_Z 4 <> 0. Proof. apply of_Z_small_nonzero. split; reflexivity. Qed.
Lemma tw_y2 : forall x y, on_tw (x, y) -> y * y * (1 + (K + 1) * (x * x)) = 1 + x * x.
Proof.
  intros x y H. apply tw_eq in H. rewrite tw_d_K in H.
  replace (y * y * (1 + (K + 1) * (x * x))) with (y * y - (- (K + 1) * x * x * y * y)) by ring. rewrite H. ring.
Qed.
Lemma root_nz : forall x t, t * t = 1 + x * x -> t <> 0.
Proof. intros x t E Z. apply (one_plus_sq_nz x). rewrite <- E, Z. ring. Qed.
Lemma root_m1 : forall s t : F, s * s * (t + 1) = t - 1 -> t + 1 <> 0.
Proof.
  intros s t E Z. apply two_nz. rewrite Z in E. transitivity ((t + 1) - (t - 1)); [ring|]. rewrite Z, <- E. ring.
Qed.
Lemma one_m_s2 : forall s t : F, s * s * (t + 1) = t - 1 -> 1 - s * s <> 0.
Proof.
  intros s t E Z. apply two_nz. transitivity ((t + 1) - s * s * (t + 1)); [rewrite E; ring|]. transitivity ((1 - s * s) * (t + 1)); [ring|].
  rewrite Z. ring.
Qed.
Lemma t_of_s : forall s t : F, s * s * (t + 1) = t - 1 -> t = (1 + s * s) / (1 - s * s).
Proof.
  intros s t E. pose proof (one_m_s2 s t E) as N. apply (fmul_cancel_l (1 - s * s)); [exact N|].
  transitivity (t - s * s * (t + 1) + s * s); [ring|]. rewrite E. field. exact N.
Qed.

(** ** One encoding per class *)
Lemma drel_unique : forall Q s s', on_tw Q -> drel Q s -> drel Q s' -> s = s'.
Proof.
  intros [x y] s s' O (Es & t & T1 & T2 & T3) (Es' & t' & T1' & T2' & T3').
  apply even_sq; [exact Es|exact Es'|]. pose proof (root_m1 _ _ T3) as M. pose proof (root_m1 _ _ T3') as M'.
  assert (t = t') as <-.
  { assert (E : t * t = t' * t') by (rewrite T1, T1'; reflexivity). destruct (fsq_eq _ _ E) as [X|X]; [exact X|].
    pose proof (root_nz _ _ T1') as N. assert (W : rK * (x * y) / t = - (rK * (x * y) / t')) by (rewrite X; apply div_opp; exact N).
    rewrite W in T2. pose proof (even_opp_0 _ T2' T2) as Z.
    assert (Z' : x = 0).
    { assert (rK * (x * y) = 0) as Z1 by (transitivity (rK * (x * y) / t' * t'); [field; exact N|rewrite Z; ring]).
      apply fmul_integral in Z1. destruct Z1 as [Z1|Z1]; [destruct (rK_nz Z1)|]. apply fmul_integral in Z1.
      destruct Z1 as [Z1|Z1]; [exact Z1|]. destruct (tw_y_nz _ _ O Z1). }
    assert (A : t * t = 1 * 1) by (rewrite T1, Z'; ring). assert (A' : t' * t' = 1 * 1) by (rewrite T1', Z'; ring).
    destruct (fsq_eq _ _ A) as [A1|A1]; [|exfalso; apply M; rewrite A1; ring].
    destruct (fsq_eq _ _ A') as [A1'|A1']; [|exfalso; apply M'; rewrite A1'; ring]. rewrite A1, A1'. reflexivity. }
  apply (fmul_cancel_l (t + 1)); [exact M|]. transitivity (s * s * (t + 1)); [ring|]. rewrite T3, <- T3'. ring.
Qed.
Lemma drel_torque : forall x y s, drel (x, y) s -> drel (- x, - y) s.
Proof.
  intros x y s (Es & t & T1 & T2 & T3). split; [exact Es|]. exists t. split; [rewrite T1; ring|]. split; [|exact T3].
  replace (- x * - y) with (x * y) by ring. exact T2.
Qed.

(** ** One class per encoding *)
Lemma x_of_t : forall s t x : F, t * t = 1 + x * x -> s * s * (t + 1) = t - 1 -> x * x = (of_Z 2 * s / (1 - s * s)) * (of_Z 2 * s / (1 - s * s)).
Proof.
  intros s t x E T. pose proof (one_m_s2 s t T) as N. rewrite (t_of_s s t T) in E.
  transitivity ((1 + s * s) / (1 - s * s) * ((1 + s * s) / (1 - s * s)) - 1); [rewrite E; ring|]. field. exact N.
Qed.
Lemma y_sq_eq : forall x y x' y', on_tw (x, y) -> on_tw (x', y') -> x * x = x' * x' -> y * y = y' * y'.
Proof.
  intros x y x' y' O O' E. pose proof (tw_y2 _ _ O) as H. pose proof (tw_y2 _ _ O') as H'.
  assert (N : 1 + (K + 1) * (x * x) <> 0).
  { intro Z. apply (one_plus_sq_nz x). rewrite <- H, Z. ring. }
  apply (fmul_cancel_l (1 + (K + 1) * (x * x))); [exact N|]. transitivity (1 + x * x); [rewrite <- H; ring|]. rewrite E, <- H'. ring.
Qed.
Lemma drel_inj : forall x y x' y' s, on_tw (x, y) -> on_tw (x', y') -> drel (x, y) s -> drel (x', y') s ->
  (x = x' /\ y = y') \/ (x = - x' /\ y = - y').
Proof.
  intros x y x' y' s O O' (Es & t & T1 & T2 & T3) (_ & t' & T1' & T2' & T3').
  assert (t' = t) as -> by (rewrite (t_of_s _ _ T3), (t_of_s _ _ T3'); reflexivity). clear T3'.
  assert (EX : x * x = x' * x') by (rewrite (x_of_t s t x), (x_of_t s t x') by assumption; reflexivity).
  pose proof (y_sq_eq _ _ _ _ O O' EX) as EY. pose proof (root_nz _ _ T1) as N.
  assert (EP : x * y = x' * y').
  { apply (fmul_cancel_l (rK / t)).
    - intro Z. apply rK_nz. transitivity (rK / t * t); [field; exact N|]. rewrite Z. ring.
    - replace (rK / t * (x * y)) with (rK * (x * y) / t) by (field; exact N).
      replace (rK / t * (x' * y')) with (rK * (x' * y') / t) by (field; exact N). apply even_sq; [exact T2|exact T2'|].
      transitivity (rK * rK * (x * x) * (y * y) / (t * t)); [field; exact N|]. rewrite EX, EY. field. exact N. }
  pose proof (tw_y_nz _ _ O') as NY. destruct (fsq_eq _ _ EY) as [Y|Y]; [left|right]; (split; [|exact Y]).
  - apply (fmul_cancel_l y'); [exact NY|]. transitivity (x * y); [rewrite Y; ring|]. rewrite EP. ring.
  - apply (fmul_cancel_l y'); [exact NY|]. transitivity (- (x * y)); [rewrite Y; ring|]. rewrite EP. ring.
Qed.

(** ** The acceptance conditions *)
Lemma v_alt : forall s, decaf_v s = (1 - s * s) * (1 - s * s) + of_Z 4 * (K + 1) * (s * s).
Proof. intro s. unfold decaf_v. rewrite K4. ring. Qed.
Lemma drel_ok : forall Q s, on_tw Q -> drel Q s -> s * s <> 1 /\ is_square (decaf_v s) /\ decaf_v s <> 0.
Proof.
  intros [x y] s O (Es & t & T1 & T2 & T3). pose proof (one_m_s2 _ _ T3) as N. pose proof (root_nz _ _ T1) as NT. pose proof (tw_y_nz _ _ O) as NY.
  split. { intro E. apply N. rewrite E. ring. }
  assert (V : decaf_v s = ((1 - s * s) * t / y) * ((1 - s * s) * t / y)).
  { apply (fmul_cancel_l (y * y)); [apply fmul_nonzero; exact NY|].
    transitivity ((1 - s * s) * (1 - s * s) * (t * t)); [|field; exact NY]. rewrite T1, <- (tw_y2 _ _ O), (x_of_t s t x T1 T3), v_alt. field. exact N. }
  rewrite V. split; [apply square_sq|]. assert ((1 - s * s) * t / y <> 0).
  { intro Z. apply (fmul_nonzero _ _ N NT). transitivity ((1 - s * s) * t / y * y); [field; exact NY|]. rewrite Z. ring. }
  apply fmul_nonzero; assumption.
Qed.

(** ** The specification's encoder and decoder satisfy the relation *)
Lemma even_root : forall x y, even_tw (x, y) -> exists t, decaf_root (x, y) = t /\ t * t = 1 + x * x /\ fodd (rK * (x * y) / t) = false.
Proof.
  intros x y [O S]. cbn [fst] in S. pose proof (fsqrt_ok _ S) as R. eexists. split; [reflexivity|]. unfold decaf_root. rewrite sqrt_K.
  set (t := fsqrt (1 + x * x)) in *. pose proof (root_nz _ _ R) as N. destruct (fodd (rK * (x * y) / t)) eqn:E.
  - split; [rewrite <- R; ring|]. replace (rK * (x * y) / - t) with (- (rK * (x * y) / t)).
    + rewrite fodd_opp, E; [reflexivity|]. intro Z. rewrite Z in E. discriminate E.
    + symmetry. apply div_opp. exact N.
  - split; [exact R|exact E].
Qed.
Lemma fsqrt_1 : fsqrt 1 = 1.
Proof. Local Transparent fsqrt. unfold fsqrt. apply fpow_one. apply Z.div_pos; [pose proof p_pos; lia|lia]. Qed.
Local Opaque fsqrt.
Lemma root_0 : forall y, decaf_root (0, y) = 1.
Proof.
  intro y. unfold decaf_root. replace (1 + 0 * 0) with 1 by ring. rewrite fsqrt_1.
  replace (sqrt_39081 * (0 * y) / 1) with 0 by (field; exact F_1_neq_0). rewrite fodd_0. reflexivity.
Qed.
Lemma enc_drel : forall Q, even_tw Q -> drel Q (decaf_s Q).
Proof.
  intros [x y] H. destruct (even_root x y H) as (t & R & T1 & T2). unfold decaf_s. rewrite R. split; [apply fabs_even|].
  exists t. split; [exact T1|]. split; [exact T2|].
  assert (M : t + 1 <> 0).
  { intro Z. assert (Et : t = - (1)) by (transitivity (t + 1 - 1); [ring|rewrite Z; ring]).
    assert (Zx : x = 0). { apply fsq_0. transitivity (t * t - 1); [rewrite T1; ring|]. rewrite Et. ring. }
    rewrite Zx, root_0 in R. apply two_nz. rewrite <- R in Z. rewrite <- Z. rewrite <- of_Z_add. reflexivity. }
  rewrite fabs_sq, fsqrt_ok; [field; exact M|].
  exists (x / (t + 1)). transitivity ((1 + x * x - 1) / ((t + 1) * (t + 1))); [field; exact M|]. rewrite <- T1. field. exact M.
Qed.

(** A point from s and a root r of v, whatever the sign of r. *)
Lemma build_drel : forall s r x y : F, fodd s = false -> 1 - s * s <> 0 -> r * r = decaf_v s -> r <> 0 ->
  x * x = of_Z 2 * s / (1 - s * s) * (of_Z 2 * s / (1 - s * s)) -> y * y = (1 + s * s) / r * ((1 + s * s) / r) ->
  fodd (rK * (x * y) / ((1 + s * s) / (1 - s * s))) = false ->
  even_tw (x, y) /\ drel (x, y) s.
Proof.
  intros s r x y Es N R NR X Y P. rewrite v_alt in R.
  assert (RR : r * r <> 0) by (apply fmul_nonzero; exact NR).
  assert (T1 : (1 + s * s) / (1 - s * s) * ((1 + s * s) / (1 - s * s)) = 1 + x * x) by (rewrite X; field; exact N).
  assert (Y' : y * y = (1 + s * s) * (1 + s * s) / (r * r)) by (rewrite Y; field; exact NR).
  split; [split|].
  - unfold on_tw, on_curve. rewrite Y', X, tw_d_K. unfold tw_a. rewrite R. field. rewrite <- R. auto.
  - cbn [fst]. eexists. exact T1.
  - split; [exact Es|]. eexists. split; [exact T1|]. split; [exact P|]. field. exact N.
Qed.
Lemma opp_sq : forall a : F, - a * - a = a * a. Proof. intro a. ring. Qed.
Lemma dec_drel : forall s, fodd s = false -> s * s <> 1 -> is_square (decaf_v s) -> decaf_v s <> 0 ->
  even_tw (decaf_point s) /\ drel (decaf_point s) s.
Proof.
  intros s Es N1 V NV. assert (N : 1 - s * s <> 0). { intro Z. apply N1. transitivity (1 - (1 - s * s)); [ring|]. rewrite Z. ring. }
  pose proof (fsqrt_ok _ V) as R. unfold decaf_point. rewrite sqrt_K. set (r := fsqrt (decaf_v s)) in *.
  assert (NR : r <> 0). { intro Z. apply NV. rewrite <- R, Z. ring. }
  apply (build_drel s r); try assumption; [reflexivity|match goal with |- (if ?b then _ else _) * _ = _ => destruct b end; [apply opp_sq|reflexivity]|].
  pose proof (fun x => one_plus_sq_nz x) as Q. assert (NT : (1 + s * s) / (1 - s * s) <> 0).
  { intro Z. apply (Q s). transitivity ((1 + s * s) / (1 - s * s) * (1 - s * s)); [field; exact N|]. rewrite Z. ring. }
  set (t := (1 + s * s) / (1 - s * s)) in *. set (x := of_Z 2 * s / (1 - s * s)). set (y := (1 + s * s) / r).
  destruct (fodd (rK * (x * y) / t)) eqn:E; [|exact E].
  replace (rK * (x * - y) / t) with (- (rK * (x * y) / t)) by (field; exact NT). rewrite fodd_opp, E; [reflexivity|].
  intro Z. rewrite Z in E. discriminate E.
Qed.

(** ** Classes *)
Lemma class_coords : forall x y x' y', same_class (x, y) (x', y') <-> (x = x' /\ y = y') \/ (x = - x' /\ y = - y').
Proof.
  intros x y x' y'. unfold same_class. rewrite padd_N. split; intros [H|H]; [left|right|left|right].
  - injection H. auto.
  - injection H. auto.
  - destruct H as [-> ->]. reflexivity.
  - destruct H as [-> ->]. reflexivity.
Qed.
Lemma class_cross : forall x y x' y', even_tw (x, y) -> even_tw (x', y') ->
  (x * y' = y * x' <-> same_class (x, y) (x', y')).
Proof.
  intros x y x' y' H H'. split.
  - intro E. pose proof (even_neg _ H') as H2. pose proof (even_add _ _ H H2) as HW. pose proof (even_den _ _ H H2) as [D1 D2].
    assert (Z : fst (padd tw_a tw_d (x, y) (pneg (x', y'))) = 0).
    { cbn [pneg]. rewrite padd_unf. cbn [fst]. replace (x * y' + y * - x') with 0 by (rewrite E; ring). apply fdiv_0_l. }
    assert (Q : (x, y) = padd tw_a tw_d (x', y') (padd tw_a tw_d (x, y) (pneg (x', y')))).
    { rewrite padd_comm. rewrite (g_assoc _ _ _ tw_group) by assumption. rewrite (padd_comm _ _ (pneg _)), (g_neg_r _ _ _ tw_group) by assumption.
      rewrite padd_0_r. reflexivity. }
    destruct (padd tw_a tw_d (x, y) (pneg (x', y'))) as [wx wy]. cbn [fst] in Z. subst wx.
    assert (W : wy * wy = 1 * 1). { pose proof (tw_y2 _ _ (proj1 HW)) as W. transitivity (wy * wy * (1 + (K + 1) * (0 * 0))); [ring|]. rewrite W. ring. }
    unfold same_class. rewrite Q. destruct (fsq_eq _ _ W) as [-> | ->]; [left|right; reflexivity]. apply padd_0_r.
  - rewrite class_coords. intros [[-> ->]|[-> ->]]; ring.
Qed.
