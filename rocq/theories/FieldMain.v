(** The field properties in the form used by PropsField.v. *)
Require Import ZArith List Bool Lia Ring Field.
From Verif Require Import Base BaseProofs SpecParams SpecField SpecCurve FieldTheory FieldBackend FieldModel Backends
  BackendLaws FieldProofs FieldExpr Wp.
Import ListNotations.
Open Scope Z_scope.
Open Scope res_scope.

Lemma fexp_run_ok : forall B, laws B -> forall e, fexp_ok e ->
  okp (fexp_run B e) (fun r => is_val B r (of_Z (fexp_val e))).
Proof.
  intros B L. pose proof (l_loose B L) as LL.
  induction e as [b| | |x IHx y IHy|x IHx y IHy|x IHx y IHy|x IHx|x IHx|x IHx|x IHx c|x IHx y IHy c]; cbn [fexp_ok fexp_run fexp_val]; intro H.
  - apply (l_from B L); exact H.
  - apply okp_ret. apply (l_zero B L).
  - apply okp_ret. apply (l_one B L).
  - destruct H as [Hx Hy]. eapply okp_bind; [apply IHx; exact Hx|]. intros a [Ta Va].
    eapply okp_bind; [apply IHy; exact Hy|]. intros b [Tb Vb]. rewrite of_Z_add, <- Va, <- Vb. apply (l_add B L); assumption.
  - destruct H as [Hx Hy]. eapply okp_bind; [apply IHx; exact Hx|]. intros a [Ta Va].
    eapply okp_bind; [apply IHy; exact Hy|]. intros b [Tb Vb]. rewrite of_Z_sub, <- Va, <- Vb. apply (l_sub B L); assumption.
  - destruct H as [Hx Hy]. eapply okp_bind; [apply IHx; exact Hx|]. intros a [Ta Va].
    eapply okp_bind; [apply IHy; exact Hy|]. intros b [Tb Vb]. rewrite of_Z_mul, <- Va, <- Vb. apply (l_mul B L); auto.
  - eapply okp_bind; [apply IHx; exact H|]. intros a [Ta Va]. rewrite of_Z_mul, <- Va. apply (l_square B L); auto.
  - eapply okp_bind; [apply IHx; exact H|]. intros a [Ta Va]. rewrite of_Z_opp, <- Va. apply (l_negate B L); auto.
  - eapply okp_bind; [apply IHx; exact H|]. intros a [Ta Va]. rewrite <- Va. apply (l_strong B L); auto.
  - eapply okp_bind; [apply IHx; exact H|]. intros a [Ta Va].
    replace (of_Z (if c then - fexp_val x else fexp_val x)) with (if c then (- fv B a)%F else fv B a).
    + apply (l_cneg B L); exact Ta.
    + rewrite Va. destruct c; [symmetry; apply of_Z_opp|reflexivity].
  - destruct H as [Hx Hy]. eapply okp_bind; [apply IHx; exact Hx|]. intros a [Ta Va].
    eapply okp_bind; [apply IHy; exact Hy|]. intros b [Tb Vb]. rewrite (l_select B L) by assumption. apply okp_ret.
    destruct c; split; assumption.
Qed.

Lemma le_val_le_bytes : forall v, 0 <= v < 2 ^ 448 -> le_val (le_bytes 56 v) = v.
Proof. intros v H. unfold le_val, le_bytes. rewrite eval_digits by lia. apply Z.mod_small. exact H. Qed.

Theorem field_expressions : forall B, shipped B -> forall e, fexp_ok e ->
  exists r, fexp_run B e = Ok r /\ fe_to_bytes B r = Ok (le_bytes 56 (fexp_val e mod p)).
Proof.
  intros B S e He. pose proof (shipped_laws B S) as L. destruct (fexp_run_ok B L e He) as (r & E & T & V).
  exists r. split; [exact E|]. rewrite (l_to B L) by exact T. rewrite V, fval_of_Z. reflexivity.
Qed.

Theorem field_serialisation : forall B, shipped B -> forall e e', fexp_ok e -> fexp_ok e' ->
  exists r r' b, fexp_run B e = Ok r /\ fexp_run B e' = Ok r' /\ fe_to_bytes B r = Ok b /\
    bytes 56 b /\ le_val b = fexp_val e mod p /\ 0 <= le_val b < p /\
    fe_is_negative B r = Ok (Z.odd (fexp_val e mod p)) /\
    exists q, fe_ct_eq B r r' = Ok q /\ (q = true <-> fexp_val e mod p = fexp_val e' mod p).
Proof.
  intros B S e e' He He'. pose proof (shipped_laws B S) as L. destruct (fexp_run_ok B L e He) as (r & E & T & V).
  destruct (fexp_run_ok B L e' He') as (r' & E' & T' & V').
  exists r, r', (le_bytes 56 (fexp_val e mod p)). split; [exact E|]. split; [exact E'|].
  split; [rewrite (l_to B L) by exact T; rewrite V, fval_of_Z; reflexivity|].
  pose proof (Z.mod_pos_bound (fexp_val e) p ltac:(reflexivity)) as R.
  assert (LV : le_val (le_bytes 56 (fexp_val e mod p)) = fexp_val e mod p) by (apply le_val_le_bytes; unfold p in *; lia).
  split; [apply digits_array; lia|]. split; [exact LV|]. split; [rewrite LV; exact R|].
  split; [rewrite (l_isneg B L) by exact T; rewrite V; unfold fodd; rewrite fval_of_Z; reflexivity|].
  eexists. split; [apply ct_eq_ok; assumption|]. rewrite V, V', feqb_eq. split.
  - intro Q. apply (f_equal fval) in Q. rewrite !fval_of_Z in Q. exact Q.
  - apply of_Z_eq.
Qed.

Theorem field_decode_encode : forall B, shipped B -> forall b, bytes 56 b ->
  exists r, fe_from_bytes B b = Ok r /\ fe_to_bytes B r = Ok (le_bytes 56 (le_val b mod p)) /\
    (fe_to_bytes B r = Ok b <-> le_val b < p).
Proof.
  intros B S b Hb. destruct (field_expressions B S (FBytes b) Hb) as (r & E & R). exists r. cbn [fexp_run fexp_val] in E, R.
  split; [exact E|]. split; [exact R|]. rewrite R. pose proof (array_range 8 56 b ltac:(lia) Hb) as Rb. fold (le_val b) in Rb.
  pose proof (Z.mod_pos_bound (le_val b) p ltac:(reflexivity)) as Rm. split.
  - intro Q. injection Q as Q. apply (f_equal le_val) in Q. rewrite le_val_le_bytes in Q by (unfold p in *; lia). lia.
  - intro Q. rewrite Z.mod_small by lia. unfold le_val, le_bytes. rewrite array_digits_eval by (lia || exact Hb). reflexivity.
Qed.

Theorem field_invert : forall B, shipped B -> forall a, fe_tight B a ->
  exists r, fe_invert B a = Ok r /\ fe_tight B r /\
    (fv B a <> of_Z 0 -> fv B a * fv B r = of_Z 1)%F /\ (fv B a = of_Z 0 -> fv B r = of_Z 0).
Proof.
  intros B S a Ha. destruct (invert_ok B (shipped_laws B S) a Ha) as (r & E & T & V). exists r.
  split; [exact E|]. split; [exact T|]. rewrite V. split.
  - intro N. field. exact N.
  - intro Z0. rewrite Z0. apply finv_0.
Qed.

Theorem field_inverse_square_root : forall B, shipped B -> forall a, fe_tight B a ->
  exists r b, fe_inverse_square_root B a = Ok (r, b) /\ fe_tight B r /\
    (b = true <-> fv B a <> of_Z 0 /\ is_square (fv B a)) /\
    (b = true -> fv B r * fv B r * fv B a = of_Z 1)%F /\
    (b = false -> fv B a <> of_Z 0 -> fv B r * fv B r * fv B a = - (of_Z 1))%F.
Proof.
  intros B S a Ha. destruct (inverse_square_root_ok B (shipped_laws B S) a Ha) as ([r b] & E & [T V] & Eb).
  cbn [fst snd] in *. exists r, b. split; [exact E|]. split; [exact T|]. rewrite V.
  assert (Hb : b = true <-> chi (fv B a) = of_Z 1) by (rewrite Eb; apply feqb_eq).
  split; [rewrite Hb; apply chi_square|]. rewrite isr_sq. split; [apply Hb|].
  intros F0 N. destruct (chi_cases _ N) as [C|C]; [|exact C]. apply Hb in C. congruence.
Qed.

Theorem field_sqrt_ratio : forall B, shipped B -> forall u v, fe_tight B u -> fe_tight B v -> fv B v <> of_Z 0 ->
  exists r b, fe_sqrt_ratio B u v = Ok (r, b) /\ fe_tight B r /\
    (b = true <-> is_square (fv B u / fv B v)%F) /\
    (b = true -> fv B v * (fv B r * fv B r) = fv B u)%F.
Proof.
  intros B S u v Hu Hv N. destruct (sqrt_ratio_ok B (shipped_laws B S) u v Hu Hv) as ([r b] & E & [T V] & Eb).
  cbn [fst snd] in *. exists r, b. split; [exact E|]. split; [exact T|]. rewrite V, Eb.
  destruct (ratio_square (fv B u) (fv B v) N) as [I R]. split; [exact I|]. intro Q. apply I in Q. apply R in Q.
  etransitivity; [|exact Q]. ring.
Qed.

Lemma decaf_factor_spec : (decaf_factor * decaf_factor = of_Z 39081)%F /\ fodd decaf_factor = false.
Proof.
  split; [|unfold fodd, decaf_factor; rewrite fval_of_Z; vm_compute; reflexivity].
  unfold decaf_factor. rewrite <- of_Z_mul. apply of_Z_eq. vm_compute. reflexivity.
Qed.

Theorem curve_constants : forall B, shipped B ->
  let v := fv B in
  v (fe_zero B) = of_Z 0 /\ v (fe_one B) = of_Z 1 /\ v (fe_minus_one B) = of_Z (-1) /\
  v (EDWARDS_D B) = of_Z (-39081) /\ v (NEG_EDWARDS_D B) = of_Z 39081 /\
  v (TWISTED_D B) = of_Z (-39081 - 1) /\ v (TWO_TIMES_TWISTED_D B) = of_Z (2 * -39082) /\
  v (NEG_FOUR_TIMES_TWISTED_D B) = of_Z (-4 * -39082) /\
  v (A_PLUS_TWO_OVER_FOUR B) = of_Z ((156326 + 2) / 4) /\
  (v (DECAF_FACTOR B) * v (DECAF_FACTOR B) = of_Z 39081)%F /\ fodd (v (DECAF_FACTOR B)) = false /\
  v (BASE_X B) = Gx /\ v (BASE_Y B) = Gy /\ v (BASE_Z B) = of_Z 1 /\ v (BASE_T B) = (Gx * Gy)%F /\
  v (TWBASE_X B) = Dx /\ v (TWBASE_Y B) = Dy /\ v (TWBASE_Z B) = of_Z 1 /\ v (TWBASE_T B) = (Dx * Dy)%F.
Proof.
  intros B S v. subst v. pose proof (shipped_laws B S) as L.
  rewrite (proj2 (l_zero B L)), (proj2 (l_one B L)), (proj2 (l_minus_one B L)), (proj2 (l_d B L)), (proj2 (l_negd B L)),
    (proj2 (l_twd B L)), (proj2 (l_2twd B L)), (proj2 (l_neg4d B L)), (proj2 (l_a24 B L)), (proj2 (l_factor B L)),
    (proj2 (l_bx B L)), (proj2 (l_by B L)), (proj2 (l_bz B L)), (proj2 (l_bt B L)),
    (proj2 (l_tx B L)), (proj2 (l_ty B L)), (proj2 (l_tz B L)), (proj2 (l_tt B L)).
  rewrite m1_val. repeat (split; [reflexivity|]).
  split; [apply decaf_factor_spec|]. split; [apply decaf_factor_spec|]. repeat (split; [reflexivity|]). reflexivity.
Qed.

(** Limb bounds: every constant may be a multiplication operand; those that are also added or serialised respect the
    stronger bound. *)
Theorem constant_bounds : forall B, shipped B ->
  Forall (fe_loose B) [fe_zero B; fe_one B; fe_minus_one B; EDWARDS_D B; NEG_EDWARDS_D B; TWISTED_D B;
    TWO_TIMES_TWISTED_D B; NEG_FOUR_TIMES_TWISTED_D B; A_PLUS_TWO_OVER_FOUR B; DECAF_FACTOR B] /\
  Forall (fe_tight B) [fe_zero B; fe_one B; BASE_X B; BASE_Y B; BASE_Z B; BASE_T B; TWBASE_X B; TWBASE_Y B; TWBASE_Z B;
    TWBASE_T B].
Proof.
  intros B S. pose proof (shipped_laws B S) as L. pose proof (l_loose B L) as LL. split.
  - repeat (apply Forall_cons; [first [apply LL; apply (l_zero B L) | apply LL; apply (l_one B L) | apply (l_minus_one B L)
      | apply (l_d B L) | apply (l_negd B L) | apply (l_twd B L) | apply (l_2twd B L) | apply (l_neg4d B L)
      | apply (l_a24 B L) | apply (l_factor B L)]|]). apply Forall_nil.
  - repeat (apply Forall_cons; [first [apply (l_zero B L) | apply (l_one B L) | apply (l_bx B L) | apply (l_by B L)
      | apply (l_bz B L) | apply (l_bt B L) | apply (l_tx B L) | apply (l_ty B L) | apply (l_tz B L) | apply (l_tt B L)]|]).
    apply Forall_nil.
Qed.

Lemma G_on_curve : on_curve ed_a ed_d G.
Proof.
  unfold on_curve, G, ed_a, ed_d, Gx, Gy. rewrite <- !of_Z_mul, <- !of_Z_add. apply of_Z_eq. vm_compute. reflexivity.
Qed.
Lemma D_on_curve : on_curve tw_a tw_d D.
Proof.
  unfold on_curve, D, tw_a, tw_d, Dx, Dy. rewrite m1_val. rewrite <- !of_Z_mul, <- !of_Z_add. apply of_Z_eq. vm_compute. reflexivity.
Qed.
