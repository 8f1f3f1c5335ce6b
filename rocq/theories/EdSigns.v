(** Signs of field elements, and the Edwards points with a given y. *)
Require Import ZArith List Bool Lia Ring Field.
From Verif Require Import SpecParams SpecField SpecCurve FieldTheory EdwardsTheory CurveTheory.
Open Scope F_scope.
Local Opaque fadd fsub fmul fopp fdiv finv fpow of_Z.

(** ** Signs *)
Lemma fodd_opp : forall x, x <> 0 -> fodd (- x) = negb (fodd x).
Proof.
  intros x N. unfold fodd. assert (E : fval (- x) = (p - fval x)%Z).
  { pose proof (fval_range x). assert (fval x <> 0%Z). { intro H0. apply N. apply F_eq. rewrite fval_of_Z, H0. reflexivity. }
    transitivity ((- fval x) mod p)%Z; [reflexivity|]. symmetry. apply (Z.mod_unique _ _ (-1)); lia. }
  rewrite E, Z.odd_sub. change (Z.odd p) with true. destruct (Z.odd (fval x)); reflexivity.
Qed.
Lemma fodd_0 : fodd 0 = false. Proof. reflexivity. Qed.

(** The points of the curve with a given y. *)
Lemma ed_den_nz : forall y, 1 - ed_d * (y * y) <> 0.
Proof.
  intros y H. assert (E : ed_d * (y * y) = 1) by (transitivity (1 - (1 - ed_d * (y * y))); [ring|rewrite H; ring]).
  apply nsq_ed_d. assert (Ny : y <> 0). { intros ->. apply F_1_neq_0. rewrite <- E. ring. }
  exists (finv y). apply (fmul_cancel_l (y * y)); [apply fmul_nonzero; exact Ny|].
  transitivity (1 : F); [field; exact Ny|]. rewrite <- E. ring.
Qed.
Lemma on_ed_solved : forall x y, on_ed (x, y) <-> x * x = (1 - y * y) / (1 - ed_d * (y * y)).
Proof.
  intros x y. pose proof (ed_den_nz y) as N. unfold on_ed, on_curve, ed_a. split; intro H.
  - symmetry. apply fdiv_val; [exact N|]. transitivity (1 + ed_d * (x * x) * (y * y) - y * y - ed_d * (x * x) * (y * y)); [ring|].
    rewrite <- H. ring.
  - assert (E : x * x * (1 - ed_d * (y * y)) = 1 - y * y) by (rewrite H; field; exact N).
    transitivity (x * x * (1 - ed_d * (y * y)) + ed_d * (x * x) * (y * y) + y * y); [ring|]. rewrite E. ring.
Qed.
Lemma on_ed_exists : forall y, (exists x, on_ed (x, y)) <-> is_square ((1 - y * y) / (1 - ed_d * (y * y))).
Proof.
  intro y. split.
  - intros [x H]. apply on_ed_solved in H. exists x. exact H.
  - intros [x H]. exists x. apply on_ed_solved. exact H.
Qed.
Lemma on_ed_same_y : forall x x' y, on_ed (x, y) -> on_ed (x', y) -> x = x' \/ x = - x'.
Proof.
  intros x x' y H H'. apply on_ed_solved in H, H'. apply fsq_eq. congruence.
Qed.
Lemma on_ed_same_sign : forall x x' y, on_ed (x, y) -> on_ed (x', y) -> fodd x = fodd x' -> x = x'.
Proof.
  intros x x' y H H' S. destruct (on_ed_same_y _ _ _ H H') as [E|E]; [exact E|].
  destruct (F_eq_dec x' 0) as [Z|N]; [rewrite E, Z; ring|]. rewrite E, fodd_opp in S by exact N. destruct (fodd x'); discriminate.
Qed.

Lemma on_ed_proj : forall x y t z, z <> 0 -> t * z = x * y ->
  (y * y + x * x = z * z + t * t * ed_d <-> on_curve ed_a ed_d (x / z, y / z)).
Proof.
  intros x y t z Nz HT. unfold on_curve, ed_a.
  assert (Et : t = x * y / z) by (symmetry; apply fdiv_val; [exact Nz|symmetry; exact HT]). subst t.
  assert (Nzz : z * z <> 0) by (apply fmul_nonzero; exact Nz). split; intro H.
  - apply (fmul_cancel_l (z * z)); [exact Nzz|]. transitivity (y * y + x * x); [field; exact Nz|]. rewrite H. field. exact Nz.
  - transitivity (z * z * (1 * (x / z * (x / z)) + y / z * (y / z))); [field; exact Nz|]. rewrite H. field. exact Nz.
Qed.
