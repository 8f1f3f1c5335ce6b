(** Basic theory of the field F: ring and field structure, powers, squares. *)
Require Import ZArith Znumtheory Eqdep_dec Lia Ring Field Bool.
From Verif Require Import SpecParams NumTheory Primes SpecField.
Open Scope Z_scope.

Lemma p_pos : 2 < p. Proof. reflexivity. Qed.

Lemma F_eq : forall x y : F, fval x = fval y -> x = y.
Proof.
  intros [x Hx] [y Hy]. cbn [fval]. intro E. subst y. f_equal. apply UIP_dec. apply Z.eq_dec.
Qed.

Lemma fval_range : forall x, 0 <= fval x < p.
Proof. intros [x Hx]. cbn [fval]. rewrite <- Hx. apply Z.mod_pos_bound. reflexivity. Qed.

Lemma fval_of_Z : forall z, fval (of_Z z) = z mod p. Proof. reflexivity. Qed.
Lemma of_Z_fval : forall x, of_Z (fval x) = x.
Proof. intro x. apply F_eq. apply fval_canon. Qed.

Lemma of_Z_eq : forall a b, of_Z a = of_Z b <-> a mod p = b mod p.
Proof. intros a b. split; intro H. - apply (f_equal fval) in H. exact H. - apply F_eq. exact H. Qed.

Lemma of_Z_add : forall a b, of_Z (a + b) = fadd (of_Z a) (of_Z b).
Proof. intros. apply F_eq. cbn -[p]. rewrite <- Z.add_mod by (pose proof p_pos; lia). reflexivity. Qed.
Lemma of_Z_mul : forall a b, of_Z (a * b) = fmul (of_Z a) (of_Z b).
Proof. intros. apply F_eq. cbn -[p]. rewrite <- Z.mul_mod by (pose proof p_pos; lia). reflexivity. Qed.
Lemma of_Z_sub : forall a b, of_Z (a - b) = fsub (of_Z a) (of_Z b).
Proof. intros. apply F_eq. cbn -[p]. rewrite <- Zminus_mod. reflexivity. Qed.
Lemma of_Z_opp : forall a, of_Z (- a) = fopp (of_Z a).
Proof.
  intros. apply F_eq. cbn -[p]. rewrite <- (Z.sub_0_l a), <- (Z.sub_0_l (a mod p)). rewrite Zminus_mod_idemp_r. reflexivity.
Qed.
Lemma of_Z_pow : forall a n, 0 <= n -> of_Z (a ^ n) = fpow (of_Z a) n.
Proof.
  intros. apply F_eq. unfold fpow. rewrite !fval_of_Z. apply mod_pow_cong; [pose proof p_pos; lia|assumption|].
  rewrite Zmod_mod. reflexivity.
Qed.

Ltac toF := intros; rewrite <- ?(of_Z_fval _).
Lemma lift1 : forall (P : F -> Prop), (forall a, P (of_Z a)) -> forall x, P x.
Proof. intros P H x. rewrite <- (of_Z_fval x). apply H. Qed.

Lemma F_ring : ring_theory (of_Z 0) (of_Z 1) fadd fmul fsub fopp (@eq F).
Proof.
  constructor; intros; repeat match goal with x : F |- _ => revert x; refine (lift1 _ _); intro end;
    rewrite <- ?of_Z_add, <- ?of_Z_mul, <- ?of_Z_opp, <- ?of_Z_sub;
    repeat (rewrite <- ?of_Z_add, <- ?of_Z_mul, <- ?of_Z_opp, <- ?of_Z_sub); apply (f_equal of_Z); ring.
Qed.

Lemma F_morph : ring_morph (of_Z 0) (of_Z 1) fadd fmul fsub fopp (@eq F) 0 1 Z.add Z.mul Z.sub Z.opp Z.eqb of_Z.
Proof.
  constructor; intros; rewrite ?of_Z_add, ?of_Z_mul, ?of_Z_sub, ?of_Z_opp; try reflexivity.
  apply Z.eqb_eq in H. subst. reflexivity.
Qed.

Lemma F_1_neq_0 : of_Z 1 <> of_Z 0.
Proof. intro H. apply of_Z_eq in H. revert H. vm_compute. discriminate. Qed.

Lemma of_Z_0_iff : forall a, of_Z a = of_Z 0 <-> (p | a).
Proof.
  intro a. rewrite of_Z_eq, Z.mod_0_l by (pose proof p_pos; lia). apply Z.mod_divide. pose proof p_pos; lia.
Qed.

(** Powers. *)
Lemma fpow_0 : forall x, fpow x 0 = of_Z 1. Proof. reflexivity. Qed.
Lemma fpow_1 : forall x, fpow x 1 = x.
Proof. intro x. unfold fpow. rewrite Z.pow_1_r. apply of_Z_fval. Qed.
Lemma fpow_add : forall x n m, 0 <= n -> 0 <= m -> fpow x (n + m) = fmul (fpow x n) (fpow x m).
Proof. intros. unfold fpow. rewrite Z.pow_add_r by assumption. apply of_Z_mul. Qed.
Lemma fpow_mul : forall x n m, 0 <= n -> 0 <= m -> fpow x (n * m) = fpow (fpow x n) m.
Proof.
  intros. unfold fpow at 1. rewrite Z.pow_mul_r by assumption. rewrite of_Z_pow by assumption. reflexivity.
Qed.
Lemma fpow_mul_l : forall x y n, fpow (fmul x y) n = fmul (fpow x n) (fpow y n).
Proof.
  intros x y n. destruct (Z_lt_le_dec n 0) as [N|N].
  - destruct n; try lia. unfold fpow. rewrite <- of_Z_mul. f_equal.
  - unfold fmul at 1. rewrite <- of_Z_pow by assumption. rewrite Z.pow_mul_l, of_Z_mul. reflexivity.
Qed.
Lemma fpow_one : forall n, 0 <= n -> fpow (of_Z 1) n = of_Z 1.
Proof. intros n Hn. rewrite <- of_Z_pow by assumption. rewrite Z.pow_1_l by assumption. reflexivity. Qed.
Lemma fpow_zero : forall n, 0 < n -> fpow (of_Z 0) n = of_Z 0.
Proof. intros n Hn. rewrite <- of_Z_pow by lia. rewrite Z.pow_0_l by assumption. reflexivity. Qed.
Lemma fpow_2 : forall x, fpow x 2 = fmul x x.
Proof. intro x. change 2 with (1 + 1). rewrite fpow_add by lia. rewrite fpow_1. reflexivity. Qed.

(** Fermat, inverses. *)
Lemma fval_not_div : forall x, x <> of_Z 0 -> ~ (p | fval x).
Proof. intros x N D. apply N. rewrite <- (of_Z_fval x). apply of_Z_0_iff. exact D. Qed.

Lemma F_fermat : forall x, x <> of_Z 0 -> fpow x (p - 1) = of_Z 1.
Proof.
  intros x N. pose proof (fermat p prime_p (fval x) (fval_not_div x N)) as Fm. unfold fpow.
  apply F_eq. rewrite fval_of_Z. rewrite Fm. reflexivity.
Qed.

Lemma finv_l_gen : forall q x, 2 < q -> fpow x (q - 1) = of_Z 1 -> fmul (fpow x (q - 2)) x = of_Z 1.
Proof.
  intros q x Hq H. rewrite <- (fpow_1 x) at 2. rewrite <- fpow_add by lia. rewrite <- H. f_equal. lia.
Qed.
Lemma finv_l : forall x, x <> of_Z 0 -> fmul (finv x) x = of_Z 1.
Proof. intros x N. exact (finv_l_gen p x p_pos (F_fermat x N)). Qed.
Lemma finv_0 : finv (of_Z 0) = of_Z 0.
Proof. apply fpow_zero. reflexivity. Qed.

Lemma F_field : field_theory (of_Z 0) (of_Z 1) fadd fmul fsub fopp fdiv finv (@eq F).
Proof.
  constructor. - exact F_ring. - exact F_1_neq_0. - reflexivity. - exact finv_l.
Qed.

Global Opaque fadd fsub fmul fopp finv fdiv fpow.
Global Opaque of_Z.

Ltac F_cst t :=
  match t with
  | of_Z ?z => match isZcst z with true => z | _ => constr:(InitialRing.NotConstant) end
  | _ => constr:(InitialRing.NotConstant)
  end.
Add Field F_field_inst : F_field (morphism F_morph, constants [F_cst]).

Open Scope F_scope.
Lemma F_eq_dec : forall x y : F, {x = y} + {x <> y}.
Proof.
  intros x y. destruct (Z.eq_dec (fval x) (fval y)) as [E|E]. - left. apply F_eq. exact E. - right. congruence.
Qed.

Lemma feqb_eq : forall x y, feqb x y = true <-> x = y.
Proof.
  intros x y. unfold feqb. rewrite Z.eqb_eq. split; [apply F_eq|congruence].
Qed.
Lemma feqb_refl : forall x, feqb x x = true. Proof. intro. apply feqb_eq. reflexivity. Qed.
Lemma feqb_neq : forall x y, feqb x y = false <-> x <> y.
Proof.
  intros x y. rewrite <- feqb_eq. destruct (feqb x y); split; congruence.
Qed.

Lemma fmul_integral : forall x y, x * y = 0 -> x = 0 \/ y = 0.
Proof.
  intros x y H. destruct (F_eq_dec x 0) as [E|E]; [left; exact E|]. right.
  transitivity (finv x * x * y). - rewrite finv_l by assumption. ring. - transitivity (finv x * (x * y)); [ring|]. rewrite H. ring.
Qed.
Lemma fmul_nonzero : forall x y, x <> 0 -> y <> 0 -> x * y <> 0.
Proof. intros x y Hx Hy H. apply fmul_integral in H. tauto. Qed.
Lemma fmul_nonzero_inv : forall x y, x * y <> 0 -> x <> 0 /\ y <> 0.
Proof. intros x y H. split; intro E; apply H; rewrite E; ring. Qed.
Lemma finv_nonzero : forall x, x <> 0 -> finv x <> 0.
Proof.
  intros x Hx H. pose proof (finv_l x Hx) as E. rewrite H in E. apply F_1_neq_0. rewrite <- E. ring.
Qed.
Lemma finv_r : forall x, x <> 0 -> x * finv x = 1.
Proof. intros x Hx. rewrite <- (finv_l x Hx). ring. Qed.
Lemma fmul_cancel_l : forall a x y, a <> 0 -> a * x = a * y -> x = y.
Proof.
  intros a x y Ha H. assert (a * (x - y) = 0) as E. { transitivity (a * x - a * y); [ring|]. rewrite H. ring. }
  apply fmul_integral in E. destruct E as [E|E]; [contradiction|].
  transitivity (x - y + y); [ring|]. rewrite E. ring.
Qed.
Lemma fsub_0_eq : forall x y, x - y = 0 <-> x = y.
Proof.
  intros x y. split; intro H. - transitivity (x - y + y); [ring|]. rewrite H. ring. - rewrite H. ring.
Qed.
Lemma fopp_0_iff : forall x, - x = 0 <-> x = 0.
Proof. intros x. split; intro H. - transitivity (- - x); [ring|]. rewrite H. ring. - rewrite H. ring. Qed.

(** Small constants: [of_Z n] is zero only if p divides n. *)
Lemma of_Z_small_nonzero : forall n, (0 < n < p)%Z -> of_Z n <> 0.
Proof.
  intros n Hn H. apply of_Z_0_iff in H. apply Z.divide_pos_le in H; lia.
Qed.
Lemma F_2_neq_0 : of_Z 2 <> 0. Proof. apply of_Z_small_nonzero. split; reflexivity. Qed.
Lemma F_4_neq_0 : of_Z 4 <> 0. Proof. apply of_Z_small_nonzero. split; reflexivity. Qed.
Lemma fopp_eq_self : forall x, x = - x -> x = 0.
Proof.
  intros x H. assert (E : of_Z 2 * x = 0). { transitivity (x + x); [ring|]. rewrite H at 2. ring. }
  apply fmul_integral in E. destruct E as [E|E]; [|exact E]. exfalso. exact (F_2_neq_0 E).
Qed.

Lemma fsq_eq : forall x y, x * x = y * y -> x = y \/ x = - y.
Proof.
  intros x y H. assert (E : (x - y) * (x + y) = 0). { transitivity (x * x - y * y); [ring|]. rewrite H. ring. }
  apply fmul_integral in E. destruct E as [E|E].
  - left. apply fsub_0_eq. exact E.
  - right. transitivity (x + y - y); [ring|]. rewrite E. ring.
Qed.
Lemma fsq_0 : forall x, x * x = 0 -> x = 0.
Proof. intros x H. apply fmul_integral in H. tauto. Qed.

(** Squares. *)
Lemma square_mul : forall x y, is_square x -> is_square y -> is_square (x * y).
Proof. intros x y [a <-] [b <-]. exists (a * b). ring. Qed.
Lemma square_sq : forall x, is_square (x * x). Proof. intro x. exists x. reflexivity. Qed.
Lemma square_0 : is_square 0. Proof. exists 0. ring. Qed.
Lemma square_1 : is_square 1. Proof. exists 1. ring. Qed.
Lemma square_inv : forall x, is_square x -> is_square (finv x).
Proof.
  intros x [a <-]. destruct (F_eq_dec a 0) as [->|N].
  - exists 0. replace (0 * 0) with (0:F) by ring. rewrite finv_0. reflexivity.
  - exists (finv a). field. exact N.
Qed.
Lemma square_div : forall x y, is_square x -> is_square y -> is_square (x / y).
Proof.
  intros x y Hx Hy. rewrite (Fdiv_def F_field). apply square_mul; [exact Hx|]. apply square_inv. exact Hy.
Qed.
Lemma square_mul_cancel : forall x y, y <> 0 -> is_square y -> is_square (x * y) -> is_square x.
Proof.
  intros x y N Hy H. replace x with ((x * y) * finv y) by (field; exact N). apply square_mul; [exact H|apply square_inv; exact Hy].
Qed.

(** Euler's criterion for p = 3 mod 4. *)
Definition half_p : Z := ((p - 1) / 2)%Z.
Definition quarter_p : Z := ((p + 1) / 4)%Z.
Lemma half_p_spec : (p - 1 = half_p * 2)%Z. Proof. reflexivity. Qed.
Lemma quarter_p_spec : (quarter_p * 2 = 1 + half_p)%Z. Proof. reflexivity. Qed.
Lemma half_p_odd : exists k, (half_p = 2 * k + 1 /\ 0 <= k)%Z.
Proof. exists ((p - 3) / 4)%Z. split; [reflexivity|vm_compute; discriminate]. Qed.
Lemma half_p_pos : (0 < half_p)%Z. Proof. reflexivity. Qed.
Lemma quarter_p_pos : (0 < quarter_p)%Z. Proof. reflexivity. Qed.
Global Opaque half_p quarter_p.

Definition chi (x : F) : F := fpow x half_p.

Lemma chi_sq : forall x, x <> 0 -> chi x * chi x = 1.
Proof.
  intros x N. unfold chi. rewrite <- fpow_2. rewrite <- fpow_mul by (pose proof half_p_pos; lia).
  rewrite <- half_p_spec. apply F_fermat. exact N.
Qed.
Lemma chi_cases : forall x, x <> 0 -> chi x = 1 \/ chi x = - (1).
Proof.
  intros x N. pose proof (chi_sq x N) as H. apply fsq_eq. rewrite H. ring.
Qed.
Lemma chi_0 : chi 0 = 0. Proof. apply fpow_zero. exact half_p_pos. Qed.
Lemma chi_of_sq : forall x, x <> 0 -> chi (x * x) = 1.
Proof. intros x N. unfold chi. rewrite fpow_mul_l. exact (chi_sq x N). Qed.

Lemma quarter_root : forall x, fpow x quarter_p * fpow x quarter_p = x * chi x.
Proof.
  intro x. rewrite <- fpow_2. pose proof quarter_p_pos. pose proof half_p_pos. rewrite <- fpow_mul by lia.
  rewrite quarter_p_spec. rewrite fpow_add by lia. rewrite fpow_1. reflexivity.
Qed.

Lemma chi_square : forall x, chi x = 1 <-> x <> 0 /\ is_square x.
Proof.
  intro x. split.
  - intro H. split.
    + intro E. subst x. rewrite chi_0 in H. apply F_1_neq_0. symmetry. exact H.
    + exists (fpow x quarter_p). rewrite quarter_root, H. ring.
  - intros [N [y Hy]]. subst x. apply chi_of_sq. intro E. apply N. rewrite E. ring.
Qed.

Lemma neg1_not_1 : - (1) <> (1 : F).
Proof.
  intro H. apply F_2_neq_0. transitivity (1 - - (1)); [ring|]. rewrite H. ring.
Qed.

Lemma neg1_nonsquare : ~ is_square (- (1)).
Proof.
  intro H. assert (C : chi (- (1)) = 1).
  { apply chi_square. split; [|exact H]. intro E. apply (proj1 (fopp_0_iff 1)) in E. exact (F_1_neq_0 E). }
  destruct half_p_odd as (k & E & Hk). unfold chi in C. rewrite E in C.
  rewrite fpow_add, fpow_mul, fpow_1 in C by lia.
  rewrite fpow_2 in C. replace (- (1) * - (1)) with (1:F) in C by ring. rewrite fpow_one in C by lia.
  apply neg1_not_1. etransitivity; [|exact C]. ring.
Qed.

Lemma square_or_neg : forall x, is_square x \/ is_square (- x).
Proof.
  intro x. destruct (F_eq_dec x 0) as [->|N]; [left; apply square_0|].
  destruct (chi_cases x N) as [C|C].
  - left. apply chi_square in C. tauto.
  - right. exists (fpow x quarter_p). rewrite quarter_root, C. ring.
Qed.
Lemma square_and_neg : forall x, is_square x -> is_square (- x) -> x = 0.
Proof.
  intros x H1 H2. destruct (F_eq_dec x 0) as [E|N]; [exact E|]. exfalso. apply neg1_nonsquare.
  apply square_mul_cancel with x; [exact N|exact H1|]. replace (- (1) * x) with (- x) by ring. exact H2.
Qed.
Lemma square_dec : forall x, {is_square x} + {~ is_square x}.
Proof.
  intro x. destruct (F_eq_dec (fpow x quarter_p * fpow x quarter_p) x) as [E|E].
  - left. exists (fpow x quarter_p). exact E.
  - right. intro H. apply E. destruct (F_eq_dec x 0) as [->|N].
    + rewrite quarter_root, chi_0. ring.
    + rewrite quarter_root. rewrite (proj2 (chi_square x)) by tauto. ring.
Qed.
Lemma nonsquare_neg : forall x, ~ is_square x -> is_square (- x).
Proof. intros x H. destruct (square_or_neg x); tauto. Qed.
Lemma nonsquare_mul : forall x y, ~ is_square x -> ~ is_square y -> is_square (x * y).
Proof.
  intros x y Hx Hy. replace (x * y) with ((- x) * (- y)) by ring. apply square_mul; apply nonsquare_neg; assumption.
Qed.
Lemma nonsquare_mul_square : forall x y, ~ is_square x -> is_square y -> y <> 0 -> ~ is_square (x * y).
Proof. intros x y Hx Hy N H. apply Hx. exact (square_mul_cancel x y N Hy H). Qed.
Lemma nonsquare_nonzero : forall x, ~ is_square x -> x <> 0.
Proof. intros x H E. subst x. apply H. apply square_0. Qed.
Lemma nonsquare_inv : forall x, ~ is_square x -> ~ is_square (finv x).
Proof.
  intros x Hx H. apply Hx. pose proof (nonsquare_nonzero x Hx) as N. apply square_inv in H.
  replace x with (finv (finv x)); [exact H|]. field. split; [exact N|exact F_1_neq_0].
Qed.
