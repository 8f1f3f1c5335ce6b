(** The group of Ed448-Goldilocks: G generates a subgroup of prime order l, and every point is [b]G + [c](1,0) for a
    unique pair 0 <= b < l, 0 <= c < 4.  The upper bound comes from counting: a point is determined by y and the sign
    of x, so there are at most 2p < 12 l of them. *)
Require Import ZArith Znumtheory List Bool Lia Ring Field.
From Verif Require Import SpecParams SpecField SpecCurve FieldTheory NumTheory EdwardsTheory CurveTheory Primes FieldMain Order EdSigns AbGroup.
Import ListNotations.
Open Scope F_scope.
Local Opaque fadd fsub fmul fopp fdiv finv fpow of_Z padd ell.

Local Notation "P ⊕ Q" := (padd ed_a ed_d P Q) (at level 50, left associativity).
Local Notation "n • P" := (pmul ed_a ed_d n P) (at level 40).
Local Notation "n ∘ P" := (zmul ed_a ed_d n P) (at level 40).

Definition T4 : point := (1, 0).

Lemma on_G : on_ed G. Proof. exact G_on_curve. Qed.
Lemma on_T4 : on_ed T4. Proof. unfold on_ed, on_curve, T4, ed_a. ring. Qed.
Lemma ell_pos' : (0 < ell)%Z. Proof. reflexivity. Qed.
Lemma ell_mod2 : (ell mod 2 = 1)%Z. Proof. reflexivity. Qed.
Lemma ell_mod4 : (ell mod 4 = 3)%Z. Proof. reflexivity. Qed.

Lemma pt_0_eq : forall x y : F, (x, y) = pzero <-> x = 0 /\ y = 1.
Proof. intros x y. unfold pzero. split; [intro H; injection H; auto|intros [-> ->]; reflexivity]. Qed.
Lemma one_neq_zero_pt : forall y, (1, y) <> pzero.
Proof. intros y H. apply pt_0_eq in H. exact (F_1_neq_0 (proj1 H)). Qed.

Lemma T4_2 : 2 • T4 = (0, - (1)).
Proof.
  rewrite pmul_2. unfold T4. Local Transparent padd. unfold padd, ed_a. apply pt_eq; apply fdiv_val; try ring.
  - replace (1 + ed_d * 1 * 1 * 0 * 0) with (1 : F) by ring. exact F_1_neq_0.
  - replace (1 - ed_d * 1 * 1 * 0 * 0) with (1 : F) by ring. exact F_1_neq_0.
Qed.
Lemma pt_N_neg : forall x y, (x, y) ⊕ (0, - (1)) = (- x, - y).
Proof.
  intros x y. unfold padd. apply pt_eq; apply fdiv_val; try ring.
  - replace (1 + ed_d * x * 0 * y * - (1)) with (1 : F) by ring. exact F_1_neq_0.
  - replace (1 - ed_d * x * 0 * y * - (1)) with (1 : F) by ring. exact F_1_neq_0.
Qed.
Local Opaque padd.
Lemma T4_3 : 3 • T4 = (- (1), 0).
Proof.
  change 3%Z with (2 + 1)%Z. rewrite pmul_succ by lia. rewrite T4_2. unfold T4. rewrite pt_N_neg. apply pt_eq; ring.
Qed.
Lemma T4_4 : 4 • T4 = pzero.
Proof.
  change 4%Z with (3 + 1)%Z. rewrite pmul_succ by lia. rewrite T4_3. change (- (1), 0) with (pneg T4).
  apply (g_neg_r _ _ _ ed_group). exact on_T4.
Qed.
Lemma T4_order : forall r, (0 < r < 4)%Z -> r • T4 <> pzero.
Proof.
  intros r H E. assert (C : (r = 1 \/ r = 2 \/ r = 3)%Z) by lia. destruct C as [->|[->| ->]].
  - rewrite pmul_1 in E. exact (one_neq_zero_pt _ E).
  - rewrite T4_2 in E. apply pt_0_eq in E. destruct E as [_ E]. apply F_2_neq_0.
    transitivity (1 - - (1)); [ring|]. rewrite E. ring.
  - rewrite T4_3 in E. apply pt_0_eq in E. destruct E as [E _]. apply F_1_neq_0. apply fopp_0_iff. exact E.
Qed.
Lemma Gx_nz : Gx <> 0.
Proof. unfold Gx. apply of_Z_small_nonzero. split; [reflexivity|vm_compute; reflexivity]. Qed.
Lemma G_neq_0 : G <> pzero.
Proof. unfold G. intro H. apply pt_0_eq in H. exact (Gx_nz (proj1 H)). Qed.
Lemma G_order : forall r, (0 < r < ell)%Z -> r • G <> pzero.
Proof.
  intros r H E. apply G_neq_0. rewrite <- (pmul_1 ed_a ed_d G).
  assert (C : Z.gcd r ell = 1%Z).
  { apply Zgcd_1_rel_prime. apply rel_prime_sym. apply prime_rel_prime; [exact prime_ell|]. intro Dv.
    apply Z.divide_pos_le in Dv; lia. }
  assert (Hr : (0 <= r)%Z) by lia.
  exact (pmul_gcd _ _ _ ed_group ell r 1 G ell_pos' Hr on_G ell_G E (eq_trans (Z.gcd_comm ell r) C)).
Qed.

(** ** Ed448-Goldilocks as an instance of AbGroup *)
Local Opaque pmul zmul G T4.
Lemma ed_ab : abgroup point on_ed (padd ed_a ed_d) pneg pzero (zmul ed_a ed_d).
Proof.
  constructor.
  - exact (eg_0 _ _ _ ed_group).
  - exact (eg_add _ _ _ ed_group).
  - exact (eg_neg _ _ _ ed_group).
  - apply padd_comm.
  - intros x y w Hx Hy Hw. exact (g_assoc _ _ _ ed_group x y w Hx Hy Hw).
  - apply padd_0_l.
  - intros x Hx. exact (g_neg_r _ _ _ ed_group x Hx).
  - intros n x Hx. exact (zmul_S _ _ _ ed_group n x Hx).
  - intro x. rewrite zmul_nonneg by lia. apply pmul_0.
  - intro x. rewrite zmul_nonneg by lia. apply pmul_1.
  - intros m n x Hx. exact (zmul_add _ _ _ ed_group m n x Hx).
Qed.
Lemma z_ell_G : ell ∘ G = pzero.
Proof. rewrite zmul_nonneg; [exact ell_G|]. pose proof ell_pos'. lia. Qed.
Lemma zmul_G_0 : forall n, n ∘ G = pzero -> (ell | n)%Z.
Proof. intros n E. exact (a_prime_order _ _ _ _ _ _ ed_ab ell n G prime_ell on_G G_neq_0 z_ell_G E). Qed.
Lemma z_T4_4 : 4 ∘ T4 = pzero.
Proof. rewrite zmul_nonneg by lia. exact T4_4. Qed.
Lemma zmul_T_0 : forall n, n ∘ T4 = pzero -> (4 | n)%Z.
Proof.
  intros n E. assert (R : forall r, (0 < r < 4)%Z -> r ∘ T4 <> pzero). { intros r Hr. rewrite zmul_nonneg by lia. apply T4_order. exact Hr. }
  exact (a_order _ _ _ _ _ _ ed_ab 4 n T4 ltac:(lia) on_T4 z_T4_4 R E).
Qed.

(** The two points of order dividing 2; no point doubles to (1,0) or (-1,0). *)
Lemma two_torsion : forall Q, on_ed Q -> Q ⊕ Q = pzero -> Q = pzero \/ Q = 2 ∘ T4.
Proof.
  intros [x y] H E. apply (g_neg_unique _ _ _ ed_group) in E; try exact H. cbn [pneg] in E. injection E as E.
  assert (X : x = 0) by (apply fopp_eq_self; exact E). subst x. unfold on_ed, on_curve, ed_a in H.
  assert (Y : y * y = 1 * 1). { transitivity (1 * (0 * 0) + y * y); [ring|]. rewrite H. ring. }
  apply fsq_eq in Y. destruct Y as [->| ->]; [left; reflexivity|right]. rewrite zmul_nonneg by lia. symmetry. exact T4_2.
Qed.
Lemma odd_T_y : forall c, snd ((2 * c + 1) ∘ T4) = 0.
Proof.
  intro c. rewrite (a_mod _ _ _ _ _ _ ed_ab 4 _ T4 ltac:(lia) on_T4 z_T4_4).
  assert ((2 * c + 1) mod 4 = 1 \/ (2 * c + 1) mod 4 = 3)%Z as [-> | ->].
  { pose proof (Z.div_mod (2 * c + 1) 4 ltac:(lia)). pose proof (Z.mod_pos_bound (2 * c + 1) 4 ltac:(lia)). lia. }
  - rewrite zmul_nonneg by lia. rewrite pmul_1. reflexivity.
  - rewrite zmul_nonneg by lia. rewrite T4_3. reflexivity.
Qed.
Lemma not_odd : forall Q c, on_ed Q -> Q ⊕ Q <> (2 * c + 1) ∘ T4.
Proof.
  intros [x y] c HL T. apply (f_equal snd) in T. rewrite odd_T_y in T. rewrite ed_dbl_eq in T by exact HL. cbn [snd] in T.
  pose proof (ed_yx_nz x y HL) as N. pose proof (ed_E_nz x y HL) as NE. apply N.
  transitivity ((y * y - x * x) / (of_Z 2 - (y * y + x * x)) * (of_Z 2 - (y * y + x * x))); [field; exact NE|]. rewrite T. ring.
Qed.

(** ** Counting *)
Definition enc (Q : point) : F * bool := (snd Q, fodd (fst Q)).
Lemma enc_inj : forall Q R, on_ed Q -> on_ed R -> enc Q = enc R -> Q = R.
Proof.
  intros [x y] [x' y'] H H' E. unfold enc in E. cbn [fst snd] in E. injection E as -> E. apply pt_eq; [|reflexivity].
  apply (on_ed_same_sign _ _ y'); assumption.
Qed.
Lemma enc_dec : forall x y : F * bool, {x = y} + {x <> y}.
Proof. decide equality; [apply bool_dec|apply F_eq_dec]. Qed.
Definition all_F (n : nat) : list F := map (fun i => of_Z (Z.of_nat i)) (seq 0 n).
Lemma all_F_in : forall n x, Z.of_nat n = p -> In x (all_F n).
Proof.
  intros n x Hn. unfold all_F. apply in_map_iff. exists (Z.to_nat (fval x)). pose proof (fval_range x) as R. split.
  - rewrite Z2Nat.id by lia. apply F_eq. rewrite fval_of_Z. apply Z.mod_small. exact R.
  - apply in_seq. lia.
Qed.
Lemma universe : exists u : list (F * bool), (forall Q, In (enc Q) u) /\ (Z.of_nat (length u) < 12 * ell)%Z.
Proof.
  pose proof p_pos as PP. assert (exists pn, Z.of_nat pn = p) as [pn Hpn] by (exists (Z.to_nat p); apply Z2Nat.id; lia).
  exists (list_prod (all_F pn) [true; false]). split.
  - intro Q. unfold enc. apply in_prod; [apply all_F_in; exact Hpn|]. destruct (fodd (fst Q)); cbn; auto.
  - unfold all_F. rewrite prod_length, map_length, seq_length. cbn [length]. assert (2 * p < 12 * ell)%Z by reflexivity. lia.
Qed.

Theorem ed_structure : forall P, on_ed P -> exists b c, (0 <= b < ell)%Z /\ (0 <= c < 4)%Z /\ P = b • G ⊕ c • T4.
Proof.
  intros P HP. destruct universe as (u & Hu & Lu).
  destruct (a_structure _ _ _ _ _ _ ed_ab ell G T4 on_G on_T4 ell_pos' ell_mod2 z_ell_G zmul_G_0 z_T4_4 zmul_T_0 two_torsion not_odd
    _ enc_dec enc u enc_inj Hu Lu P HP) as (b & c & Hb & Hc & E).
  exists b, c. split; [exact Hb|]. split; [exact Hc|]. rewrite E. rewrite !zmul_nonneg by lia. reflexivity.
Qed.
Theorem ed_unique : forall b c b' c', (0 <= b < ell)%Z -> (0 <= c < 4)%Z -> (0 <= b' < ell)%Z -> (0 <= c' < 4)%Z ->
  b • G ⊕ c • T4 = b' • G ⊕ c' • T4 -> b = b' /\ c = c'.
Proof.
  intros b c b' c' Hb Hc Hb' Hc' E. rewrite <- !zmul_nonneg in E by lia.
  exact (a_unique _ _ _ _ _ _ ed_ab ell G T4 on_G on_T4 ell_pos' ell_mod2 z_ell_G zmul_G_0 z_T4_4 zmul_T_0 b c b' c' Hb Hc Hb' Hc' E).
Qed.
Theorem ed_count : exists l : list point, NoDup l /\ (forall P, In P l <-> on_ed P) /\ Z.of_nat (length l) = (4 * ell)%Z.
Proof.
  destruct universe as (u & Hu & Lu).
  exact (a_count _ _ _ _ _ _ ed_ab ell G T4 on_G on_T4 ell_pos' ell_mod2 z_ell_G zmul_G_0 z_T4_4 zmul_T_0 two_torsion not_odd
    _ enc_dec enc u enc_inj Hu Lu).
Qed.

(** ** Order of G; the prime-order subgroup *)
Theorem G_order_iff : forall n, (0 <= n)%Z -> (n • G = pzero <-> (ell | n)%Z).
Proof.
  intros n Hn. rewrite <- (zmul_nonneg ed_a ed_d n G Hn). split; [apply zmul_G_0|]. intros [q ->]. rewrite Z.mul_comm.
  exact (a_period _ _ _ _ _ _ ed_ab ell q G on_G z_ell_G).
Qed.
Theorem subgroup_iff : forall P, on_ed P -> (ell • P = pzero <-> exists k, (0 <= k < ell)%Z /\ P = k • G).
Proof.
  intros P HP. destruct universe as (u & Hu & Lu). pose proof ell_pos' as EP. rewrite <- (zmul_nonneg ed_a ed_d ell P) by lia.
  rewrite (a_subgroup _ _ _ _ _ _ ed_ab ell G T4 on_G on_T4 ell_pos' ell_mod2 z_ell_G zmul_G_0 z_T4_4 zmul_T_0 two_torsion not_odd
    _ enc_dec enc u enc_inj Hu Lu P HP).
  split; intros (k & Hk & E); exists k; (split; [exact Hk|]); rewrite zmul_nonneg in * by lia; exact E.
Qed.
