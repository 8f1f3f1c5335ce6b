(** An abelian group with an element G of odd order l and an element T of order 4, with no element whose
    double is an odd multiple of T, whose only 2-torsion is <2T>, and with fewer than 12 l elements: it is <G> + <T>.

    The group is abstract here so that nothing computes; GroupOrder.v instantiates it with Ed448-Goldilocks, MontOrder.v with Curve448 and its twist. *)
Require Import ZArith Znumtheory List Bool Lia FinFun Permutation.
Import ListNotations.
Open Scope Z_scope.

(** ** Lists *)
Section Pigeon.
Variables (A C : Type) (eqC : forall x y : C, {x = y} + {x <> y}) (f : A -> C).
Lemma pigeon : forall l, NoDup l -> NoDup (map f l) \/ exists x y, In x l /\ In y l /\ x <> y /\ f x = f y.
Proof.
  induction 1 as [|a l Na Nl IH]; [left; constructor|].
  destruct IH as [IH|(x & y & Hx & Hy & N & E)]; [|right; exists x, y; cbn; auto].
  destruct (in_dec eqC (f a) (map f l)) as [I|I].
  - right. apply in_map_iff in I. destruct I as (b & E & Hb). exists a, b. cbn. repeat split; auto. intros ->. contradiction.
  - left. cbn. constructor; assumption.
Qed.
End Pigeon.
Lemma NoDup_list_prod : forall (A C : Type) (l : list A) (l' : list C), NoDup l -> NoDup l' -> NoDup (list_prod l l').
Proof.
  intros A C l l' H H'. induction H as [|a l Na Nl IH]; [constructor|]. cbn [list_prod].
  assert (D : forall l1 l2 : list (A * C), NoDup l1 -> NoDup l2 -> (forall x, In x l1 -> ~ In x l2) -> NoDup (l1 ++ l2)).
  { induction 1 as [|x l1 Nx _ IH1]; intros N2 Dj; [exact N2|]. cbn. constructor.
    - intro I. apply in_app_iff in I. destruct I as [I|I]; [contradiction|]. apply (Dj x); [left; reflexivity|exact I].
    - apply IH1; [exact N2|]. intros z Hz. apply Dj. right. exact Hz. }
  apply D.
  - apply Injective_map_NoDup; [|exact H']. intros x y E. injection E. auto.
  - exact IH.
  - intros [u v] I J. apply in_map_iff in I. destruct I as (z & E & _). injection E as <- <-. apply in_prod_iff in J. tauto.
Qed.

(** ** Abelian groups, with integer multiples *)
Record abgroup (A : Type) (S : A -> Prop) (add : A -> A -> A) (neg : A -> A) (z : A) (mul : Z -> A -> A) : Prop := {
  ag_z : S z;
  ag_add : forall x y, S x -> S y -> S (add x y);
  ag_neg : forall x, S x -> S (neg x);
  ag_comm : forall x y, add x y = add y x;
  ag_assoc : forall x y w, S x -> S y -> S w -> add (add x y) w = add x (add y w);
  ag_0 : forall x, add z x = x;
  ag_inv : forall x, S x -> add x (neg x) = z;
  ag_mul_S : forall n x, S x -> S (mul n x);
  ag_mul_0 : forall x, mul 0 x = z;
  ag_mul_1 : forall x, mul 1 x = x;
  ag_mul_add : forall m n x, S x -> mul (m + n) x = add (mul m x) (mul n x)
}.

Section AbGroup.
Variables (A : Type) (S : A -> Prop) (add : A -> A -> A) (neg : A -> A) (z : A) (mul : Z -> A -> A).
Hypothesis H : abgroup A S add neg z mul.
Local Notation "x ⊕ y" := (add x y) (at level 50, left associativity).
Local Notation "n ∘ x" := (mul n x) (at level 40).
Let Sz := ag_z _ _ _ _ _ _ H.
Let Sadd := ag_add _ _ _ _ _ _ H.
Let Sneg := ag_neg _ _ _ _ _ _ H.
Let comm := ag_comm _ _ _ _ _ _ H.
Let assoc := ag_assoc _ _ _ _ _ _ H.
Let add0 := ag_0 _ _ _ _ _ _ H.
Let inv := ag_inv _ _ _ _ _ _ H.
Let Smul := ag_mul_S _ _ _ _ _ _ H.
Let mul0 := ag_mul_0 _ _ _ _ _ _ H.
Let mul1 := ag_mul_1 _ _ _ _ _ _ H.
Let muladd := ag_mul_add _ _ _ _ _ _ H.
Hint Resolve Sz Sadd Sneg Smul : core.

Lemma a_0_r : forall x, x ⊕ z = x. Proof. intro x. rewrite comm. apply add0. Qed.
Lemma a_inv_l : forall x, S x -> neg x ⊕ x = z. Proof. intros x Hx. rewrite comm. auto. Qed.
Lemma a_cancel : forall x y w, S x -> S y -> S w -> x ⊕ y = x ⊕ w -> y = w.
Proof.
  intros x y w Hx Hy Hw E. rewrite <- (add0 y), <- (add0 w), <- (a_inv_l x Hx). rewrite !assoc by auto. rewrite E. reflexivity.
Qed.
Lemma a_neg_unique : forall x y, S x -> S y -> x ⊕ y = z -> y = neg x.
Proof. intros x y Hx Hy E. apply (a_cancel x); auto. rewrite E. symmetry. auto. Qed.
Lemma a_sub_eq : forall x y, S x -> S y -> x ⊕ neg y = z -> x = y.
Proof.
  intros x y Hx Hy E. apply (a_cancel (neg y)); auto. rewrite (comm (neg y) x), E. symmetry. apply a_inv_l. exact Hy.
Qed.
Lemma a_swap : forall x y u v, S x -> S y -> S u -> S v -> (x ⊕ y) ⊕ (u ⊕ v) = (x ⊕ u) ⊕ (y ⊕ v).
Proof.
  intros. rewrite !assoc by auto. f_equal. rewrite <- !assoc by auto. rewrite (comm y u). reflexivity.
Qed.
Lemma a_mul_z : forall n, n ∘ z = z.
Proof.
  assert (K : forall n, 0 <= n -> n ∘ z = z).
  { apply natlike_ind; [apply mul0|]. intros n Hn IH. unfold Z.succ. rewrite muladd, IH, mul1, add0 by auto. reflexivity. }
  intro n. destruct (Z.le_gt_cases 0 n) as [Hn|Hn]; [apply K; exact Hn|].
  rewrite <- (add0 (n ∘ z)), <- (K (- n)) at 1 by lia. rewrite <- muladd by auto. rewrite Z.add_opp_diag_l. apply mul0.
Qed.
Lemma a_mul_opp : forall n x, S x -> (- n) ∘ x = neg (n ∘ x).
Proof. intros n x Hx. apply a_neg_unique; auto. rewrite <- muladd by exact Hx. rewrite Z.add_opp_diag_r. apply mul0. Qed.
Lemma a_mul_padd : forall n x y, S x -> S y -> n ∘ (x ⊕ y) = n ∘ x ⊕ n ∘ y.
Proof.
  intros n x y Hx Hy. assert (K : forall n, 0 <= n -> n ∘ (x ⊕ y) = n ∘ x ⊕ n ∘ y).
  { apply natlike_ind; [rewrite !mul0, add0; reflexivity|]. intros m Hm IH. unfold Z.succ. rewrite !muladd, IH, !mul1 by auto. apply a_swap; auto. }
  destruct (Z.le_gt_cases 0 n) as [Hn|Hn]; [apply K; exact Hn|].
  apply (a_cancel ((- n) ∘ (x ⊕ y))); auto. rewrite <- muladd by auto. rewrite (K (- n)) by lia. rewrite a_swap by auto.
  rewrite <- !muladd by auto. rewrite !Z.add_opp_diag_l, !mul0, add0. reflexivity.
Qed.
Lemma a_mul_neg : forall n x, S x -> n ∘ neg x = neg (n ∘ x).
Proof. intros n x Hx. apply a_neg_unique; auto. rewrite <- a_mul_padd by auto. rewrite inv by exact Hx. apply a_mul_z. Qed.
Lemma a_mul_mul : forall m n x, S x -> (m * n) ∘ x = m ∘ (n ∘ x).
Proof.
  intros m n x Hx. assert (K : forall m, 0 <= m -> (m * n) ∘ x = m ∘ (n ∘ x)).
  { apply natlike_ind; [rewrite Z.mul_0_l, !mul0; reflexivity|]. intros k Hk IH.
    replace (Z.succ k * n) with (k * n + n) by ring. unfold Z.succ. rewrite !muladd, IH, mul1 by auto. reflexivity. }
  destruct (Z.le_gt_cases 0 m) as [Hm|Hm]; [apply K; exact Hm|].
  replace (m * n) with (- (- m * n)) by ring. rewrite a_mul_opp, K by (lia || auto). rewrite <- a_mul_opp by auto. f_equal. ring.
Qed.
Lemma a_period : forall m q x, S x -> m ∘ x = z -> (m * q) ∘ x = z.
Proof. intros m q x Hx E. rewrite Z.mul_comm, a_mul_mul, E by exact Hx. apply a_mul_z. Qed.
Lemma a_mod : forall m n x, 0 < m -> S x -> m ∘ x = z -> n ∘ x = (n mod m) ∘ x.
Proof. intros m n x Hm Hx E. rewrite (Z.div_mod n m) at 1 by lia. rewrite muladd, a_period, add0 by auto. reflexivity. Qed.
Lemma a_order : forall m n x, 0 < m -> S x -> m ∘ x = z -> (forall r, 0 < r < m -> r ∘ x <> z) -> n ∘ x = z -> (m | n).
Proof.
  intros m n x Hm Hx Em Hr En. rewrite (a_mod m n x) in En by assumption. pose proof (Z.mod_pos_bound n m Hm) as R.
  apply Z.mod_divide; [lia|]. destruct (Z.eq_dec (n mod m) 0) as [E|N]; [exact E|]. exfalso. apply (Hr (n mod m)); [lia|exact En].
Qed.
Lemma a_prime_order : forall l n x, prime l -> S x -> x <> z -> l ∘ x = z -> n ∘ x = z -> (l | n).
Proof.
  intros l n x Pl Hx Nx El En. destruct (Zdivide_dec l n) as [D|N]; [exact D|]. exfalso. apply Nx.
  pose proof (prime_rel_prime l Pl n N) as R. apply Zgcd_1_rel_prime in R. destruct (Z.gcd_bezout l n 1 R) as (u & v & E).
  rewrite <- (mul1 x), <- E. rewrite muladd by exact Hx. rewrite (Z.mul_comm u), (Z.mul_comm v), !a_period, add0 by assumption. reflexivity.
Qed.

(** Lagrange: adding x permutes the elements, so it leaves their sum unchanged. *)
Definition a_sum (L : list A) : A := fold_right add z L.
Lemma a_sum_S : forall L, (forall x, In x L -> S x) -> S (a_sum L).
Proof. induction L as [|a L IH]; intro HL; cbn; [exact Sz|]. apply Sadd; [apply HL; left; reflexivity|apply IH; intros; apply HL; right; assumption]. Qed.
Lemma a_sum_perm : forall L L', Permutation L L' -> (forall x, In x L -> S x) -> a_sum L = a_sum L'.
Proof.
  induction 1 as [|a L L' HP IH|a b L|L L' L'' P1 IH1 P2 IH2]; intro HL.
  - reflexivity.
  - cbn. f_equal. apply IH. intros. apply HL. right. assumption.
  - cbn. assert (S (a_sum L)) by (apply a_sum_S; intros; apply HL; right; right; assumption).
    assert (S a) by (apply HL; cbn; auto). assert (S b) by (apply HL; cbn; auto).
    fold (a_sum L). rewrite <- !assoc by auto. rewrite (comm b a). reflexivity.
  - rewrite IH1 by exact HL. apply IH2. intros x Hx. apply HL. apply Permutation_in with L'; [apply Permutation_sym; exact P1|exact Hx].
Qed.
Lemma a_sum_add : forall x L, S x -> (forall y, In y L -> S y) -> a_sum (map (add x) L) = (Z.of_nat (length L)) ∘ x ⊕ a_sum L.
Proof.
  intros x L Hx. induction L as [|a L IH]; intro HL; cbn [map a_sum fold_right length].
  - rewrite mul0, add0. reflexivity.
  - fold (a_sum (map (add x) L)). fold (a_sum L). rewrite IH by (intros; apply HL; right; assumption).
    assert (S (a_sum L)) by (apply a_sum_S; intros; apply HL; right; assumption). assert (S a) by (apply HL; cbn; auto).
    rewrite Nat2Z.inj_succ. unfold Z.succ. rewrite muladd, mul1 by exact Hx. rewrite (comm (Z.of_nat (length L) ∘ x) x). apply a_swap; auto.
Qed.
Theorem a_lagrange : forall L, NoDup L -> (forall x, In x L <-> S x) -> forall x, S x -> (Z.of_nat (length L)) ∘ x = z.
Proof.
  intros L ND HL x Hx. assert (HS : forall y, In y L -> S y) by (intros; apply HL; assumption).
  assert (HP : Permutation L (map (add x) L)).
  { apply NoDup_Permutation.
    - exact ND.
    - clear HL. induction ND as [|a L Na ND IH]; [constructor|]. cbn [map]. constructor.
      + intro I. apply in_map_iff in I. destruct I as (b & E & Hb). apply a_cancel in E; [subst b; contradiction|exact Hx|apply HS; right; exact Hb|apply HS; left; reflexivity].
      + apply IH. intros. apply HS. right. assumption.
    - intro y. split; intro Hy.
      + apply in_map_iff. exists (neg x ⊕ y). apply HL in Hy. split; [|apply HL; auto]. rewrite <- assoc by auto. rewrite inv by exact Hx. apply add0.
      + apply in_map_iff in Hy. destruct Hy as (b & <- & Hb). apply HL. apply Sadd; [exact Hx|apply HL; exact Hb]. }
  apply a_sum_perm in HP; [|exact HS]. rewrite a_sum_add in HP by assumption.
  apply (a_cancel (a_sum L)); [apply a_sum_S; exact HS|apply Smul; exact Hx|exact Sz|]. rewrite comm, <- HP. symmetry. apply a_0_r.
Qed.

(** ** Structure *)
Variables (l : Z) (G T : A).
Hypothesis SG : S G.
Hypothesis ST : S T.
Hypothesis l_pos : 0 < l.
Hypothesis l_mod2 : l mod 2 = 1.
Hypothesis G_l : l ∘ G = z.
Hypothesis G_ord : forall n, n ∘ G = z -> (l | n).
Hypothesis T_4 : 4 ∘ T = z.
Hypothesis T_ord : forall n, n ∘ T = z -> (4 | n).
Hint Resolve SG ST : core.

Lemma gcd_4l : Z.gcd 4 l = 1.
Proof.
  apply Zgcd_1_rel_prime. change 4 with (2 * 2). assert (R : rel_prime l 2).
  { apply rel_prime_sym. apply prime_rel_prime; [exact prime_2|]. intro D. apply Z.mod_divide in D; lia. }
  apply rel_prime_sym. apply rel_prime_mult; exact R.
Qed.

Section Comb.
Variable P : A.
Hypothesis SP : S P.
Hint Resolve SP : core.
Definition lin (k b c : Z) : A := k ∘ P ⊕ b ∘ G ⊕ c ∘ T.
Lemma lin_S : forall k b c, S (lin k b c). Proof. intros. unfold lin. auto 10. Qed.
Hint Resolve lin_S : core.
Lemma lin_add : forall k b c k' b' c', lin k b c ⊕ lin k' b' c' = lin (k + k') (b + b') (c + c').
Proof. intros. unfold lin. rewrite a_swap by auto. rewrite (a_swap (k ∘ P)) by auto. rewrite <- !muladd by auto. reflexivity. Qed.
Lemma lin_0 : lin 0 0 0 = z. Proof. unfold lin. rewrite !mul0, !add0. reflexivity. Qed.
Lemma lin_100 : lin 1 0 0 = P. Proof. unfold lin. rewrite !mul0, mul1, !a_0_r. reflexivity. Qed.
Lemma lin_neg : forall k b c, neg (lin k b c) = lin (- k) (- b) (- c).
Proof. intros. symmetry. apply a_neg_unique; auto. rewrite lin_add, !Z.add_opp_diag_r. apply lin_0. Qed.
Lemma lin_mul : forall n k b c, n ∘ lin k b c = lin (n * k) (n * b) (n * c).
Proof. intros. unfold lin. rewrite !a_mul_padd by auto. rewrite !a_mul_mul by auto. reflexivity. Qed.
Lemma lin_sub : forall k b c k' b' c', lin k b c = lin k' b' c' -> lin (k - k') (b - b') (c - c') = z.
Proof. intros k b c k' b' c' E. unfold Z.sub. rewrite <- lin_add, <- lin_neg, E. apply inv. auto. Qed.
Lemma lin_l : forall k b c q, lin k (b + l * q) c = lin k b c.
Proof. intros. unfold lin. rewrite (muladd b), (a_period l), a_0_r by auto. reflexivity. Qed.
Lemma lin_4 : forall k b c q, lin k b (c + 4 * q) = lin k b c.
Proof. intros. unfold lin. rewrite (muladd c), (a_period 4), a_0_r by auto. reflexivity. Qed.
Lemma lin_ker : forall b c, lin 0 b c = z -> (l | b) /\ (4 | c).
Proof.
  intros b c E. assert (C : (4 | c)).
  { assert (E' : l ∘ lin 0 b c = z) by (rewrite E; apply a_mul_z). rewrite lin_mul in E'. unfold lin in E'.
    rewrite Z.mul_0_r, mul0, add0, (a_period l b), add0 in E' by auto. apply T_ord in E'. apply Z.gauss in E'; [exact E'|exact gcd_4l]. }
  split; [|exact C]. destruct C as [q ->]. unfold lin in E. rewrite Z.mul_comm, (a_period 4), mul0, add0, a_0_r in E by auto.
  apply G_ord. exact E.
Qed.
End Comb.
Hint Resolve lin_S : core.

Theorem a_unique : forall b c b' c', 0 <= b < l -> 0 <= c < 4 -> 0 <= b' < l -> 0 <= c' < 4 ->
  b ∘ G ⊕ c ∘ T = b' ∘ G ⊕ c' ∘ T -> b = b' /\ c = c'.
Proof.
  intros b c b' c' Hb Hc Hb' Hc' E. assert (K : lin G 0 b c = lin G 0 b' c').
  { unfold lin. rewrite !mul0, !add0. exact E. }
  apply (lin_sub G SG) in K. apply lin_ker in K; [|exact SG]. destruct K as [[q D1] [r D2]]. split; [|lia]. assert (q = 0) by nia. lia.
Qed.

Hypothesis two_torsion : forall x, S x -> x ⊕ x = z -> x = z \/ x = 2 ∘ T.
Hypothesis not_odd : forall x c, S x -> x ⊕ x <> (2 * c + 1) ∘ T.

Lemma lin_1 : forall P b c, S P -> lin P 1 b c = z -> exists b' c', P = b' ∘ G ⊕ c' ∘ T.
Proof.
  intros P b c SP E. exists (- b), (- c). apply a_sub_eq; auto.
  replace (- b ∘ G ⊕ - c ∘ T) with (lin P 0 (- b) (- c)) by (unfold lin; rewrite mul0, add0; reflexivity).
  rewrite lin_neg by exact SP. rewrite <- (lin_100 P) at 1. rewrite lin_add by exact SP.
  rewrite !Z.opp_involutive, !Z.add_0_l, Z.opp_0, Z.add_0_r. exact E.
Qed.
Lemma lin_2 : forall P b c, S P -> lin P 2 b c = z -> exists b' c', P = b' ∘ G ⊕ c' ∘ T.
Proof.
  intros P b c SP E. assert (exists h, lin P 2 (2 * h) c = z) as [h Eh].
  { destruct (Z.Even_or_Odd b) as [[h ->]|[h ->]]; [exists h; exact E|].
    exists (h + (l + 1) / 2). rewrite <- E. rewrite <- (lin_l P 2 (2 * h + 1) c 1). f_equal.
    pose proof (Z.div_mod l 2 ltac:(lia)) as D. rewrite l_mod2 in D. rewrite D.
    replace (2 * (l / 2) + 1 + 1) with ((l / 2 + 1) * 2) by ring. rewrite Z.div_mul by lia. ring. }
  destruct (Z.Even_or_Odd c) as [[g ->]|[g ->]].
  - assert (E2 : lin P 1 h g ⊕ lin P 1 h g = z). { rewrite lin_add by exact SP. rewrite <- Eh. f_equal; ring. }
    apply two_torsion in E2; [|auto]. destruct E2 as [E2|E2]; [exact (lin_1 P h g SP E2)|].
    apply (lin_1 P h (g + 2) SP). replace (lin P 1 h (g + 2)) with (lin P 1 h g ⊕ lin P 0 0 2) by (rewrite lin_add by exact SP; f_equal; ring).
    rewrite E2. unfold lin. rewrite !mul0, !add0, <- muladd by auto. exact T_4.
  - exfalso. apply (not_odd (lin P 1 h 0) (- g - 1)); [auto|]. rewrite lin_add by exact SP.
    transitivity (lin P 2 (2 * h) (2 * g + 1) ⊕ lin P 0 0 (2 * (- g - 1) + 1)); [rewrite lin_add by exact SP; f_equal; ring|].
    rewrite Eh, add0. unfold lin. rewrite !mul0, !add0. reflexivity.
Qed.

Variables (C : Type) (eqC : forall x y : C, {x = y} + {x <> y}) (enc : A -> C) (univ : list C).
Hypothesis enc_inj : forall x y, S x -> S y -> enc x = enc y -> x = y.
Hypothesis enc_univ : forall x, In (enc x) univ.
Hypothesis univ_len : Z.of_nat (length univ) < 12 * l.

Lemma pigeon_G : forall P, S P -> exists k b c, (k = 1 \/ k = 2) /\ lin P k b c = z.
Proof.
  intros P HP.
  assert (exists ln, Z.of_nat ln = l) as [ln Hln] by (exists (Z.to_nat l); apply Z2Nat.id; lia).
  set (f := fun t : nat * nat * nat => let '(a, b, c) := t in enc (lin P (Z.of_nat a) (Z.of_nat b) (Z.of_nat c))).
  set (L := list_prod (list_prod (seq 0 3) (seq 0 ln)) (seq 0 4)).
  assert (ND : NoDup L) by (unfold L; repeat apply NoDup_list_prod; apply seq_NoDup).
  destruct (pigeon _ _ eqC f L ND) as [Inj|(x & y & Hx & Hy & N & E)].
  - exfalso. assert (I : incl (map f L) univ).
    { intros w Hw. apply in_map_iff in Hw. destruct Hw as ([[a b] c] & <- & _). apply enc_univ. }
    pose proof (NoDup_incl_length Inj I) as Le. unfold L in Le. rewrite map_length, !prod_length, !seq_length in Le. lia.
  - destruct x as [[a b] c], y as [[a' b'] c']. unfold f in E. apply enc_inj in E; auto.
    assert (R : forall a b c, In (a, b, c) L -> (a < 3 /\ b < ln /\ c < 4)%nat).
    { intros u v w I. unfold L in I. apply in_prod_iff in I. destruct I as [I I3]. apply in_prod_iff in I. destruct I as [I1 I2].
      apply in_seq in I1, I2, I3. lia. }
    apply R in Hx, Hy. pose proof (lin_sub P HP _ _ _ _ _ _ E) as K1. pose proof (lin_sub P HP _ _ _ _ _ _ (eq_sym E)) as K2.
    destruct (Nat.eq_dec a a') as [Ea|Na].
    + exfalso. subst a'. rewrite Z.sub_diag in K1. apply lin_ker in K1; [|exact HP]. destruct K1 as [D1 D2]. apply N.
      assert (b = b'). { destruct D1 as [q D1]. assert (q = 0) by nia. lia. }
      assert (c = c'). { destruct D2 as [q D2]. lia. } congruence.
    + destruct (Nat.lt_ge_cases a' a).
      * do 3 eexists. split; [|exact K1]. lia.
      * do 3 eexists. split; [|exact K2]. lia.
Qed.

Theorem a_structure : forall P, S P -> exists b c, 0 <= b < l /\ 0 <= c < 4 /\ P = b ∘ G ⊕ c ∘ T.
Proof.
  intros P HP. assert (exists b c, P = b ∘ G ⊕ c ∘ T) as (b & c & E).
  { destruct (pigeon_G P HP) as (k & b & c & [->| ->] & E); [exact (lin_1 P b c HP E)|exact (lin_2 P b c HP E)]. }
  exists (b mod l), (c mod 4). pose proof (Z.mod_pos_bound b l l_pos). pose proof (Z.mod_pos_bound c 4 ltac:(lia)).
  split; [lia|]. split; [lia|]. rewrite E. rewrite (a_mod l b G), (a_mod 4 c T) by (assumption || lia). reflexivity.
Qed.
Theorem a_count : exists L : list A, NoDup L /\ (forall P, In P L <-> S P) /\ Z.of_nat (length L) = 4 * l.
Proof.
  assert (exists ln, Z.of_nat ln = l) as [ln Hln] by (exists (Z.to_nat l); apply Z2Nat.id; lia).
  set (g := fun t : nat * nat => Z.of_nat (fst t) ∘ G ⊕ Z.of_nat (snd t) ∘ T).
  assert (Sg : forall t, S (g t)) by (intro t; unfold g; auto).
  exists (map g (list_prod (seq 0 ln) (seq 0 4))). split; [|split].
  - destruct (pigeon _ _ eqC (fun t => enc (g t)) _ (NoDup_list_prod _ _ _ _ (seq_NoDup ln 0) (seq_NoDup 4 0))) as [K|(x & y & Hx & Hy & N & E)].
    + rewrite <- map_map in K. apply NoDup_map_inv in K. exact K.
    + exfalso. apply enc_inj in E; auto. destruct x as [b c], y as [b' c']. apply in_prod_iff in Hx, Hy.
      rewrite !in_seq in Hx, Hy. unfold g in E. cbn [fst snd] in E. apply a_unique in E; try lia. apply N. f_equal; lia.
  - intro P. rewrite in_map_iff. split; [intros (t & <- & _); apply Sg|]. intro HP.
    destruct (a_structure P HP) as (b & c & Hb & Hc & E). exists (Z.to_nat b, Z.to_nat c). split.
    + unfold g. cbn [fst snd]. rewrite !Z2Nat.id by lia. symmetry. exact E.
    + apply in_prod_iff. rewrite !in_seq. lia.
  - rewrite map_length, prod_length, !seq_length. lia.
Qed.
Theorem a_subgroup : forall P, S P -> (l ∘ P = z <-> exists k, 0 <= k < l /\ P = k ∘ G).
Proof.
  intros P HP. split.
  - intro E. destruct (a_structure P HP) as (b & c & Hb & Hc & ->). exists b. split; [exact Hb|].
    rewrite a_mul_padd in E by auto. rewrite <- !a_mul_mul in E by auto. rewrite (a_period l b), add0 in E by auto.
    apply T_ord in E. apply Z.gauss in E; [|exact gcd_4l]. destruct E as [q Hq]. replace c with 0 by lia.
    rewrite mul0, a_0_r. reflexivity.
  - intros (k & Hk & ->). rewrite <- a_mul_mul by exact SG. apply a_period; assumption.
Qed.
(** ** Which multiples vanish, for l prime *)
Theorem a_kernel4 : prime l -> forall P n, S P -> (4 | n) -> (n ∘ P = z <-> (l | n) \/ 4 ∘ P = z).
Proof.
  intros Pl P n HP [k ->]. destruct (a_structure P HP) as (b & c & _ & _ & E).
  assert (K : forall q, (q * 4) ∘ P = z <-> (l | q * 4 * b)).
  { intro q. rewrite E. rewrite a_mul_padd by auto. rewrite <- !a_mul_mul by auto.
    replace (q * 4 * c) with (4 * (q * c)) by ring. rewrite (a_period 4), a_0_r by auto. split; [apply G_ord|].
    intros [w ->]. rewrite Z.mul_comm. apply a_period; auto. }
  rewrite (K k). split.
  - intro D. apply prime_mult in D; [|exact Pl]. destruct D as [D|D]; [left; exact D|right]. change 4 with (1 * 4). apply (K 1).
    apply Z.divide_mul_r. exact D.
  - intros [D|E4]; [apply Z.divide_mul_l; exact D|]. change 4 with (1 * 4) in E4. apply (K 1) in E4. replace (k * 4 * b) with (k * (1 * 4 * b)) by ring.
    apply Z.divide_mul_r. exact E4.
Qed.
End AbGroup.
