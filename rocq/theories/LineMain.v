(** Curve448 and its twist are cyclic, and the ladder multiplies integers up to sign. *)
Require Import ZArith Znumtheory List Bool Lia FinFun Permutation.
From Verif Require Import Base BaseProofs SpecParams SpecField SpecCurve SpecEncoding SpecMontgomery SpecTwist SpecCount SpecFibre FieldTheory EdwardsTheory CurveTheory EdwardsProofs EdwardsMain ScalarProofs2
  AbGroup Order GroupOrder EdStructure Primes FieldBackend Backends FieldMain ScalarModel ScalarProofs ScalarMain MontTheory Ladder LadderMont MontCurves MontgomeryModel MontgomeryMain TwistPrime MontOrder
  KeyCount SpecChain TwistMain FibreMain ProtocolMain MontgomeryFacts SpecLine.
Import ListNotations.
Open Scope Z_scope.
Local Opaque fadd fsub fmul fopp fdiv finv fpow of_Z zmul padd psi ell ell_twist p Gx Gy pzero mont_mul le_bytes T4.

Section Cyclic.
Variable d : F.
Hypothesis ND : ~ is_square d.
Hypothesis N1 : ~ is_square (1 - d)%F.
Local Notation on := (on_curve (1)%F d).
Local Notation "P ⊕ Q" := (padd (1)%F d P Q) (at level 50, left associativity).
Local Notation "n ∘ P" := (zmul (1)%F d n P) (at level 40).
Let Ab := c_ab d ND.
Variables (l : Z) (Q : point).
Hypothesis l_prime : prime l.
Hypothesis l_odd : l mod 2 = 1.
Hypothesis l_large : (2 * p < 12 * l).
Hypothesis on_Q : on Q.
Hypothesis Q_nz : Q <> pzero.
Hypothesis Q_l : l ∘ Q = pzero.
Let g : point := Q ⊕ T4.
Lemma y_pos : 0 < l. Proof. destruct l_prime. lia. Qed.
Lemma y_on : on g. Proof. apply (ag_add _ _ _ _ _ _ Ab); [exact on_Q|apply c_on_T4]. Qed.
Lemma y_split : forall n, n ∘ g = n ∘ Q ⊕ n ∘ T4.
Proof. intro n. apply (a_mul_padd _ _ _ _ _ _ Ab); [exact on_Q|apply c_on_T4]. Qed.
Lemma rel_4 : rel_prime 4 l.
Proof.
  apply rel_prime_sym. apply prime_rel_prime; [exact l_prime|]. intro K. replace 4 with (2 * 2) in K by reflexivity. apply prime_mult in K; [|exact l_prime]. assert (K' : (l | 2)) by (destruct K; assumption).
  apply Z.divide_pos_le in K'; [|lia]. destruct l_prime as [L _]. assert (E : l = 2) by lia. rewrite E in l_odd. discriminate l_odd.
Qed.
Lemma y_zero : forall n, n ∘ g = pzero <-> (4 * l | n).
Proof.
  intro n. pose proof y_pos as LP.
  assert (KQ : (l | n) -> n ∘ Q = pzero). { intros [q ->]. rewrite Z.mul_comm. apply (a_period _ _ _ _ _ _ Ab); [exact on_Q|exact Q_l]. }
  assert (KT : (4 | n) -> n ∘ T4 = pzero). { intros [q ->]. rewrite Z.mul_comm. apply (a_period _ _ _ _ _ _ Ab); [apply c_on_T4|apply c_z_T4_4; exact ND]. }
  split.
  - intro E. assert (L : (l | n)).
    { assert (E4 : (4 * n) ∘ g = pzero) by (rewrite (a_mul_mul _ _ _ _ _ _ Ab) by exact y_on; rewrite E; apply (a_mul_z _ _ _ _ _ _ Ab)).
      rewrite y_split in E4. assert (X : (4 * n) ∘ T4 = pzero) by (apply (a_period _ _ _ _ _ _ Ab); [apply c_on_T4|apply c_z_T4_4; exact ND]). rewrite X, (a_0_r _ _ _ _ _ _ Ab) in E4.
      pose proof (a_prime_order _ _ _ _ _ _ Ab l _ Q l_prime on_Q Q_nz Q_l E4) as Dv. apply Gauss with 4; [exact Dv|]. apply rel_prime_sym. exact rel_4. }
    rewrite y_split, (KQ L), (ag_0 _ _ _ _ _ _ Ab) in E. pose proof (c_T_0 d ND n E) as T. destruct L as [q ->].
    assert (T' : (4 | q)) by (apply Gauss with l; [rewrite Z.mul_comm; exact T|exact rel_4]). destruct T' as [r ->]. exists r. ring.
  - intros [q ->]. rewrite y_split, KQ, KT, (ag_0 _ _ _ _ _ _ Ab); [reflexivity|exists (q * l); ring|exists (q * 4); ring].
Qed.
Lemma y_inj : forall m n, m ∘ g = n ∘ g <-> (4 * l | m - n).
Proof.
  intros m n. rewrite <- y_zero. unfold Z.sub. rewrite (ag_mul_add _ _ _ _ _ _ Ab), (a_mul_opp _ _ _ _ _ _ Ab) by exact y_on. split.
  - intros ->. apply (ag_inv _ _ _ _ _ _ Ab). apply (ag_mul_S _ _ _ _ _ _ Ab). exact y_on.
  - intro E. apply (a_sub_eq _ _ _ _ _ _ Ab); [apply (ag_mul_S _ _ _ _ _ _ Ab); exact y_on|apply (ag_mul_S _ _ _ _ _ _ Ab); exact y_on|exact E].
Qed.
Lemma y_all : forall P, on P -> exists n, 0 <= n < 4 * l /\ P = n ∘ g.
Proof.
  pose proof y_pos as LP. intros P HP. destruct (c_count d ND N1 l Q l_prime l_odd l_large on_Q Q_nz Q_l) as (L & N & H & Len).
  set (K := map (fun i => Z.of_nat i ∘ g) (seq 0 (Z.to_nat (4 * l)))). assert (I : In P K).
  { apply (@NoDup_length_incl _ K L).
    - unfold K. apply nodup_map; [apply seq_NoDup|]. intros i j Hi Hj E. apply in_seq in Hi, Hj. apply y_inj in E. destruct E as [k Hk]. assert (k = 0) by nia. lia.
    - unfold K. rewrite map_length, seq_length. lia.
    - intros x Hx. apply H. unfold K in Hx. apply in_map_iff in Hx. destruct Hx as (i & <- & _). apply (ag_mul_S _ _ _ _ _ _ Ab). exact y_on.
    - apply H. exact HP. }
  unfold K in I. apply in_map_iff in I. destruct I as (i & <- & Hi). apply in_seq in Hi. exists (Z.of_nat i). split; [lia|reflexivity].
Qed.
End Cyclic.

(** ** The same through the birational map *)
Lemma mod_div : forall m n k, 0 < k -> ((k | m - n) <-> m mod k = n mod k).
Proof.
  intros m n k K. split; intro E.
  - destruct E as [q Hq]. replace m with (n + q * k) by lia. apply Z.mod_add. lia.
  - exists (m / k - n / k). pose proof (Z.div_mod m k ltac:(lia)). pose proof (Z.div_mod n k ltac:(lia)). nia.
Qed.
Definition cyc (A e : F) (l : Z) (g : mpoint) : Prop := on_mont A e g /\ (forall P, on_mont A e P -> exists n, 0 <= n < 4 * l /\ P = mont_mul A e n g) /\
  (forall m n, 0 <= m -> 0 <= n -> (mont_mul A e m g = mont_mul A e n g <-> m mod (4 * l) = n mod (4 * l))).
Section Known.
Variables A c d : F.
Hypothesis HA : A = (c * c + of_Z 2)%F.
Hypothesis Nc : c <> (0)%F.
Hypothesis NS : ~ is_square (A + of_Z 2)%F.
Hypothesis Hd : (d * (c * c))%F = (A + of_Z 2)%F.
Variables (l : Z) (P0 : mpoint).
Hypothesis l_prime : prime l.
Hypothesis l_odd : l mod 2 = 1.
Hypothesis l_large : 2 * p < 12 * l.
Hypothesis on_P0 : on_mont A (1)%F P0.
Hypothesis P0_high : ucoord (mont_mul A (1)%F 2 P0) <> (0)%F.
Hypothesis P0_l : zmul (1)%F d (4 * l) (psi c P0) = pzero.
Let ND : ~ is_square d := nsq_d A c d NS Hd.
Let Q := zmul (1)%F d 4 (psi c P0).
Lemma cyc_exists : exists g, cyc A (1)%F l g.
Proof.
  pose proof (on_Q0 A c d HA Nc NS Hd P0 on_P0) as OQ. pose proof (Q0_nz A c d HA Nc NS Hd P0 on_P0 P0_high) as NQ. pose proof (Q0_l A c d HA Nc NS Hd l P0 on_P0 P0_l) as LQ.
  pose proof (y_pos l l_prime) as LP. fold Q in OQ, NQ, LQ.
  pose proof (y_on d ND Q OQ) as OG. pose proof (y_inj d ND l Q l_prime l_odd OQ NQ LQ) as IG. pose proof (y_all d ND (n1 A c d HA Hd) l Q l_prime l_odd l_large OQ NQ LQ) as AG.
  set (g := padd (1)%F d Q T4) in *. clearbody g. destruct g as [x y]. destruct (psi_surj A c d HA Nc NS Hd x y OG) as (g & Hg & Eg). rewrite <- Eg in IG, AG. exists g.
  split; [exact Hg|]. split.
  - intros P HP. destruct (AG (psi c P) (psi_on' A c d HA Nc NS Hd P HP)) as (n & Hn & E). exists n. split; [exact Hn|].
    apply (psi_inj A c HA Nc NS); [exact HP|apply (mul_on A c d HA Nc NS Hd); exact Hg|]. rewrite (psi_zmul A c d HA Nc NS Hd) by (assumption || lia). exact E.
  - intros m n Hm Hn. rewrite <- mod_div by lia. rewrite <- IG, <- !(psi_zmul A c d HA Nc NS Hd) by assumption. split; [intros ->; reflexivity|].
    apply (psi_inj A c HA Nc NS); apply (mul_on A c d HA Nc NS Hd); exact Hg.
Qed.
End Known.
Theorem generators : forall e l, line_order e l -> exists g, generates e l g.
Proof.
  intros e l [[-> ->]|[-> ->]].
  - destruct curve_known as (c & P0 & HA & Nc & H0 & Hh & Hl).
    exact (cyc_exists mont_A c _ HA Nc nsq_A2 (dcc _ _ Nc) ell P0 prime_ell ell_mod2 ell_large H0 Hh Hl).
  - destruct twist_known as (c & P0 & HA & Nc & H0 & Hh & Hl).
    destruct (cyc_exists (- mont_A)%F c _ HA Nc nsq_mA2 (dcc _ _ Nc) ell_twist P0 prime_ell_twist ell_twist_mod2 ell_twist_large H0 Hh Hl) as (g & Hg & AG & IG).
    exists (flip g). split; [apply flip_on'; rewrite flip_flip; exact Hg|]. split.
    + intros P HP. destruct (AG (flip P) (flip_on _ _ HP)) as (n & Hn & E). exists n. split; [exact Hn|]. apply flip_inj. rewrite flip_mul, flip_flip. exact E.
    + intros m n Hm Hn. rewrite <- (IG m n Hm Hn). rewrite <- (flip_flip g) at 3 4. rewrite <- !flip_mul. split; [intros ->; reflexivity|apply flip_inj].
Qed.

(** ** Coordinates *)
Section Line.
Variables (e : F) (l : Z) (g : mpoint).
Hypothesis O : line_order e l.
Hypothesis Gn : generates e l g.
Local Notation on := (on_mont mont_A e).
Local Notation "P ⊞ Q" := (mont_add mont_A e P Q) (at level 50, left associativity).
Local Notation "n • P" := (mont_mul mont_A e n P) (at level 40).
Lemma ct : curve_or_twist e. Proof. exact (order_ct e l O). Qed.
Lemma l_pos : 0 < l. Proof. destruct O as [[_ ->]|[_ ->]]; reflexivity. Qed.
Lemma g_on : on g. Proof. exact (proj1 Gn). Qed.
Lemma n_on : forall n, on (n • g). Proof. intro n. apply mont_mul_on; [exact ct|exact g_on]. Qed.
Lemma mul_add : forall m n, 0 <= m -> 0 <= n -> (m + n) • g = m • g ⊞ n • g.
Proof.
  Local Transparent mont_mul. intros m n Hm Hn. unfold mont_mul. rewrite Z2Nat.inj_add by assumption. induction (Z.to_nat m) as [|k IH]; [reflexivity|]. cbn [Nat.add mont_mul_nat]. rewrite IH.
  symmetry. assert (N : forall j, on (mont_mul_nat mont_A e j g)) by (intro j; pose proof (n_on (Z.of_nat j)) as K; unfold mont_mul in K; rewrite Nat2Z.id in K; exact K).
  exact (proj1 (proj2 (mont_is_group e ct g (mont_mul_nat mont_A e k g) (mont_mul_nat mont_A e (Z.to_nat n) g) g_on (N k) (N _)))).
Qed.
Local Opaque mont_mul.
Lemma mul_none : forall n, 0 <= n -> (n • g = None <-> (4 * l | n)).
Proof.
  intros n Hn. pose proof l_pos. replace n with (n - 0) at 2 by ring. rewrite mod_div by lia. rewrite <- (proj2 (proj2 Gn) n 0) by lia. reflexivity.
Qed.
Lemma sum_none : forall P R, on P -> on R -> (P ⊞ R = None <-> P = mont_neg R).
Proof.
  intros P R HP HR. assert (on (mont_neg R)) as HN. { destruct R as [[u v]|]; [|exact I]. cbn [on_mont mont_neg] in *. rewrite <- HR. ring. } split.
  - intro E. destruct (mont_is_group e ct P R (mont_neg R) HP HR HN) as (_ & As & _ & Z & _). destruct (mont_is_group e ct R R R HR HR HR) as (_ & _ & _ & _ & Ne).
    rewrite E, Ne, Z in As. symmetry. exact As.
  - intros ->. destruct (mont_is_group e ct (mont_neg R) R R HN HR HR) as (_ & _ & -> & _). exact (proj2 (proj2 (proj2 (proj2 (mont_is_group e ct R R R HR HR HR))))).
Qed.
Lemma fsq_eq : forall x y : F, (x * x = y * y)%F -> x = y \/ x = (- y)%F.
Proof.
  intros x y E. destruct (F_eq_dec x y) as [K|K]; [left; exact K|right]. assert (Z : ((x - y) * (x + y) = 0)%F) by (transitivity (x * x - y * y)%F; [ring|rewrite E; ring]).
  destruct (fmul_integral _ _ Z) as [W|W]; [exfalso; apply K; transitivity (x - y + y)%F; [ring|rewrite W; ring]|]. transitivity (x + y - y)%F; [ring|rewrite W; ring].
Qed.
Lemma e_inj : forall x y : F, (e * x = e * y)%F -> x = y.
Proof. intros x y E. transitivity (e * e * x)%F; [rewrite (e_sq e ct); ring|]. transitivity (e * (e * y))%F; [rewrite <- E; ring|]. transitivity (e * e * y)%F; [ring|]. rewrite (e_sq e ct). ring. Qed.
Lemma u_zero : forall P, on P -> (ucoord P = (0)%F <-> P ⊞ P = None).
Proof.
  intros P HP. rewrite (sum_none P P HP HP). destruct P as [[u v]|]; [|split; reflexivity]. cbn [ucoord mont_neg on_mont] in *. split.
  - intros ->. assert (V : (v * v = 0 * 0)%F) by (apply e_inj; rewrite HP; ring). assert (V0 : v = (0)%F) by (destruct (fsq_eq _ _ V) as [->| ->]; ring). rewrite V0. f_equal; f_equal; ring.
  - intro E. assert (V : v = (- v)%F) by (apply MontOrder.some_inj in E; exact (proj2 E)). assert (V0 : v = (0)%F).
    { destruct (fmul_integral (of_Z 2) v) as [W|W]; [transitivity (v + v)%F; [assert (H2 : of_Z 2 = (1 + 1)%F) by (rewrite <- !of_Z_add; reflexivity); rewrite H2; ring|rewrite V at 2; ring]|exfalso; exact (F_2_neq_0 W)|exact W]. }
    rewrite V0 in HP. destruct (F_eq_dec u (0)%F) as [K|K]; [exact K|exfalso]. apply (rhs_nz u K). unfold rhs. rewrite <- HP. ring.
Qed.
Lemma u_same : forall P R, on P -> on R -> (ucoord P = ucoord R <-> P = R \/ P = mont_neg R \/ (ucoord P = (0)%F /\ ucoord R = (0)%F)).
Proof.
  intros P R HP HR. split.
  - destruct P as [[u v]|]; destruct R as [[w z]|]; cbn [ucoord mont_neg]; intro E.
    + subst w. cbn [on_mont] in HP, HR. rewrite <- HR in HP. apply e_inj in HP. destruct (fsq_eq _ _ HP) as [->| ->]; [left; reflexivity|right; left; reflexivity].
    + right. right. split; [exact E|reflexivity].
    + right. right. split; [reflexivity|symmetry; exact E].
    + left. reflexivity.
  - intros [->|[->|[-> ->]]]; [reflexivity| |reflexivity]. destruct R as [[w z]|]; reflexivity.
Qed.
Lemma mul_u0 : forall n, 0 <= n -> (ucoord (n • g) = (0)%F <-> (2 * l | n)).
Proof.
  intros n Hn. rewrite (u_zero _ (n_on n)), <- mul_add by assumption. rewrite mul_none by lia. split; intros [q Hq]; exists q; lia.
Qed.
Lemma mul_same : forall m n, 0 <= m -> 0 <= n -> (ucoord (m • g) = ucoord (n • g) <-> line_same l m n).
Proof.
  intros m n Hm Hn. pose proof l_pos. unfold line_same. rewrite (u_same _ _ (n_on m) (n_on n)), (mul_u0 m Hm), (mul_u0 n Hn), <- (sum_none _ _ (n_on m) (n_on n)), <- mul_add by assumption.
  rewrite mul_none by lia. rewrite (proj2 (proj2 Gn) m n Hm Hn), <- mod_div by lia. reflexivity.
Qed.
Lemma rem_mul : forall n, 0 <= n -> (n mod (4 * l)) • g = n • g.
Proof. intros n Hn. pose proof l_pos. apply (proj2 (proj2 Gn)); [apply Z.mod_pos_bound; lia|exact Hn|]. apply Z.mod_mod. lia. Qed.
Lemma same_rem : forall m n, line_same l (m mod (4 * l)) (n mod (4 * l)) <-> line_same l m n.
Proof.
  intros m n. pose proof l_pos as L. unfold line_same. pose proof (Z.div_mod m (4 * l) ltac:(lia)) as Em. pose proof (Z.div_mod n (4 * l) ltac:(lia)) as En.
  set (a := m mod (4 * l)) in *. set (b := n mod (4 * l)) in *. set (qm := m / (4 * l)) in *. set (qn := n / (4 * l)) in *. clearbody a b qm qn. subst m n.
  split; intros [[q K]|[[q K]|[[q K] [r M]]]].
  - left. exists (q + qm - qn). lia.
  - right. left. exists (q + qm + qn). lia.
  - right. right. split; [exists (q + 2 * qm); lia|exists (r + 2 * qn); lia].
  - left. exists (q - qm + qn). lia.
  - right. left. exists (q - qm - qn). lia.
  - right. right. split; [exists (q - 2 * qm); lia|exists (r - 2 * qn); lia].
Qed.
Lemma u_iff : forall m n, line_u e l g m = line_u e l g n <-> line_same l m n.
Proof. intros m n. pose proof l_pos. unfold line_u. rewrite mul_same by (apply Z.mod_pos_bound; lia). apply same_rem. Qed.
Theorem string_iff : forall m n, line_string e l g m = line_string e l g n <-> line_same l m n.
Proof. intros m n. rewrite <- u_iff. unfold line_string. split; [apply le_inj|intros ->; reflexivity]. Qed.
Lemma u_has : forall n, has e (line_u e l g n) .
Proof.
  intro n. unfold line_u. pose proof (n_on (n mod (4 * l))) as K. destruct ((n mod (4 * l)) • g) as [[u v]|]; [exists v; exact K|]. exists (0)%F. cbn [ucoord on_mont]. ring.
Qed.
Lemma u_zero_iff : forall n, line_u e l g n = (0)%F <-> (2 * l | n).
Proof.
  intro n. pose proof l_pos as L. assert (Z0 : line_u e l g 0 = (0)%F) by (unfold line_u; rewrite Z.mod_0_l by lia; reflexivity).
  rewrite <- Z0 at 1. rewrite u_iff. unfold line_same. split.
  - intros [[q K]|[[q K]|[K _]]]; [exists (2 * q); lia|exists (2 * q); lia|exact K].
  - intro K. right. right. split; [exact K|exists 0; reflexivity].
Qed.
Section Run.
Variable B : backend.
Hypothesis S : shipped B.
Theorem line_mul : forall b n s, bytes 56 b -> is_scalar s -> line_stands b e l g n -> mp_mul B b s = Ok (line_string e l g (n * (sval s + sval s mod 2))).
Proof.
  intros b n s Hb Hs St. pose proof l_pos as L. unfold line_stands in St. pose proof (lmult_nonneg s Hs) as LS. fold (lmult s). rewrite (out_ok B S s b Hs Hb), St.
  rewrite <- (of_Z_le (line_u e l g n)). rewrite <- (out_ok B S s _ Hs (le_bytes_bytes _ _)). unfold line_u. rewrite (mul_point B S e _ s ct (n_on _) Hs). unfold line_string, line_u.
  rewrite (mont_mul_assoc e ct) by (exact g_on || exact LS || (apply Z.mod_pos_bound; lia)). do 4 f_equal. apply (proj2 (proj2 Gn)).
  - apply Z.mul_nonneg_nonneg; [exact LS|]. apply Z.mod_pos_bound. lia.
  - apply Z.mod_pos_bound. lia.
  - rewrite Z.mod_mod by lia. rewrite Z.mul_mod_idemp_r by lia. rewrite Z.mul_comm. reflexivity.
Qed.
End Run.
Lemma line_all : forall b v, on (Some (of_Z (le_val b), v)) -> exists n, 0 <= n < 4 * l /\ line_stands b e l g n.
Proof.
  intros b v H. destruct (proj1 (proj2 Gn) _ H) as (n & Hn & E). exists n. split; [exact Hn|]. unfold line_stands, line_u. rewrite Z.mod_small by exact Hn. rewrite <- E. reflexivity.
Qed.
Lemma stands_string : forall n, line_stands (line_string e l g n) e l g n.
Proof. intro n. unfold line_stands, line_string. apply of_Z_le. Qed.
End Line.

Theorem every_string : forall g g', generates (1)%F ell g -> generates (- (1))%F ell_twist g' -> forall b,
  (exists n, 0 <= n < 4 * ell /\ line_stands b (1)%F ell g n) \/ (exists n, 0 <= n < 4 * ell_twist /\ line_stands b (- (1))%F ell_twist g' n).
Proof.
  intros g g' Hg Hg' b. destruct (mont_u_exists (of_Z (le_val b))) as (e & v & [->| ->] & H); [left|right].
  - exact (line_all _ _ _ Hg b v H).
  - exact (line_all _ _ _ Hg' b v H).
Qed.
Lemma o1 : line_order (1)%F ell. Proof. left. split; reflexivity. Qed.
Lemma o2 : line_order (- (1))%F ell_twist. Proof. right. split; reflexivity. Qed.
Theorem string_cross : forall g g', generates (1)%F ell g -> generates (- (1))%F ell_twist g' -> forall m n,
  line_string (1)%F ell g m = line_string (- (1))%F ell_twist g' n <-> (2 * ell | m) /\ (2 * ell_twist | n).
Proof.
  intros g g' Hg Hg' m n. rewrite <- (u_zero_iff _ _ _ o1 Hg m), <- (u_zero_iff _ _ _ o2 Hg' n). unfold line_string. split.
  - intro E. apply le_inj in E. assert (Z0 : line_u (1)%F ell g m = (0)%F) by (apply only_zero; [apply (u_has _ _ _ o1 Hg)|rewrite E; apply (u_has _ _ _ o2 Hg')]). split; [exact Z0|rewrite <- E; exact Z0].
  - intros [-> ->]. reflexivity.
Qed.
Lemma same_scale : forall l m n k, line_same l m n -> line_same l (k * m) (k * n).
Proof.
  intros l m n k [[q K]|[[q K]|[[q K] [r M]]]]; [left; exists (k * q)|right; left; exists (k * q)|right; right; split; [exists (k * q)|exists (k * r)]]; try nia.
  all: rewrite ?K, ?M; ring.
Qed.
Theorem same_function : forall B, shipped B -> forall s t, is_scalar s -> is_scalar t ->
  ((forall b, bytes 56 b -> mp_mul B b s = mp_mul B b t) <->
   line_same ell (sval s + sval s mod 2) (sval t + sval t mod 2) /\ line_same ell_twist (sval s + sval s mod 2) (sval t + sval t mod 2)).
Proof.
  intros B S s t Hs Ht. destruct (generators _ _ o1) as [g Hg]. destruct (generators _ _ o2) as [g' Hg']. split.
  - intro E. split.
    + pose proof (E _ (le_bytes_bytes 56 (fval (line_u (1)%F ell g 1)))) as K. fold (line_string (1)%F ell g 1) in K.
      rewrite !(line_mul _ _ _ o1 Hg B S _ 1) in K by (assumption || apply le_bytes_bytes || apply stands_string). apply ok_inj in K. apply (string_iff _ _ _ o1 Hg) in K. rewrite !Z.mul_1_l in K. exact K.
    + pose proof (E _ (le_bytes_bytes 56 (fval (line_u (- (1))%F ell_twist g' 1)))) as K. fold (line_string (- (1))%F ell_twist g' 1) in K.
      rewrite !(line_mul _ _ _ o2 Hg' B S _ 1) in K by (assumption || apply le_bytes_bytes || apply stands_string). apply ok_inj in K. apply (string_iff _ _ _ o2 Hg') in K. rewrite !Z.mul_1_l in K. exact K.
  - intros [K1 K2] b Hb. destruct (every_string g g' Hg Hg' b) as [(n & _ & St)|(n & _ & St)].
    + rewrite !(line_mul _ _ _ o1 Hg B S _ n) by assumption. f_equal. apply (string_iff _ _ _ o1 Hg). apply same_scale. exact K1.
    + rewrite !(line_mul _ _ _ o2 Hg' B S _ n) by assumption. f_equal. apply (string_iff _ _ _ o2 Hg'). apply same_scale. exact K2.
Qed.

(** ** Which scalars multiply every string alike *)
Theorem line_mul_equal : forall e l g, line_order e l -> generates e l g -> forall B, shipped B -> forall b b' n n' s s', bytes 56 b -> bytes 56 b' -> is_scalar s -> is_scalar s' ->
  line_stands b e l g n -> line_stands b' e l g n' ->
  (mp_mul B b s = mp_mul B b' s' <-> line_same l (n * (sval s + sval s mod 2)) (n' * (sval s' + sval s' mod 2))).
Proof.
  intros e l g O Gn B S b b' n n' s s' Hb Hb' Hs Hs' St St'. rewrite (line_mul e l g O Gn B S b n s Hb Hs St), (line_mul e l g O Gn B S b' n' s' Hb' Hs' St').
  rewrite <- (string_iff e l g O Gn). split; [apply ok_inj|intros ->; reflexivity].
Qed.
Lemma mult_half : forall x, x + x mod 2 = 2 * ((x + 1) / 2).
Proof.
  intro x. pose proof (Z.div_mod (x + 1) 2 ltac:(lia)). pose proof (Z.mod_pos_bound (x + 1) 2 ltac:(lia)). pose proof (Z.div_mod x 2 ltac:(lia)). pose proof (Z.mod_pos_bound x 2 ltac:(lia)). lia.
Qed.
Lemma same_small : forall l m n, 0 <= m < l -> 0 <= n < l -> (line_same l m n <-> m = n).
Proof.
  intros l m n Hm Hn. unfold line_same. split; [|intros ->; left; exists 0; lia]. intros [[q K]|[[q K]|[[q K] [r M]]]].
  - assert (q = 0) by nia. lia.
  - assert (q = 0) by nia. lia.
  - assert (q = 0) by nia. assert (r = 0) by nia. lia.
Qed.
Lemma reduced_mult : forall x, 0 <= x < ell -> 0 <= 2 * ((x + 1) / 2) < ell.
Proof.
  intros x Hx. rewrite <- mult_half. pose proof ell_mod2 as E2. pose proof (Z.div_mod ell 2 ltac:(lia)). pose proof (Z.div_mod x 2 ltac:(lia)). pose proof (Z.mod_pos_bound x 2 ltac:(lia)). lia.
Qed.
Theorem same_reduced : forall B, shipped B -> forall s t, is_scalar s -> is_scalar t -> sval s < ell -> sval t < ell ->
  ((forall b, bytes 56 b -> mp_mul B b s = mp_mul B b t) <-> (sval s + 1) / 2 = (sval t + 1) / 2).
Proof.
  intros B S s t Hs Ht Ls Lt. pose proof (scalar_range s Hs) as Rs. pose proof (scalar_range t Ht) as Rt. pose proof (reduced_mult (sval s) ltac:(lia)) as Ms. pose proof (reduced_mult (sval t) ltac:(lia)) as Mt.
  pose proof ell_twist_gt as ET. rewrite (same_function B S s t Hs Ht), !mult_half, !same_small by lia. lia.
Qed.
Theorem same_clamped : forall B, shipped B -> forall k k', bytes 56 k -> bytes 56 k' ->
  ((forall b, bytes 56 b -> mp_mul B b (scalar_from_bytes (clamp448 k)) = mp_mul B b (scalar_from_bytes (clamp448 k'))) <-> clamp448 k = clamp448 k').
Proof.
  intros B S k k' Hk Hk'. split; [|intros -> b _; reflexivity]. destruct (clamp_facts k Hk) as (Hc & D4 & R). destruct (clamp_facts k' Hk') as (Hc' & D4' & R').
  destruct (from_bytes_scalar _ Hc) as [Hs Vs]. destruct (from_bytes_scalar _ Hc') as [Hs' Vs']. intro E. apply (same_function B S _ _ Hs Hs') in E. rewrite Vs, Vs' in E.
  rewrite <- (clamp_string k Hk), <- (clamp_string k' Hk'). f_equal. set (c := le_val (clamp448 k)) in *. set (c' := le_val (clamp448 k')) in *. clearbody c c'.
  assert (EV : forall x, (4 | x) -> x + x mod 2 = x). { intros x [q ->]. replace (q * 4) with (q * 2 * 2) by ring. rewrite Z.mod_mul by lia. ring. }
  rewrite !EV in E by assumption. destruct E as [E1 E2]. pose proof ell_bounds as EB. pose proof ell_twist_bounds as TB. pose proof pows as PW. pose proof ell_mod2 as O1. pose proof ell_twist_mod2 as O2. pose proof orders as OR. Local Opaque Z.pow.
  unfold line_same in E1, E2. destruct E1 as [[q K]|[[q K]|[[q K] [r M]]]].
  - assert (q = 0) by nia. lia.
  - destruct E2 as [[q2 K2]|[[q2 K2]|[[q2 K2] _]]].
    + assert (q2 = 0) by nia. lia.
    + exfalso. assert (q = 2) by nia. assert (q2 = 1) by nia. pose proof (Z.div_mod ell_twist 2 ltac:(lia)). lia.
    + exfalso. assert (q2 = 1) by nia. destruct D4 as [w Hw]. pose proof (Z.div_mod ell_twist 2 ltac:(lia)). lia.
  - assert (q = 2) by nia. assert (r = 2) by nia. lia.
Qed.
Lemma n_scalar : forall n, 0 <= n < 10 -> is_scalar (digits 32 14 n) /\ sval (digits 32 14 n) = n.
Proof. intros n Hn. apply digits_scalar. assert (10 < 2 ^ 448) by reflexivity. lia. Qed.
Theorem line_case :
  (exists g n, generates (1)%F ell g /\ line_stands (le_bytes 56 5) (1)%F ell g n /\ ~ (2 * ell | n)) /\
  (exists g n, generates (- (1))%F ell_twist g /\ line_stands (le_bytes 56 6) (- (1))%F ell_twist g n /\ ~ (2 * ell_twist | n)) /\
  (forall n, 0 <= n < 10 -> is_scalar (digits 32 14 n) /\ sval (digits 32 14 n) = n) /\
  forall B, shipped B -> (forall b, bytes 56 b -> mp_mul B b (digits 32 14 1) = mp_mul B b (digits 32 14 2)) /\
    exists b, bytes 56 b /\ mp_mul B b (digits 32 14 2) <> mp_mul B b (digits 32 14 3).
Proof.
  split; [|split; [|split; [exact n_scalar|]]].
  - destruct (generators _ _ o1) as [g Hg]. destruct (line_all _ _ _ Hg (le_bytes 56 5) _ curve_point) as (n & _ & St). exists g, n. split; [exact Hg|]. split; [exact St|].
    intro D. apply (u_zero_iff _ _ _ o1 Hg) in D. unfold line_stands in St. rewrite D in St. apply of_Z_eq in St. revert St. vm_compute. discriminate.
  - destruct (generators _ _ o2) as [g Hg]. destruct (line_all _ _ _ Hg (le_bytes 56 6) _ twist_point) as (n & _ & St). exists g, n. split; [exact Hg|]. split; [exact St|].
    intro D. apply (u_zero_iff _ _ _ o2 Hg) in D. unfold line_stands in St. rewrite D in St. apply of_Z_eq in St. revert St. vm_compute. discriminate.
  - intros B S. destruct (n_scalar 1 ltac:(lia)) as [H1 V1]. destruct (n_scalar 2 ltac:(lia)) as [H2 V2]. destruct (n_scalar 3 ltac:(lia)) as [H3 V3]. assert (10 < ell) by reflexivity. split.
    + apply (same_reduced B S _ _ H1 H2); rewrite ?V1, ?V2; [lia|lia|reflexivity].
    + destruct (generators _ _ o1) as [g Hg]. exists (line_string (1)%F ell g 1). split; [apply le_bytes_bytes|]. intro E.
      apply (line_mul_equal _ _ _ o1 Hg B S _ _ 1 1) in E; try (assumption || apply le_bytes_bytes || apply stands_string). rewrite V2, V3 in E. change (line_same ell 2 4) in E.
      apply same_small in E; [discriminate|split; [discriminate|reflexivity]|split; [discriminate|reflexivity]].
Qed.

(** ** Several multiplications, and which strings one reaches *)
Theorem line_chain : forall e l g, line_order e l -> generates e l g -> forall B, shipped B -> forall r b n s, bytes 56 b -> is_scalar s -> Forall is_scalar r ->
  line_stands b e l g n -> chain B b (s :: r) = Ok (line_string e l g (n * even_product (s :: r))).
Proof.
  intros e l g O Gn B S. induction r as [|t r IH]; intros b n s Hb Hs Hr St.
  - cbn [chain]. unfold even_product. cbn [fold_right]. rewrite (line_mul e l g O Gn B S b n s Hb Hs St). cbn [bind]. f_equal. f_equal. ring.
  - change (chain B b (s :: t :: r)) with (bind (mp_mul B b s) (fun v => chain B v (t :: r))). rewrite (line_mul e l g O Gn B S b n s Hb Hs St). cbn [bind].
    rewrite (IH _ (n * (sval s + sval s mod 2)) t); [|apply le_bytes_bytes|inversion Hr; assumption|inversion Hr; assumption|apply stands_string].
    f_equal. f_equal. unfold even_product. cbn [fold_right]. ring.
Qed.
Lemma even_of : forall x, 0 <= x < 2 ^ 448 -> (2 | x) -> exists s, is_scalar s /\ sval s + sval s mod 2 = x.
Proof.
  intros x Hx [q Hq]. destruct (digits_scalar x Hx) as [Hs Vs]. exists (digits 32 14 x). split; [exact Hs|]. rewrite Vs, Hq.
  rewrite Z.mod_mul by lia. ring.
Qed.
Lemma two_l_small : forall e l, line_order e l -> 2 * l < 2 ^ 448.
Proof. intros e l [[_ ->]|[_ ->]]; reflexivity. Qed.
Lemma same_sym_mul : forall l n x y, 0 < l -> (4 * l | x - y) \/ (4 * l | x + y) -> line_same l (n * x) (n * y).
Proof.
  intros l n x y L [[q K]|[q K]]; [left|right; left]; exists (n * q).
  - transitivity (n * (x - y)); [ring|]. rewrite K. ring.
  - transitivity (n * (x + y)); [ring|]. rewrite K. ring.
Qed.
Lemma fold_sign : forall l x, 0 < l -> (2 | x) -> exists y, 0 <= y <= 2 * l /\ (2 | y) /\ ((4 * l | y - x) \/ (4 * l | y + x)).
Proof.
  intros l x L [q Hq]. pose proof (Z.div_mod x (4 * l) ltac:(lia)) as E. pose proof (Z.mod_pos_bound x (4 * l) ltac:(lia)) as R. set (r := x mod (4 * l)) in *. set (d := x / (4 * l)) in *. clearbody r d.
  destruct (Z_le_gt_dec r (2 * l)) as [K|K].
  - exists r. split; [lia|]. split; [exists (q - 2 * l * d); lia|]. left. exists (- d). lia.
  - exists (4 * l - r). split; [lia|]. split; [exists (2 * l - q + 2 * l * d); lia|]. right. exists (1 + d). lia.
Qed.
Theorem line_reach : forall e l g, line_order e l -> generates e l g -> forall B, shipped B -> forall b n n', bytes 56 b -> line_stands b e l g n ->
  ((exists s, is_scalar s /\ mp_mul B b s = Ok (line_string e l g n')) <-> exists m, line_same l (n * (2 * m)) n').
Proof.
  intros e l g O Gn B S b n n' Hb St. assert (L : 0 < l) by (destruct O as [[_ ->]|[_ ->]]; reflexivity). split.
  - intros (s & Hs & E). rewrite (line_mul e l g O Gn B S b n s Hb Hs St) in E. apply ok_inj in E. apply (string_iff e l g O Gn) in E. exists ((sval s + 1) / 2). rewrite <- mult_half. exact E.
  - intros [m K]. destruct (fold_sign l (2 * m) L ltac:(exists m; ring)) as (y & Ry & Dy & Sy). pose proof (two_l_small e l O) as TS. destruct (even_of y ltac:(lia) Dy) as (s & Hs & Vs).
    exists s. split; [exact Hs|]. rewrite (line_mul e l g O Gn B S b n s Hb Hs St), Vs. f_equal. transitivity (line_string e l g (n * (2 * m))); apply (string_iff e l g O Gn); [|exact K].
    apply same_sym_mul; assumption.
Qed.
