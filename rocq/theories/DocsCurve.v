(** Proofs for C77: how many points the twisted curve has, and what multiplications do to the cofactor. *)
Require Import ZArith Znumtheory List Bool Lia Ring Field.
From Verif Require Import Base BaseProofs SpecParams SpecField SpecCurve SpecEncoding SpecDecaf FieldTheory EdwardsTheory CurveTheory PhiHat EdSigns
  Primes TwistedProofs AbGroup Order GroupOrder MontOrder TwistedMain DecafTheory DecafGroup.
Import ListNotations.
Open Scope F_scope.
Local Opaque fadd fsub fmul fopp fdiv finv fpow of_Z padd pmul zmul pzero fsqrt G D T4 ell.
Local Notation "P ⊕ Q" := (padd tw_a tw_d P Q) (at level 50, left associativity).
Local Notation "n • P" := (pmul tw_a tw_d n P) (at level 40).
Local Notation N := (of_Z 0, - of_Z 1).

(** ** The twisted curve: adding one of the two points at infinity exchanges the affine points with 1 + x^2 a square, x <> 0, with the others. *)
Lemma nodup_app : forall (l1 l2 : list point), NoDup l1 -> NoDup l2 -> (forall x, In x l1 -> ~ In x l2) -> NoDup (l1 ++ l2).
Proof.
  induction 1 as [|x l1 Nx _ IH1]; intros N2 Dj; [exact N2|]. cbn. constructor.
  - intro I. apply in_app_iff in I. destruct I as [I|I]; [contradiction|]. apply (Dj x); [left; reflexivity|exact I].
  - apply IH1; [exact N2|]. intros z Hz. apply Dj. right. exact Hz.
Qed.
Lemma nodup_tail : forall (l1 l2 : list point), NoDup (l1 ++ l2) -> NoDup l2.
Proof. induction l1 as [|x l1 IH]; intros l2 H; [exact H|]. inversion H; subst. apply IH. assumption. Qed.
Section Count.
Variable e : F.
Hypothesis He : e * e = tw_d.
Definition tau (P : point) : point := let (x, y) := P in (1 / (e * y), - (1 / (e * x))).
Lemma e_nz : e <> 0.
Proof. intro E. apply nz_tw_d. rewrite <- He, E. ring. Qed.
Lemma tau_on : forall x y, on_tw (x, y) -> x <> 0 -> on_tw (tau (x, y)).
Proof.
  intros x y O NX. pose proof (tw_y_nz _ _ O) as NY. pose proof e_nz as NE. unfold on_tw, on_curve, tau in *. unfold tw_a in *.
  assert (K : tw_d * (x * x) * (y * y) = y * y - x * x - 1). { transitivity (- (1) * (x * x) + y * y - 1); [rewrite O; ring|ring]. }
  rewrite <- He in *.
  apply (fmul_cancel_l (e * e * (x * x) * (y * y))).
  { repeat apply fmul_nonzero; assumption. }
  transitivity (y * y - x * x); [field; auto|]. transitivity (e * e * (x * x) * (y * y) + 1); [rewrite K; ring|field; auto].
Qed.
Lemma tau_product : forall x y, on_tw (x, y) -> (1 + x * x) * (1 + 1 / (e * y) * (1 / (e * y))) = ed_d / (e * e).
Proof.
  intros x y O. pose proof (tw_y_nz _ _ O) as NY. pose proof e_nz as NE. apply tw_eq in O.
  transitivity ((tw_d * (y * y) + tw_d * x * x * y * y + 1 + x * x) / (e * e * (y * y))); [rewrite <- He; field; auto|].
  rewrite O, tw_d_eq. field. auto.
Qed.
Lemma tau_odd : forall x y, even_tw (x, y) -> ~ is_square (1 + fst (tau (x, y)) * fst (tau (x, y))).
Proof.
  intros x y [O Q] S. cbn [fst tau] in *. apply nsq_ed_d. pose proof (tau_product x y O) as T. pose proof e_nz as NE.
  replace ed_d with (ed_d / (e * e) * (e * e)) by (field; exact NE). rewrite <- T. apply square_mul; [apply square_mul; assumption|exists e; ring].
Qed.
Lemma tau_even : forall x y, on_tw (x, y) -> ~ is_square (1 + x * x) -> even_tw (tau (x, y)).
Proof.
  intros x y O Q. assert (NX : x <> 0). { intro E. apply Q. rewrite E. replace (1 + 0 * 0) with (1 : F) by ring. apply square_1. }
  split; [apply tau_on; assumption|]. cbn [fst tau]. pose proof (tau_product x y O) as T. pose proof e_nz as NE. pose proof (one_plus_sq_nz x) as N1.
  pose proof (nonsquare_neg _ Q) as S.
  apply square_mul_cancel with (- (1 + x * x)); [intro E; apply N1; apply fopp_0_iff; exact E|exact S|].
  replace ((1 + 1 / (e * y) * (1 / (e * y))) * - (1 + x * x)) with (- ((1 + x * x) * (1 + 1 / (e * y) * (1 / (e * y))))) by ring.
  rewrite T, ed_d_eq. replace (- (- of_Z 39081 / (e * e))) with (of_Z 39081 / (e * e)) by (field; exact NE).
  apply square_div; [exact sq_39081|exists e; ring].
Qed.
Lemma tau_tau : forall x y, x <> 0 -> y <> 0 -> tau (tau (x, y)) = (- x, - y).
Proof.
  intros x y NX NY. pose proof e_nz as NE. assert (M : - of_Z 1 <> 0) by (intro E; apply F_1_neq_0; apply fopp_0_iff; exact E).
  unfold tau. apply pt_eq; field; repeat split; auto using F_1_neq_0.
Qed.
Definition flip (P : point) : point := let (x, y) := P in (- x, - y).
Lemma even_flip : forall P, even_tw P -> even_tw (flip P). Proof. intros [x y] H. apply even_torque. exact H. Qed.
Lemma flip_eq : forall P, flip P = P ⊕ N. Proof. intros [x y]. rewrite padd_N. reflexivity. Qed.
Lemma flip_class : forall P, even_tw P -> same_class P (flip P).
Proof. intros P H. apply class_sym; [apply even_flip; exact H|exact H|]. right. rewrite flip_eq. reflexivity. Qed.
Lemma flip_neq : forall P, on_tw P -> P <> flip P.
Proof. intros [x y] O E. apply (tw_y_nz _ _ O). apply self_opp_0. exact (pair_snd _ _ _ _ E). Qed.
Definition pair_of (k : nat) : list point := [Z.of_nat k • D; flip (Z.of_nat k • D)].
Lemma in_pair : forall k P, In P (pair_of k) -> even_tw P /\ same_class P (Z.of_nat k • D).
Proof.
  intros k P [<-|[<-|[]]].
  - split; [apply even_pmul; exact even_D|apply class_refl].
  - pose proof (even_pmul (Z.of_nat k) D even_D) as H. split; [apply even_flip; exact H|]. apply class_sym; [exact H|apply even_flip; exact H|apply flip_class; exact H].
Qed.
Lemma nodup_pairs : forall l, (forall k, In k l -> (Z.of_nat k < ell)%Z) -> NoDup l -> NoDup (flat_map pair_of l).
Proof.
  intros l. induction l as [|k l IH]; intros B H; [constructor|]. inversion H as [|? ? Nk Nl]; subst.
  assert (O : even_tw (Z.of_nat k • D)) by (apply even_pmul; exact even_D).
  assert (Dj : forall P, In P (pair_of k) -> ~ In P (flat_map pair_of l)).
  { intros P HP I. apply in_flat_map in I. destruct I as (j & Hj & I). destruct (in_pair _ _ HP) as [E1 C1]. destruct (in_pair _ _ I) as [_ C2].
    assert (C : same_class (Z.of_nat k • D) (Z.of_nat j • D)).
    { apply (class_trans _ P); [exact O|exact E1|apply even_pmul; exact even_D| |exact C2]. apply class_sym; [exact E1|exact O|exact C1]. }
    apply class_D_inj in C; [|split; [lia|apply B; left; reflexivity]|split; [lia|apply B; right; exact Hj]]. apply Nk. replace k with j by lia. exact Hj. }
  cbn [flat_map]. unfold pair_of at 1. cbn [app]. constructor; [|constructor].
  - intros [E|I]; [exact (flip_neq _ (proj1 O) (eq_sym E))|]. exact (Dj _ (or_introl eq_refl) I).
  - intro I. exact (Dj _ (or_intror (or_introl eq_refl)) I).
  - apply IH; [|exact Nl]. intros j Hj. apply B. right. exact Hj.
Qed.
Lemma pairs_all : forall n, Z.of_nat n = ell -> forall P, even_tw P -> In P (flat_map pair_of (seq 0 n)).
Proof.
  intros n Hn P H. destruct (class_gen P H) as (k & Hk & C). apply in_flat_map. exists (Z.to_nat k). split; [apply in_seq; lia|].
  unfold pair_of. rewrite Z2Nat.id by lia. destruct C as [->|E]; [left; reflexivity|right; left]. rewrite flip_eq. symmetry. exact E.
Qed.
Lemma pairs_length : forall l, length (flat_map pair_of l) = (2 * length l)%nat.
Proof. induction l as [|k l IH]; [reflexivity|]. cbn [flat_map]. rewrite app_length, IH. cbn. lia. Qed.
Lemma pair_x : forall k x y, (0 < Z.of_nat k < ell)%Z -> In (x, y) (pair_of k) -> x <> 0.
Proof.
  intros k x y Hk I E. destruct (in_pair _ _ I) as [H C]. rewrite E in *.
  assert (C0 : same_class (0, y) (0%Z • D)). { rewrite pmul_0. destruct (x0_even y H) as [X|X]; [left; exact X|right]. rewrite padd_0_l. exact X. }
  assert (C1 : same_class (Z.of_nat k • D) (0%Z • D)).
  { apply (class_trans _ (0, y)); [apply even_pmul; exact even_D|exact H|apply even_pmul; exact even_D| |exact C0]. apply class_sym; [exact H|apply even_pmul; exact even_D|exact C]. }
  apply class_D_inj in C1; lia.
Qed.
Lemma tau_inj : forall P Q, on_tw P -> on_tw Q -> fst P <> 0 -> fst Q <> 0 -> tau P = tau Q -> P = Q.
Proof.
  intros [x y] [x' y'] O O' NX NX' E. cbn [fst] in *. pose proof (tw_y_nz _ _ O). pose proof (tw_y_nz _ _ O'). apply (f_equal tau) in E. rewrite !tau_tau in E by assumption.
  apply pt_eq; [apply pair_fst in E|apply pair_snd in E]; [transitivity (- - x); [ring|rewrite E; ring]|transitivity (- - y); [ring|rewrite E; ring]].
Qed.
Theorem count_with : exists L : list point, NoDup L /\ (forall P, In P L <-> on_tw P) /\ Z.of_nat (length L) = (4 * ell - 2)%Z.
Proof.
  pose proof ell_pos' as EP. assert (exists n, Z.of_nat n = ell) as [n Hn] by (exists (Z.to_nat ell); apply Z2Nat.id; lia).
  destruct n as [|n]; [lia|]. set (L0 := flat_map pair_of (seq 1 n)).
  assert (ND : NoDup (pair_of 0 ++ L0)) by (apply (nodup_pairs (seq 0 (S n))); [intros k Hk; apply in_seq in Hk; lia|apply seq_NoDup]).
  assert (AL : forall P, even_tw P <-> In P (pair_of 0 ++ L0)).
  { intro P. split; [exact (pairs_all (S n) Hn P)|]. intro I. change (In P (flat_map pair_of (seq 0 (S n)))) in I. apply in_flat_map in I. destruct I as (k & _ & I). exact (proj1 (in_pair _ _ I)). }
  assert (X0 : forall P, In P L0 -> even_tw P /\ fst P <> 0).
  { intros [x y] I. unfold L0 in I. apply in_flat_map in I. destruct I as (k & Hk & I). apply in_seq in Hk. split; [exact (proj1 (in_pair _ _ I))|exact (pair_x k x y ltac:(lia) I)]. }
  assert (Y0 : forall P, In P (pair_of 0) -> fst P = 0).
  { intros P [<-|[<-|[]]]; change (Z.of_nat 0) with 0%Z; rewrite pmul_0, ?zero_pair; [reflexivity|]. cbn [flip fst]. ring. }
  exists ((pair_of 0 ++ L0) ++ map tau L0). split; [|split].
  - apply nodup_app; [exact ND| |].
    + assert (K : NoDup L0) by exact (nodup_tail _ _ ND). clear ND AL. induction K as [|P l NP _ IH]; [constructor|]. cbn [map]. constructor.
      * intro I. apply in_map_iff in I. destruct I as (Q & E & I). apply NP. destruct (X0 P (or_introl eq_refl)) as [[O _] NX]. destruct (X0 Q (or_intror I)) as [[O' _] NX'].
        rewrite <- (tau_inj Q P O' O NX' NX E). exact I.
      * apply IH. intros Q I. apply X0. right. exact I.
    + intros P I J. apply AL in I. apply in_map_iff in J. destruct J as ([x y] & <- & J). destruct (X0 _ J) as [O _]. exact (tau_odd x y O (proj2 I)).
  - intro P. rewrite in_app_iff, <- AL. split.
    + intros [[O _]|I]; [exact O|]. apply in_map_iff in I. destruct I as ([x y] & <- & I). destruct (X0 _ I) as [[O _] NX]. apply tau_on; assumption.
    + intro O. destruct P as [x y]. destruct (square_dec (1 + x * x)) as [Q|Q]; [left; split; assumption|right].
      assert (NX : x <> 0). { intro E. apply Q. rewrite E. replace (1 + 0 * 0) with (1 : F) by ring. apply square_1. }
      pose proof (tw_y_nz _ _ O) as NY. pose proof (tau_even x y O Q) as T. apply even_flip in T. apply in_map_iff. exists (flip (tau (x, y))). pose proof e_nz as NE. split.
      * assert (M : - of_Z 1 <> 0) by (intro Z; apply F_1_neq_0; apply fopp_0_iff; exact Z). unfold flip, tau. apply pt_eq; field; repeat split; auto using F_1_neq_0.
      * apply AL in T. apply in_app_iff in T. destruct T as [T|T]; [|exact T]. exfalso. apply Y0 in T. cbn [flip tau fst] in T. apply F_1_neq_0.
        transitivity (- (- (1 / (e * y))) * (e * y)); [field; auto|]. rewrite T. ring.
  - rewrite !app_length, map_length. unfold L0. rewrite pairs_length, seq_length. cbn [pair_of length]. lia.
Qed.
End Count.
Theorem tw_count : exists L : list point, NoDup L /\ (forall P, In P L <-> on_tw P) /\ Z.of_nat (length L) = (4 * ell - 2)%Z.
Proof. destruct sq_m39082 as (e & E). exact (count_with e E). Qed.
Theorem even_count : exists L : list point, NoDup L /\ (forall P, In P L <-> even_tw P) /\ Z.of_nat (length L) = (2 * ell)%Z.
Proof.
  pose proof ell_pos' as EP. assert (exists n, Z.of_nat n = ell) as [n Hn] by (exists (Z.to_nat ell); apply Z2Nat.id; lia).
  exists (flat_map pair_of (seq 0 n)). split; [|split].
  - apply nodup_pairs; [intros k Hk; apply in_seq in Hk; lia|apply seq_NoDup].
  - intro P. split; [|apply pairs_all; exact Hn]. intro I. apply in_flat_map in I. destruct I as (k & _ & I). exact (proj1 (in_pair _ _ I)).
  - rewrite pairs_length, seq_length. lia.
Qed.
