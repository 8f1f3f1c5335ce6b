(** Proofs for C91: which coordinates a Montgomery multiplication sends to one result, and how many results there are. *)
Require Import ZArith Znumtheory List Bool Lia Ring Field Permutation.
From Verif Require Import Base BaseProofs SpecParams SpecField SpecCurve SpecEncoding SpecMontgomery SpecTwist SpecCount SpecFibre FieldTheory EdwardsTheory CurveTheory EdwardsProofs EdwardsMain ScalarProofs2
  AbGroup Order GroupOrder EdStructure Primes FieldBackend Backends FieldMain ScalarModel ScalarProofs ScalarMain MontTheory Ladder LadderMont MontCurves MontgomeryModel MontgomeryMain TwistPrime MontOrder
  Rfc8032Main Signature SignatureMain ApiExpr ExponentMain TwistMain FibreTheory CountStrings CountTotals.
Import ListNotations.
Open Scope F_scope.
Local Opaque fadd fsub fmul fopp fdiv finv fpow of_Z zmul padd psi ell ell_twist p Gx Gy pzero mont_mul le_bytes.

(** ** Both curves *)
Local Notation "n •[ e ] P" := (mont_mul mont_A e n P) (at level 40).
Lemma opp_eq : forall x y : F, - x = - y <-> x = y.
Proof. intros x y. split; intro E; [|rewrite E; reflexivity]. transitivity (- - x); [ring|]. rewrite E. ring. Qed.
Lemma opp_mul : forall x y : F, - x * - y = x * y. Proof. intros. ring. Qed.

Lemma two_iff : forall e l, order_of e l -> forall P P' n, on_mont mont_A e P -> on_mont mont_A e P' -> (0 <= n)%Z -> (n mod 4 = 2)%Z -> ~ (l | n)%Z ->
  ucoord (2 •[e] P) <> 0 -> ucoord (2 •[e] P') <> 0 -> (ucoord (n •[e] P) = ucoord (n •[e] P') <-> u_pair (ucoord P) (ucoord P')).
Proof.
  unfold u_pair. intros e l [[-> ->]|[-> ->]] P P' n HP HP' Hn Dn Nl H H'.
  - destruct curve_known as (c & P0 & HA & Nc & H0 & Hh & Hl).
    exact (k_two mont_A c _ HA Nc nsq_A2 (dcc _ _ Nc) ell P0 prime_ell ell_mod2 ell_large H0 Hh Hl P P' n HP HP' Hn Dn Nl H H').
  - destruct twist_known as (c & P0 & HA & Nc & H0 & Hh & Hl).
    pose proof (k_two (- mont_A) c _ HA Nc nsq_mA2 (dcc _ _ Nc) ell_twist P0 prime_ell_twist ell_twist_mod2 ell_twist_large H0 Hh Hl (flip P) (flip P') n
      (flip_on _ _ HP) (flip_on _ _ HP') Hn Dn Nl) as K.
    rewrite <- !flip_mul, !flip_ucoord, !fopp_0_iff, !opp_eq, opp_mul in K. exact (K H H').
Qed.
Lemma four_iff : forall e l, order_of e l -> forall P P' n, on_mont mont_A e P -> on_mont mont_A e P' -> (0 <= n)%Z -> (4 | n)%Z -> ~ (l | n)%Z ->
  ucoord (2 •[e] P) <> 0 -> ucoord (2 •[e] P') <> 0 -> (ucoord (n •[e] P) = ucoord (n •[e] P') <-> u_pair (ucoord (2 •[e] P)) (ucoord (2 •[e] P'))).
Proof.
  unfold u_pair. intros e l [[-> ->]|[-> ->]] P P' n HP HP' Hn Dn Nl H H'.
  - destruct curve_known as (c & P0 & HA & Nc & H0 & Hh & Hl).
    exact (k_four mont_A c _ HA Nc nsq_A2 (dcc _ _ Nc) ell P0 prime_ell ell_mod2 ell_large H0 Hh Hl P P' n HP HP' Hn Dn Nl H H').
  - destruct twist_known as (c & P0 & HA & Nc & H0 & Hh & Hl).
    pose proof (k_four (- mont_A) c _ HA Nc nsq_mA2 (dcc _ _ Nc) ell_twist P0 prime_ell_twist ell_twist_mod2 ell_twist_large H0 Hh Hl (flip P) (flip P') n
      (flip_on _ _ HP) (flip_on _ _ HP') Hn Dn Nl) as K.
    rewrite <- !flip_mul, !flip_ucoord, !fopp_0_iff, !opp_eq, opp_mul in K. exact (K H H').
Qed.
Lemma partner : forall e, curve_or_twist e -> forall P, on_mont mont_A e P -> ucoord (2 •[e] P) <> 0 ->
  exists P', on_mont mont_A e P' /\ ucoord (2 •[e] P') <> 0 /\ ucoord (2 •[e] P) * ucoord (2 •[e] P') = 1.
Proof.
  intros e [-> | ->] P HP H.
  - destruct curve_known as (c & P0 & HA & Nc & _). exact (k_partner mont_A c _ HA Nc nsq_A2 (dcc _ _ Nc) P HP H).
  - destruct twist_known as (c & P0 & HA & Nc & _).
    destruct (k_partner (- mont_A) c _ HA Nc nsq_mA2 (dcc _ _ Nc) (flip P) (flip_on _ _ HP)) as (P' & HP' & H' & E).
    + rewrite <- flip_mul, flip_ucoord, fopp_0_iff. exact H.
    + exists (flip P'). assert (F' : P' = flip (flip P')) by (symmetry; apply flip_flip). rewrite F' in HP', H', E.
      rewrite <- flip_mul, flip_ucoord, fopp_0_iff in H'. rewrite <- !flip_mul, !flip_ucoord, opp_mul in E.
      split; [apply flip_on'; exact HP'|]. split; [exact H'|exact E].
Qed.

(** ** Coordinates *)
Definition has (e u : F) : Prop := exists v, on_mont mont_A e (Some (u, v)).
Definition high (u : F) : Prop := u_double u <> 0.
Lemma order_ct : forall e l, order_of e l -> curve_or_twist e.
Proof. intros e l [[-> _]|[-> _]]; [left|right]; reflexivity. Qed.
Lemma has_some : forall u, exists e l, order_of e l /\ has e u.
Proof.
  intro u. destruct (mont_u_exists u) as (e & v & [->| ->] & H).
  - exists 1, ell. split; [left; split; reflexivity|exists v; exact H].
  - exists (- (1)), ell_twist. split; [right; split; reflexivity|exists v; exact H].
Qed.
Lemma dbl : forall e u v, curve_or_twist e -> on_mont mont_A e (Some (u, v)) -> ucoord (2 •[e] Some (u, v)) = u_double u.
Proof. intros e u v He H. rewrite (ucoord_dbl e He _ H ltac:(discriminate)). reflexivity. Qed.
Lemma high_iff : forall u, high u <-> u <> 0 /\ u <> 1 /\ u <> - (1).
Proof. intro u. unfold high. change (u_double u) with (udbl u). rewrite udbl_0. tauto. Qed.
Lemma only_zero : forall u, has 1 u -> has (- (1)) u -> u = 0.
Proof.
  intros u [v H] [w H']. cbn [on_mont] in H, H'. assert (E : v * v + w * w = 0).
  { transitivity (1 * (v * v) - - (1) * (w * w)); [ring|]. rewrite H, H'. ring. }
  assert (V : v = 0).
  { destruct (F_eq_dec w 0) as [W|W].
    - apply fsq_0. transitivity (v * v + w * w); [rewrite W; ring|exact E].
    - exfalso. apply neg1_nonsquare. exists (v / w). apply (fmul_cancel_l (w * w)); [apply fmul_nonzero; exact W|].
      transitivity (v * v); [field; exact W|]. transitivity (v * v - (v * v + w * w)); [rewrite E; ring|ring]. }
  rewrite V in H. assert (Q : u * (u * u + mont_A * u + 1) = 0).
  { transitivity (u * u * u + mont_A * (u * u) + u); [ring|]. rewrite <- H. ring. }
  apply fmul_integral in Q. destruct Q as [Q|Q]; [exact Q|exfalso; exact (quad_A _ Q)].
Qed.
Lemma same_curve : forall e l e' l' u, order_of e l -> order_of e' l' -> has e u -> has e' u -> u <> 0 -> e = e' /\ l = l'.
Proof.
  intros e l e' l' u [[-> ->]|[-> ->]] [[-> ->]|[-> ->]] H H' N; try (split; reflexivity); exfalso; apply N; apply only_zero; assumption.
Qed.
Lemma has_mul : forall e n P, curve_or_twist e -> on_mont mont_A e P -> ucoord (n •[e] P) <> 0 -> has e (ucoord (n •[e] P)).
Proof.
  intros e n P He H N. pose proof (mont_mul_on e He n P H) as O. destruct (n •[e] P) as [[a b]|]; [exists b; exact O|exfalso; apply N; reflexivity].
Qed.
Lemma has_inv : forall e u w, has e u -> u * w = 1 -> has e w.
Proof.
  intros e u w [v H] E. assert (N : u <> 0) by (intro K; apply F_1_neq_0; rewrite <- E, K; ring).
  exists (v * (w * w)). cbn [on_mont] in *.
  transitivity (e * (v * v) * (w * w) * (w * w)); [ring|]. rewrite H.
  transitivity ((u * w) * (u * w) * (u * w) * w + mont_A * ((u * w) * (u * w) * (w * w)) + (u * w) * (w * w * w)); [ring|]. rewrite E. ring.
Qed.
Lemma high_dbl : forall u w, u_double u <> 0 -> u_double w = u_double u -> high w.
Proof. intros u w N E. unfold high. rewrite E. exact N. Qed.
Lemma inv_high : forall u w, high u -> u * w = 1 -> high w.
Proof.
  intros u w H E. apply high_iff. apply high_iff in H. destruct H as (H0 & H1 & H2). repeat split; intro K; rewrite K in E.
  - apply F_1_neq_0. rewrite <- E. ring.
  - apply H1. rewrite <- E. ring.
  - apply H2. rewrite <- E. ring.
Qed.
Lemma has_double : forall e u, curve_or_twist e -> has e u -> high u -> has e (u_double u).
Proof. intros e u He [v H] N. rewrite <- (dbl e u v He H). apply has_mul; [exact He|exact H|]. rewrite (dbl e u v He H). exact N. Qed.
Lemma small_l : forall e l n, order_of e l -> (0 < n < 5)%Z -> ~ (l | n)%Z.
Proof.
  assert (K : (5 < ell)%Z /\ (5 < ell_twist)%Z) by (split; reflexivity). intros e l n O Hn D. apply Z.divide_pos_le in D; [|lia]. destruct O as [[_ ->]|[_ ->]]; lia.
Qed.
(** Doubling is two to one. *)
Lemma dbl_eq : forall u w, high u -> (u_double w = u_double u <-> u_pair u w).
Proof.
  intros u w Hu. destruct (has_some u) as (e & l & O & Hh). destruct (has_some w) as (e' & l' & O' & Hh').
  pose proof (order_ct _ _ O) as He. pose proof (order_ct _ _ O') as He'.
  assert (K : forall v v', on_mont mont_A e (Some (u, v)) -> on_mont mont_A e (Some (w, v')) -> high w -> (u_double u = u_double w <-> u_pair u w)).
  { intros v v' H H' Hw. pose proof (two_iff e l O _ _ 2 H H' ltac:(lia) eq_refl (small_l e l 2 O ltac:(lia))) as T.
    rewrite (dbl e u v He H), (dbl e w v' He H') in T. exact (T Hu Hw). }
  split.
  - intro E. assert (Hw : high w) by (exact (high_dbl u w Hu E)).
    assert (e = e' /\ l = l') as [<- <-]. { apply (same_curve e l e' l' (u_double u)); try assumption; [apply has_double; assumption|]. rewrite <- E. apply has_double; assumption. }
    destruct Hh as [v H], Hh' as [v' H']. apply (K v v' H H' Hw). symmetry. exact E.
  - intros [->|E]; [reflexivity|]. assert (Hw : high w) by (exact (inv_high u w Hu E)). pose proof (has_inv e u w Hh E) as Hw'.
    destruct Hh as [v H], Hw' as [v' H']. symmetry. apply (K v v' H H' Hw). right. exact E.
Qed.
Lemma double_high : forall u, high u -> high (u_double u).
Proof.
  intros u Hu. destruct (has_some u) as (e & l & O & v & H). pose proof (order_ct _ _ O) as He.
  pose proof (has_double e u He (ex_intro _ v H) Hu) as [v2 H2]. unfold high. rewrite <- (dbl e _ v2 He H2).
  pose proof (mont_mul_on e He 2 _ H) as O2. pose proof (dbl e u v He H) as D. destruct (2 •[e] Some (u, v)) as [[a b]|] eqn:E2; [|exfalso; apply Hu; symmetry; exact D].
  cbn [ucoord] in D. assert (Q : ucoord (2 •[e] Some (u_double u, v2)) = ucoord (2 •[e] Some (a, b))) by (rewrite (dbl e _ v2 He H2), (dbl e a b He O2), D; reflexivity).
  rewrite Q, <- E2, (mont_mul_assoc e He) by (lia || assumption). intro E. apply (zero_iff e l O) in E; [|exact H|lia|exists 2%Z; reflexivity].
  destruct E as [E|E]; [exact (small_l e l 4 O ltac:(lia) E)|]. rewrite (dbl e u v He H) in E. exact (Hu E).
Qed.
Lemma partner_u : forall u, high u -> exists w, high w /\ u_double u * u_double w = 1.
Proof.
  intros u Hu. destruct (has_some u) as (e & l & O & v & H). pose proof (order_ct _ _ O) as He.
  destruct (partner e He _ H) as (P' & HP' & H' & E); [rewrite (dbl e u v He H); exact Hu|].
  destruct P' as [[a b]|].
  - exists a. rewrite (dbl e a b He HP') in H', E. rewrite (dbl e u v He H) in E. split; [exact H'|exact E].
  - exfalso. apply H'. rewrite (u0_mul e He 2 None I eq_refl). reflexivity.
Qed.

(** The multiple by an even number. *)
Definition related (n : Z) (u w : F) : Prop := if (n mod 4 =? 0)%Z then u_pair (u_double u) (u_double w) else u_pair u w.
Lemma related_high : forall n u w, high u -> related n u w -> high w.
Proof.
  intros n u w Hu. unfold related, u_pair. destruct (n mod 4 =? 0)%Z; intros [E|E].
  - unfold high. rewrite <- E. exact Hu.
  - unfold high. intro K. apply F_1_neq_0. rewrite <- E, K. ring.
  - rewrite <- E. exact Hu.
  - exact (inv_high u w Hu E).
Qed.
Lemma related_has : forall n e l u w, order_of e l -> has e u -> high u -> related n u w -> has e w.
Proof.
  intros n e l u w O Hh Hu R. pose proof (related_high n u w Hu R) as Hw. unfold related, u_pair in R. pose proof (order_ct _ _ O) as He.
  destruct (n mod 4 =? 0)%Z.
  - destruct (has_some w) as (e' & l' & O' & Hw'). assert (D : has e (u_double w)).
    { destruct R as [E|E]; [rewrite <- E; apply has_double; assumption|]. apply (has_inv e (u_double u)); [apply has_double; assumption|exact E]. }
    assert (e = e' /\ l = l') as [-> _]; [|exact Hw']. apply (same_curve e l e' l' (u_double w)); try assumption. apply has_double; [exact (order_ct _ _ O')|exact Hw'|exact Hw].
  - destruct R as [<-|E]; [exact Hh|]. exact (has_inv e u w Hh E).
Qed.
Lemma mul_related : forall e l n u v w v', order_of e l -> on_mont mont_A e (Some (u, v)) -> on_mont mont_A e (Some (w, v')) -> (0 <= n)%Z -> (2 | n)%Z -> ~ (l | n)%Z ->
  high u -> high w -> (ucoord (n •[e] Some (u, v)) = ucoord (n •[e] Some (w, v')) <-> related n u w).
Proof.
  intros e l n u v w v' O H H' Hn [q Hq] Nl Hu Hw. unfold related. pose proof (order_ct _ _ O) as He.
  pose proof (two_iff e l O _ _ n H H' Hn) as T. pose proof (four_iff e l O _ _ n H H' Hn) as U.
  rewrite (dbl e u v He H), (dbl e w v' He H') in T, U. cbn [ucoord] in T.
  destruct (Z.eqb_spec (n mod 4) 0) as [E|E].
  - apply U; [apply Z.mod_divide; [lia|exact E]|exact Nl|exact Hu|exact Hw].
  - apply T; [|exact Nl|exact Hu|exact Hw]. pose proof (Z.div_mod n 4 ltac:(lia)). pose proof (Z.mod_pos_bound n 4 ltac:(lia)). lia.
Qed.

(** The coordinates related to one. *)
Lemma fibre : forall n u, high u -> exists L : list F, NoDup L /\ Z.of_nat (length L) = (if (n mod 4 =? 0)%Z then 4 else 2)%Z /\ forall w, In w L <-> related n u w.
Proof.
  intros n u Hu. assert (I : forall a, high a -> exists b, a * b = 1 /\ a <> b /\ (forall w, a * w = 1 -> w = b)).
  { intros a Ha. apply high_iff in Ha. destruct Ha as (A0 & A1 & A2). exists (1 / a). assert (M : a * (1 / a) = 1) by (field; exact A0). split; [exact M|]. split.
    - intro E. rewrite <- E in M. assert (K : a * a = 1 * 1) by (rewrite M; ring). apply fsq_eq in K. destruct K as [K|K]; contradiction.
    - intros w E. apply (fmul_cancel_l a); [exact A0|]. rewrite E, M. reflexivity. }
  destruct (I u Hu) as (u' & M & N & Un). unfold related. destruct (n mod 4 =? 0)%Z.
  - destruct (partner_u u Hu) as (w & Hw & E). destruct (I w Hw) as (w' & M' & N' & Un').
    assert (DN : u_double u <> u_double w).
    { intro K. rewrite <- K in E. pose proof (double_high u Hu) as Q. apply high_iff in Q. destruct Q as (_ & Q1 & Q2).
      assert (S : u_double u * u_double u = 1 * 1) by (rewrite E; ring). apply fsq_eq in S. destruct S; contradiction. }
    assert (Du : u_double u' = u_double u) by (apply dbl_eq; [exact Hu|right; exact M]).
    assert (Dw : u_double w' = u_double w) by (apply dbl_eq; [exact Hw|right; exact M']).
    exists [u; u'; w; w']. split; [|split; [reflexivity|]].
    + repeat constructor; cbn [In].
      * intros [K|[K|[K|[]]]]; [apply N; symmetry; exact K|apply DN; rewrite K; reflexivity|apply DN; rewrite <- Dw, K; reflexivity].
      * intros [K|[K|[]]]; [apply DN; rewrite <- Du, K; reflexivity|apply DN; rewrite <- Du, <- Dw, K; reflexivity].
      * intros [K|[]]. apply N'. symmetry. exact K.
      * intros [].
    + intro x. unfold u_pair. assert (X1 : u_double u = u_double x <-> u = x \/ u' = x).
      { split.
        - intro K. symmetry in K. apply (dbl_eq u x Hu) in K. destruct K as [K|K]; [left; exact K|right; symmetry; apply Un; exact K].
        - intros [<-|<-]; [reflexivity|symmetry; exact Du]. }
      assert (X2 : u_double u * u_double x = 1 <-> w = x \/ w' = x).
      { transitivity (u_double x = u_double w).
        - split; intro K; [|rewrite K; exact E]. apply (fmul_cancel_l (u_double u)); [exact Hu|]. rewrite K, E. reflexivity.
        - split.
          + intro K. apply (dbl_eq w x Hw) in K. destruct K as [K|K]; [left; exact K|right; symmetry; apply Un'; exact K].
          + intros [<-|<-]; [reflexivity|exact Dw]. }
      rewrite X1, X2. cbn [In]. clear. split; [intros [K|[K|[K|[K|[]]]]]; auto|intros [[K|K]|[K|K]]; auto].
  - exists [u; u']. split; [|split; [reflexivity|]].
    + repeat constructor; cbn [In]; [intros [K|[]]; apply N; symmetry; exact K|intros []].
    + intro x. unfold u_pair. cbn [In]. split; [intros [K|[K|[]]]; [left; exact K|right; rewrite <- K; exact M]|].
      intros [K|K]; [left; exact K|right; left; symmetry; apply Un; exact K].
Qed.

(** ** Counting *)
Lemma image_count : forall (X Y : Type) (dec : forall a b : Y, {a = b} + {a <> b}) (f : X -> Y) (g : nat) (L : list X), NoDup L ->
  (forall x, In x L -> exists K, NoDup K /\ length K = g /\ forall y, In y K <-> In y L /\ f y = f x) ->
  exists I, NoDup I /\ (length I * g = length L)%nat /\ forall z, In z I <-> exists x, In x L /\ f x = z.
Proof.
  intros X Y dec f g L. remember (length L) as n eqn:En. assert (Le : (length L <= n)%nat) by lia. rewrite En. clear En. revert L Le. induction n as [|n IH]; intros L Le HN HK.
  - destruct L; [|cbn in Le; lia]. exists []. split; [constructor|]. split; [reflexivity|]. intro z. split; [intros []|intros (x & [] & _)].
  - destruct L as [|x L0] eqn:EL; [exists []; split; [constructor|]; split; [reflexivity|]; intro z; split; [intros []|intros (x & [] & _)]|]. rewrite <- EL in *.
    assert (Hx : In x L) by (rewrite EL; left; reflexivity). destruct (HK x Hx) as (K & NK & LK & MK).
    set (t := fun y => if dec (f y) (f x) then true else false). assert (Ht : forall y, t y = true <-> f y = f x) by (intro y; unfold t; destruct (dec (f y) (f x)); split; congruence).
    set (L' := filter (fun y => negb (t y)) L). assert (In' : forall y, In y L' <-> In y L /\ f y <> f x).
    { intro y. unfold L'. rewrite filter_In, negb_true_iff, <- not_true_iff_false, Ht. reflexivity. }
    assert (Len : (length K + length L' = length L)%nat).
    { unfold L'. rewrite <- (filter_split X t L). f_equal. apply same_length; [exact NK|apply NoDup_filter; exact HN|]. intro y. rewrite MK, filter_In, Ht. reflexivity. }
    assert (Kp : (0 < length K)%nat). { destruct K as [|k K']; [exfalso; exact (proj2 (MK x) (conj Hx eq_refl))|cbn; lia]. }
    destruct (IH L') as (I & NI & LI & MI); [lia|apply NoDup_filter; exact HN| |].
    + intros y Hy. apply In' in Hy. destruct Hy as [Hy Ny]. destruct (HK y Hy) as (Ky & N1 & L1 & M1). exists Ky. split; [exact N1|]. split; [exact L1|].
      intro z. rewrite M1, In'. split; [intros [Hz E]; split; [split; [exact Hz|rewrite E; exact Ny]|exact E]|intros [[Hz _] E]; split; assumption].
    + exists (f x :: I). split; [constructor; [|exact NI]|split].
      * rewrite MI. intros (y & Hy & E). apply In' in Hy. exact (proj2 Hy E).
      * cbn [length Nat.mul]. lia.
      * intro z. cbn [In]. rewrite MI. split.
        -- intros [<-|(y & Hy & E)]; [exists x; split; [exact Hx|reflexivity]|]. exists y. split; [exact (proj1 (proj1 (In' y) Hy))|exact E].
        -- intros (y & Hy & E). destruct (dec (f y) (f x)) as [Q|Q]; [left; congruence|right]. exists y. split; [apply In'; split; assumption|exact E].
Qed.

Lemma rhs_nz : forall u, u <> 0 -> rhs u <> 0.
Proof. intros u N. unfold rhs. replace (u * u * u + mont_A * (u * u) + u) with (u * (u * u + mont_A * u + 1)) by ring. apply fmul_nonzero; [exact N|apply quad_A]. Qed.
Lemma pts_len : forall e u, curve_or_twist e -> u <> 0 -> length (pts e u) = 0%nat \/ length (pts e u) = 2%nat.
Proof.
  intros e u He N. unfold pts. cbv zeta. destruct (feqb (e * rhs u) 0) eqn:E.
  - exfalso. apply feqb_eq in E. apply fmul_integral in E. destruct E as [E|E]; [|exact (rhs_nz u N E)].
    destruct He as [-> | ->]; [exact (F_1_neq_0 E)|]. apply F_1_neq_0. apply (proj1 (fopp_0_iff _)). exact E.
  - destruct (feqb (fsqrt (e * rhs u) * fsqrt (e * rhs u)) (e * rhs u)); [right|left]; reflexivity.
Qed.
Lemma pts_has : forall e u, curve_or_twist e -> (has e u <-> length (pts e u) <> 0%nat).
Proof.
  intros e u He. split.
  - intros [v H] E. apply length_zero_iff_nil in E. assert (I : In (Some (u, v)) (pts e u)) by (apply pts_in; [exact He|]; exists v; split; [reflexivity|exact H]).
    rewrite E in I. exact I.
  - intro N. destruct (pts e u) as [|P l] eqn:E; [exfalso; apply N; reflexivity|]. assert (I : In P (pts e u)) by (rewrite E; left; reflexivity).
    apply pts_in in I; [|exact He]. destruct I as (v & -> & H). exists v. exact H.
Qed.
Lemma pts_zero : forall e, length (pts e 0) = 1%nat.
Proof.
  intro e. unfold pts. cbv zeta. replace (e * rhs 0) with (0 : F) by (unfold rhs; ring). rewrite feqb_refl. reflexivity.
Qed.
Lemma opp_1_nz : - (1) <> (0 : F). Proof. intro E. apply F_1_neq_0. apply (proj1 (fopp_0_iff _)). exact E. Qed.
(** Of the points of order 4 one pair is on each curve. *)
Lemma pts_ones : forall e, curve_or_twist e -> (length (pts e 1) + length (pts e (- (1))) = 2)%nat.
Proof.
  assert (H1 : length (pts 1 1) = 0%nat).
  { destruct (pts_len 1 1 (or_introl eq_refl) F_1_neq_0) as [E|E]; [exact E|exfalso]. assert (K : has 1 1) by (apply pts_has; [left; reflexivity|lia]).
    destruct K as [v K]. apply nsq_A2. exists v. cbn [on_mont] in K. transitivity (1 * (v * v)); [ring|]. rewrite K. ring. }
  assert (H2 : length (pts 1 (- (1))) = 2%nat).
  { destruct (pts_len 1 (- (1)) (or_introl eq_refl) opp_1_nz) as [E|E]; [exfalso|exact E]. revert E. apply pts_has; [left; reflexivity|].
    destruct curve_c as (c & HA & _). exists c. cbn [on_mont]. rewrite HA. ring. }
  pose proof (pts_two 1) as T1. pose proof (pts_two (- (1))) as T2. intros e [-> | ->]; lia.
Qed.
Definition highb (u : F) : bool := negb (feqb (u_double u) 0).
Lemma highb_iff : forall u, highb u = true <-> high u.
Proof.
  intro u. unfold highb, high. destruct (feqb (u_double u) 0) eqn:E; cbn [negb].
  - apply feqb_eq in E. split; [discriminate|contradiction].
  - split; [|reflexivity]. intros _ K. apply feqb_eq in K. congruence.
Qed.
Definition hasb (e u : F) : bool := negb (Nat.eqb (length (pts e u)) 0).
Lemma hasb_iff : forall e u, curve_or_twist e -> (hasb e u = true <-> has e u).
Proof. intros e u He. unfold hasb. rewrite (pts_has e u He), negb_true_iff, Nat.eqb_neq. reflexivity. Qed.
Lemma high_count : forall e l, order_of e l -> exists L : list F, NoDup L /\ Z.of_nat (length L) = (2 * l - 2)%Z /\ forall u, In u L <-> has e u /\ high u.
Proof.
  intros e l O. pose proof (order_ct _ _ O) as He. pose proof p_pos as PP. assert (exists n, Z.of_nat n = p) as [n Hn] by (exists (Z.to_nat p); apply Z2Nat.id; lia).
  assert (C : Z.of_nat (length (all_pts e n)) = (4 * l)%Z) by (destruct O as [[-> ->]|[-> ->]]; [apply curve_count|apply twist_count]; exact Hn).
  pose proof (all_F_nodup n ltac:(lia)) as ND. pose proof (fun x => all_F_in n x Hn) as AI. unfold all_pts in C. cbn [length] in C.
  set (L := all_F n) in *. clearbody L. set (R := filter highb L).
  assert (Pm : Permutation L (0 :: 1 :: - (1) :: R)).
  { apply NoDup_Permutation; [exact ND| |].
    - assert (NR : forall x, In x R -> high x) by (intros x I; apply filter_In in I; apply highb_iff; exact (proj2 I)).
      assert (N1 : ~ In 0 R /\ ~ In 1 R /\ ~ In (- (1)) R) by (repeat split; intro I; apply NR, high_iff in I; destruct I as (I0 & I1 & I2); [apply I0|apply I1|apply I2]; reflexivity).
      destruct N1 as (N0 & N1 & N2). constructor; [|constructor; [|constructor; [exact N2|apply NoDup_filter; exact ND]]]; cbn [In].
      + intros [E|[E|E]]; [exact (F_1_neq_0 E)|exact (opp_1_nz E)|exact (N0 E)].
      + intros [E|E]; [|exact (N1 E)]. apply F_1_neq_0. apply fopp_eq_self. symmetry. exact E.
    - intro x. split; [intros _|intros _; apply AI]. cbn [In]. destruct (highb x) eqn:E; [right; right; right; apply filter_In; split; [apply AI|exact E]|].
      assert (N : ~ high x) by (rewrite <- highb_iff, E; discriminate). rewrite high_iff in N.
      destruct (F_eq_dec x 0) as [->|X0]; [left; reflexivity|]. destruct (F_eq_dec x 1) as [->|X1]; [right; left; reflexivity|].
      destruct (F_eq_dec x (- (1))) as [->|X2]; [right; right; left; reflexivity|]. exfalso. apply N. repeat split; assumption. }
  exists (filter (hasb e) R). split; [apply NoDup_filter; apply NoDup_filter; exact ND|]. split.
  - assert (Z2 : forall l0, (forall x, In x l0 -> high x) -> length (flat_map (pts e) l0) = (2 * length (filter (hasb e) l0))%nat).
    { induction l0 as [|a l0 IH]; intro HH; [reflexivity|]. cbn [flat_map filter]. rewrite app_length, IH by (intros x I; apply HH; right; exact I).
      unfold hasb at 2. assert (A0 : a <> 0) by (apply high_iff; apply HH; left; reflexivity).
      destruct (pts_len e a He A0) as [E|E]; rewrite E; cbn [Nat.eqb negb length]; lia. }
    pose proof (Permutation_length (Permutation_flat_map (pts e) Pm)) as Q. cbn [flat_map] in Q. rewrite !app_length in Q.
    rewrite (Z2 R) in Q by (intros x I; apply filter_In in I; apply highb_iff; exact (proj2 I)).
    pose proof (pts_zero e) as P0. pose proof (pts_ones e He) as P1. lia.
  - intro u. unfold R. rewrite !filter_In, (hasb_iff e u He), highb_iff. split; [tauto|]. intros [H1 H2]. repeat split; [apply AI|exact H2|exact H1].
Qed.

(** Canonical strings. *)
Lemma canon_list : forall (L : list F) (Q : F -> Prop), NoDup L -> (forall u, In u L <-> Q u) ->
  exactly (Z.of_nat (length L)) (fun b => bytes 56 b /\ (le_val b < p)%Z /\ Q (of_Z (le_val b))).
Proof.
  intros L Q HN HL. exists (map (fun u => le_bytes 56 (fval u)) L). split; [|split; [rewrite map_length; reflexivity|]].
  - apply nodup_map; [exact HN|]. intros x y _ _. apply le_inj.
  - intro b. rewrite in_map_iff. split.
    + intros (u & <- & Hu). split; [apply le_bytes_bytes|]. rewrite of_Z_le. split; [rewrite le_val_canon; apply fval_range|apply HL; exact Hu].
    + intros (Hb & Hp & Hq). exists (of_Z (le_val b)). split; [|apply HL; exact Hq]. pose proof (array_range 8 56 b ltac:(lia) Hb) as R. fold (le_val b) in R.
      rewrite fval_of_Z, Z.mod_small by lia. apply bytes_le_bytes. exact Hb.
Qed.

(** ** The multiplication *)
Section Main.
Variable B : backend.
Hypothesis S : shipped B.
Local Notation mult s := (sval s + sval s mod 2)%Z.

Definition out (s : scalar) (u : F) : F := match mp_mul B (le_bytes 56 (fval u)) s with Ok c => of_Z (le_val c) | Panic => 0 end.
Lemma out_val : forall s e u v, is_scalar s -> curve_or_twist e -> on_mont mont_A e (Some (u, v)) -> out s u = ucoord (mult s •[e] Some (u, v)).
Proof.
  intros s e u v Hs He H. unfold out. pose proof (mul_point B S e _ s He H Hs) as K. unfold lmult in K. change (ucoord (Some (u, v))) with u in K.
  rewrite K. apply of_Z_le.
Qed.
Lemma out_ok : forall s b, is_scalar s -> bytes 56 b -> mp_mul B b s = Ok (le_bytes 56 (fval (out s (of_Z (le_val b))))).
Proof.
  intros s b Hs Hb. destruct (mul_exact B S b s Hb Hs) as [(e & v & He & H) M]. rewrite (M e v He H). rewrite (out_val s e _ v Hs He H). reflexivity.
Qed.
Lemma out_zeros : forall s b, is_scalar s -> bytes 56 b -> (mp_mul B b s = Ok zeros <-> out s (of_Z (le_val b)) = 0).
Proof. intros s b Hs Hb. rewrite (out_ok s b Hs Hb). apply zero_out. Qed.
Lemma out_eq : forall s b b', is_scalar s -> bytes 56 b -> bytes 56 b' -> (mp_mul B b s = mp_mul B b' s <-> out s (of_Z (le_val b)) = out s (of_Z (le_val b'))).
Proof.
  intros s b b' Hs Hb Hb'. rewrite (out_ok s b Hs Hb), (out_ok s b' Hs Hb'). split; [intro E; apply ok_inj in E; apply le_inj; exact E|intros ->; reflexivity].
Qed.
Lemma out_nz : forall s e l u, is_scalar s -> order_of e l -> has e u -> (out s u <> 0 <-> high u /\ ~ (l | mult s)%Z).
Proof.
  intros s e l u Hs O [v H]. pose proof (order_ct _ _ O) as He. rewrite (out_val s e u v Hs He H).
  pose proof (zero_iff e l O _ (mult s) H (lmult_nonneg s Hs) (even_lmult s Hs)) as Z0. rewrite (dbl e u v He H) in Z0. rewrite Z0. unfold high. tauto.
Qed.
Lemma out_related : forall s u w, is_scalar s -> out s u <> 0 -> (out s w = out s u <-> related (mult s) u w).
Proof.
  intros s u w Hs N. destruct (has_some u) as (e & l & O & Hu). pose proof (proj1 (out_nz s e l u Hs O Hu) N) as [Hh Nl]. pose proof (order_ct _ _ O) as He.
  assert (K : has e w -> high w -> (out s u = out s w <-> related (mult s) u w)).
  { intros [v' H'] Hw. destruct Hu as [v H]. rewrite (out_val s e u v Hs He H), (out_val s e w v' Hs He H').
    exact (mul_related e l (mult s) u v w v' O H H' (lmult_nonneg s Hs) (even_lmult s Hs) Nl Hh Hw). }
  split.
  - intro E. destruct (has_some w) as (e' & l' & O' & Hw). assert (Nw : out s w <> 0) by (rewrite E; exact N).
    pose proof (proj1 (out_nz s e' l' w Hs O' Hw) Nw) as [Hh' _]. pose proof (order_ct _ _ O') as He'.
    assert (e = e' /\ l = l') as [<- <-].
    { apply (same_curve e l e' l' (out s u) O O'); [| |exact N].
      - destruct Hu as [v H]. rewrite (out_val s e u v Hs He H) in N |- *. apply has_mul; assumption.
      - rewrite <- E. destruct Hw as [v H]. rewrite (out_val s e' w v Hs He' H) in Nw |- *. apply has_mul; assumption. }
    apply K; [exact Hw|exact Hh'|symmetry; exact E].
  - intro R. symmetry. apply K; [exact (related_has _ e l u w O Hu Hh R)|exact (related_high _ u w Hh R)|exact R].
Qed.

Theorem mul_equal : forall s u u', is_scalar s -> bytes 56 u -> bytes 56 u' -> mp_mul B u s <> Ok zeros ->
  (mp_mul B u' s = mp_mul B u s <->
   if (mult s mod 4 =? 0)%Z then u_pair (u_double (of_Z (le_val u))) (u_double (of_Z (le_val u'))) else u_pair (of_Z (le_val u)) (of_Z (le_val u'))).
Proof.
  intros s u u' Hs Hu Hu' N. rewrite (out_eq s u' u Hs Hu' Hu). rewrite (out_zeros s u Hs Hu) in N. exact (out_related s _ _ Hs N).
Qed.
Theorem mul_fibre : forall s u, is_scalar s -> bytes 56 u -> mp_mul B u s <> Ok zeros ->
  exactly (if (mult s mod 4 =? 0)%Z then 4 else 2) (fun u' => bytes 56 u' /\ (le_val u' < p)%Z /\ mp_mul B u' s = mp_mul B u s).
Proof.
  intros s u Hs Hu N. rewrite (out_zeros s u Hs Hu) in N. destruct (has_some (of_Z (le_val u))) as (e & l & O & Hh).
  pose proof (proj1 (out_nz s e l _ Hs O Hh) N) as [Hg _]. destruct (fibre (mult s) _ Hg) as (L & NL & <- & ML).
  eapply exactly_ext; [|exact (canon_list L _ NL ML)]. intro b. cbv beta. split; intros (Hb & Hp & R); (split; [exact Hb|]; split; [exact Hp|]).
  - apply (out_eq s b u Hs Hb Hu). apply out_related; assumption.
  - apply (out_eq s b u Hs Hb Hu) in R. apply out_related; assumption.
Qed.

(** How many coordinates are not sent to zero. *)
Definition live (s : scalar) : Z := ((if (mult s mod ell =? 0)%Z then 0 else 2 * ell - 2) + (if (mult s mod ell_twist =? 0)%Z then 0 else 2 * ell_twist - 2))%Z.
Lemma mod_div : forall m l, (0 < l)%Z -> ((m mod l =? 0)%Z = true <-> (l | m)%Z).
Proof. intros m l Hl. rewrite Z.eqb_eq. apply Z.mod_divide. lia. Qed.
Lemma live_list : forall s, is_scalar s -> exists L : list F, NoDup L /\ Z.of_nat (length L) = live s /\ forall u, In u L <-> out s u <> 0.
Proof.
  intros s Hs. assert (O1 : order_of 1 ell) by (left; split; reflexivity). assert (O2 : order_of (- (1)) ell_twist) by (right; split; reflexivity).
  assert (Part : forall e l, order_of e l -> (0 < l)%Z -> exists L : list F, NoDup L /\ Z.of_nat (length L) = (if (mult s mod l =? 0)%Z then 0 else 2 * l - 2)%Z /\
    forall u, In u L <-> has e u /\ high u /\ ~ (l | mult s)%Z).
  { intros e l O Hl. pose proof (mod_div (mult s) l Hl) as MD. destruct (mult s mod l =? 0)%Z.
    - exists []. split; [constructor|]. split; [reflexivity|]. intro u. split; [intros []|]. intros (_ & _ & K). apply K. apply MD. reflexivity.
    - destruct (high_count e l O) as (L & NL & LL & ML). exists L. split; [exact NL|]. split; [exact LL|]. intro u. rewrite ML.
      split; [intros [H1 H2]; repeat split; try assumption; intro K; apply MD in K; discriminate|intros (H1 & H2 & _); split; assumption]. }
  destruct (Part 1 ell O1 ell_pos') as (L1 & N1 & Le1 & M1). destruct (Part (- (1)) ell_twist O2 ltac:(reflexivity)) as (L2 & N2 & Le2 & M2).
  exists (L1 ++ L2). split; [|split].
  - assert (Dj : forall x, In x L1 -> ~ In x L2).
    { intros x I1 I2. apply M1 in I1. apply M2 in I2. destruct I1 as (H1 & Hh & _). destruct I2 as (H2 & _). apply high_iff in Hh. apply (proj1 Hh). apply only_zero; assumption. }
    clear Le1 M1. revert Dj. induction N1 as [|a L1 Na _ IH]; intro Dj; [exact N2|]. cbn [app]. constructor.
    + rewrite in_app_iff. intros [I|I]; [exact (Na I)|exact (Dj a (or_introl eq_refl) I)].
    + apply IH. intros x I. apply Dj. right. exact I.
  - rewrite app_length, Nat2Z.inj_add, Le1, Le2. reflexivity.
  - intro u. rewrite in_app_iff, M1, M2. split.
    + intros [(H1 & H2 & H3)|(H1 & H2 & H3)]; [apply (out_nz s _ _ u Hs O1 H1)|apply (out_nz s _ _ u Hs O2 H1)]; split; assumption.
    + intro N. destruct (has_some u) as (e & l & O & H). apply (out_nz s e l u Hs O H) in N. destruct O as [[-> ->]|[-> ->]]; [left|right]; (split; [exact H|exact N]).
Qed.
Lemma total : (p = (2 * ell - 2) + (2 * ell_twist - 2) + 3)%Z. Proof. pose proof orders. lia. Qed.
Theorem mul_zero_count : forall s, is_scalar s -> exactly (p - live s) (fun u => bytes 56 u /\ (le_val u < p)%Z /\ mp_mul B u s = Ok zeros).
Proof.
  intros s Hs. destruct (live_list s Hs) as (L & NL & LL & ML). pose proof p_pos as PP.
  assert (exists n, Z.of_nat n = p) as [n Hn] by (exists (Z.to_nat p); apply Z2Nat.id; lia).
  pose proof (all_F_nodup n ltac:(lia)) as ND. pose proof (fun x => all_F_in n x Hn) as AI.
  assert (AL : length (all_F n) = n) by (unfold all_F; rewrite map_length, seq_length; reflexivity). set (A := all_F n) in *. clearbody A.
  set (t := fun u => feqb (out s u) 0). pose proof (filter_split F t A) as Sp.
  assert (E : length (filter (fun u => negb (t u)) A) = length L).
  { apply same_length; [apply NoDup_filter; exact ND|exact NL|]. intro u. rewrite filter_In, ML, negb_true_iff. unfold t. split.
    - intros [_ K] Q. apply feqb_eq in Q. congruence.
    - intro Q. split; [apply AI|]. destruct (feqb (out s u) 0) eqn:K; [|reflexivity]. exfalso. apply Q. apply feqb_eq. exact K. }
  replace (p - live s)%Z with (Z.of_nat (length (filter t A))) by lia.
  eapply exactly_ext; [|apply (canon_list (filter t A) (fun u => out s u = 0)); [apply NoDup_filter; exact ND|]].
  - intro b. cbv beta. split; intros (Hb & Hp & R); (split; [exact Hb|]; split; [exact Hp|]); [apply (out_zeros s b Hs Hb)|apply (out_zeros s b Hs Hb) in R]; exact R.
  - intro u. rewrite filter_In. unfold t. rewrite feqb_eq. split; [tauto|]. intro K. split; [apply AI|exact K].
Qed.
Theorem mul_image : forall s, is_scalar s ->
  exactly (live s / (if (mult s mod 4 =? 0)%Z then 4 else 2) + 1) (fun r => exists u, bytes 56 u /\ mp_mul B u s = Ok r).
Proof.
  intros s Hs. destruct (live_list s Hs) as (L & NL & LL & ML). set (g := (if (mult s mod 4 =? 0)%Z then 4 else 2)%Z).
  assert (Hg : (0 < g)%Z) by (unfold g; destruct (mult s mod 4 =? 0)%Z; lia).
  destruct (image_count F F F_eq_dec (out s) (Z.to_nat g) L NL) as (I & NI & LI & MI).
  { intros u Hu. apply ML in Hu. destruct (has_some u) as (e & l & O & Hh). pose proof (proj1 (out_nz s e l _ Hs O Hh) Hu) as [Hi _].
    destruct (fibre (mult s) u Hi) as (K & NK & LK & MK). exists K. split; [exact NK|]. split; [fold g in LK; lia|].
    intro w. rewrite MK, <- (out_related s u w Hs Hu), ML. split; [intro E; split; [rewrite E; exact Hu|exact E]|intros [_ E]; exact E]. }
  assert (Len : (live s / g + 1 = Z.of_nat (length (0%F :: I)))%Z).
  { cbn [length]. rewrite <- LL. assert (Q : Z.of_nat (length L) = (Z.of_nat (length I) * g)%Z) by lia. rewrite Q, Z.div_mul by lia. lia. }
  rewrite Len. assert (N0 : NoDup (0 :: I)). { constructor; [|exact NI]. rewrite MI. intros (x & Hx & E). apply ML in Hx. exact (Hx E). }
  exists (map (fun u => le_bytes 56 (fval u)) (0 :: I)). split; [|split; [rewrite map_length; reflexivity|]].
  - apply nodup_map; [exact N0|]. intros x y _ _. apply le_inj.
  - intro r. rewrite in_map_iff. split.
    + intros (z & <- & Hz). assert (X : exists u, out s u = z).
      { destruct Hz as [<-|Hz]; [|apply MI in Hz; destruct Hz as (x & _ & E); exists x; exact E].
        exists 0. destruct (has_some 0) as (e & l & O & Hh). destruct (F_eq_dec (out s 0) 0) as [E|E]; [exact E|exfalso].
        apply (out_nz s e l 0 Hs O Hh) in E. destruct E as [E _]. apply high_iff in E. apply (proj1 E). reflexivity. }
      destruct X as [u <-]. exists (le_bytes 56 (fval u)). pose proof (le_bytes_bytes 56 (fval u)) as Hb. split; [exact Hb|]. rewrite (out_ok s _ Hs Hb), of_Z_le. reflexivity.
    + intros (u & Hu & E). rewrite (out_ok s u Hs Hu) in E. apply ok_inj in E. exists (out s (of_Z (le_val u))). split; [exact E|].
      destruct (F_eq_dec (out s (of_Z (le_val u))) 0) as [Q|Q]; [left; symmetry; exact Q|right]. apply MI. exists (of_Z (le_val u)). split; [apply ML; exact Q|reflexivity].
Qed.
(** Reduced scalars, and the clamped secrets of X448. *)
Lemma live_full : forall s, (mult s mod ell =? 0)%Z = false -> (mult s mod ell_twist =? 0)%Z = false -> live s = (p - 3)%Z.
Proof. intros s E1 E2. unfold live. rewrite E1, E2. pose proof total. lia. Qed.
Lemma quarter : ((p - 3) / 4 + 1 = (p + 1) / 4)%Z. Proof. reflexivity. Qed.
Lemma half : ((p - 3) / 2 + 1 = (p - 1) / 2)%Z. Proof. reflexivity. Qed.
Theorem reduced_image : forall s, is_scalar s -> (0 < sval s < ell)%Z ->
  exactly (if (mult s mod 4 =? 0)%Z then (p + 1) / 4 else (p - 1) / 2) (fun r => exists u, bytes 56 u /\ mp_mul B u s = Ok r).
Proof.
  intros s Hs R. pose proof (mul_image s Hs) as K. rewrite live_full in K.
  - destruct (mult s mod 4 =? 0)%Z; [rewrite quarter in K|rewrite half in K]; exact K.
  - pose proof ell_mod2 as E2. pose proof (Z.div_mod (sval s) 2 ltac:(lia)) as D. pose proof (Z.mod_pos_bound (sval s) 2 ltac:(lia)) as Rm.
    pose proof (Z.div_mod ell 2 ltac:(lia)) as De. rewrite Z.mod_small by lia. apply Z.eqb_neq. lia.
  - pose proof ell_twist_gt as ET. pose proof (Z.mod_pos_bound (sval s) 2 ltac:(lia)) as Rm. 
    rewrite Z.mod_small by lia. apply Z.eqb_neq. lia.
Qed.
Lemma special : ((0 + (2 * ell_twist - 2)) / 4 + 1 = (ell_twist + 1) / 2)%Z. Proof. reflexivity. Qed.
Theorem x448_image : forall k, bytes 56 k ->
  exactly (if (le_val (clamp448 k) =? 4 * ell)%Z then (ell_twist + 1) / 2 else (p + 1) / 4)
    (fun r => exists u, bytes 56 u /\ mp_mul B u (scalar_from_bytes (clamp448 k)) = Ok r).
Proof.
  intros k Hk. destruct (clamp_facts k Hk) as (Hc & D4 & R). destruct (from_bytes_scalar _ Hc) as [Hs Vs].
  pose proof (mul_image _ Hs) as K. unfold live in K. rewrite Vs in K. set (c := le_val (clamp448 k)) in *.
  assert (E : (c + c mod 2 = c)%Z). { destruct D4 as [q ->]. replace (q * 4)%Z with (q * 2 * 2)%Z by ring. rewrite Z.mod_mul by lia. ring. }
  rewrite E in K. assert (E4 : (c mod 4 =? 0)%Z = true) by (apply Z.eqb_eq; apply Z.mod_divide; [lia|exact D4]). rewrite E4 in K.
  pose proof ell_bounds as EB. pose proof ell_twist_bounds as TB. pose proof pows as PW. clearbody c. clear Vs E E4. Local Opaque Z.pow.
  assert (M2 : (c mod ell_twist =? 0)%Z = false).
  { destruct (c mod ell_twist =? 0)%Z eqn:Q; [exfalso|reflexivity]. apply (mod_div c ell_twist ltac:(lia)) in Q.
    apply (four_l ell_twist) in Q; [|exact ell_twist_mod2|exact D4]. destruct Q as [q Hq]. assert (1 <= q)%Z by nia. nia. }
  rewrite M2 in K. assert (M1 : (c mod ell =? 0)%Z = (c =? 4 * ell)%Z).
  { apply Bool.eq_iff_eq_true. rewrite (mod_div c ell ltac:(lia)), Z.eqb_eq. split.
    - intro D. apply (four_l ell) in D; [|exact ell_mod2|exact D4]. destruct D as [q Hq]. assert (q = 1)%Z by nia. lia.
    - intros ->. exists 4%Z. ring. }
  rewrite M1 in K. destruct (c =? 4 * ell)%Z.
  - rewrite special in K. exact K.
  - rewrite <- quarter. pose proof total as T. replace (p - 3)%Z with (2 * ell - 2 + (2 * ell_twist - 2))%Z by lia. exact K.
Qed.
End Main.

(** 5 and its inverse, times 2. *)
Definition one_fifth : Z := ((p + 1) / 5)%Z.
Lemma fifth_inv : of_Z 5 * of_Z one_fifth = 1.
Proof. rewrite <- of_Z_mul. apply of_Z_eq. vm_compute. reflexivity. Qed.
Theorem fifth_case : (5 * one_fifth mod p = 1)%Z /\ is_scalar (digits 32 14 2) /\ sval (digits 32 14 2) = 2%Z /\ forall B, shipped B ->
  mp_mul B (le_bytes 56 5) (digits 32 14 2) <> Ok zeros /\ mp_mul B (le_bytes 56 one_fifth) (digits 32 14 2) = mp_mul B (le_bytes 56 5) (digits 32 14 2).
Proof.
  split; [vm_compute; reflexivity|]. assert (R2 : (0 <= 2 < 2 ^ 448)%Z) by (split; [discriminate|reflexivity]). destruct (digits_scalar 2 R2) as [Hs Vs].
  split; [exact Hs|]. split; [exact Vs|]. intros B S. pose proof (le_bytes_bytes 56 5) as H5. pose proof (le_bytes_bytes 56 one_fifth) as Hf.
  assert (V5 : le_val (le_bytes 56 5) = 5%Z) by (vm_compute; reflexivity). assert (Vf : le_val (le_bytes 56 one_fifth) = one_fifth) by (vm_compute; reflexivity).
  assert (N : mp_mul B (le_bytes 56 5) (digits 32 14 2) <> Ok zeros).
  { intro E. apply (reduced_zero B S _ _ H5 Hs) in E; [|rewrite Vs; reflexivity]. rewrite Vs, V5 in E. destruct E as [E|E]; [|discriminate].
    revert E. unfold u_low. vm_compute. intros [E|[E|E]]; discriminate. }
  split; [exact N|]. apply (mul_equal B S _ _ _ Hs H5 Hf N). rewrite Vs, V5, Vf. right. exact fifth_inv.
Qed.
