(** The orders of Curve448 and of its twist, and when a multiple of a point has coordinate 0. *)
Require Import ZArith Znumtheory List Bool Lia Ring Field FinFun Permutation.
From Verif Require Import Base SpecParams SpecField SpecCurve SpecEncoding SpecMontgomery SpecTwist FieldTheory EdwardsTheory CurveTheory EdwardsRun AbGroup Order GroupOrder
  EdStructure Primes ScalarModel ScalarProofs ScalarMulModel ScalarMulProofs MontTheory Ladder LadderMont MontCurves MontgomeryProofs MontgomeryMain MontgomeryFacts TwistPrime.
Import ListNotations.
Open Scope F_scope.
Local Opaque fadd fsub fmul fopp fdiv finv fpow of_Z.

(** ** The isomorphism with an Edwards curve *)
Section Iso.
Variables A c d : F.
Hypothesis HA : A = c * c + of_Z 2.
Hypothesis Nc : c <> 0.
Hypothesis NS : ~ is_square (A + of_Z 2).
Hypothesis Hd : d * (c * c) = A + of_Z 2.
Local Notation on := (on_mont A 1).
Local Notation psi := (psi c).
Let ND : ~ is_square d := nsq_d A c d NS Hd.
Let Gr : edw_group 1 d (on_curve 1 d) := complete_group d ND.

Lemma n1 : ~ is_square (1 - d).
Proof.
  intros [r Hr]. apply neg1_nonsquare. exists (r * c / of_Z 2). pose proof F_2_neq_0 as N2.
  assert (E : r * r * (c * c) = - of_Z 4). { rewrite Hr. transitivity (c * c - d * (c * c)); [ring|]. rewrite Hd, HA. ring. }
  assert (F4 : of_Z 4 = of_Z 2 * of_Z 2) by ring.
  transitivity (r * r * (c * c) / (of_Z 2 * of_Z 2)); [field; auto using F_4_neq_0|]. rewrite E, F4. field; auto using F_4_neq_0.
Qed.
Lemma psi_surj : forall x y, on_curve 1 d (x, y) -> exists P, on P /\ psi P = (x, y).
Proof.
  intros x y H. pose proof H as Heq. apply on_curve_eq in Heq. destruct (F_eq_dec y 1) as [Y|Y].
  - exists None. split; [exact I|]. cbn [MontTheory.psi]. symmetry. exact (y1_zero A c d NS Hd (x, y) H Y).
  - destruct (F_eq_dec y (- (1))) as [Y'|Y'].
    + exists (Some (0, 0)). split; [cbn; ring|]. rewrite (psi_T c). symmetry. exact (ym1_T A c d HA Hd (x, y) H Y').
    + assert (N1 : y - 1 <> 0) by (intro E; apply Y; apply fsub_0_eq; exact E).
      assert (N2 : y + 1 <> 0). { intro E. apply Y'. apply fsub_0_eq. transitivity (y + 1); [ring|exact E]. }
      assert (Nx : x <> 0).
      { intro X. rewrite X in Heq. assert (K : (y - 1) * (y + 1) = 0). { transitivity (1 * 0 * 0 + y * y - 1); [ring|]. rewrite <- Heq. ring. }
        apply fmul_integral in K. destruct K; contradiction. }
      set (u := (y + 1) / (y - 1)). assert (Nu : u <> 0).
      { unfold u. rewrite (Fdiv_def F_field). apply fmul_nonzero; [exact N2|apply finv_nonzero; exact N1]. }
      assert (U1 : u - 1 <> 0).
      { intro E. apply F_2_neq_0. transitivity ((u - 1) * (y - 1)); [unfold u; field; exact N1|]. rewrite E. ring. }
      exists (Some (u, c * u / x)). split.
      * apply mont_eq'.
        assert (K : x * x * (u * u + A * u + 1) = c * c * u).
        { apply (fmul_cancel_l ((y - 1) * (y - 1))); [apply fmul_nonzero; exact N1|].
          transitivity (x * x * ((A + of_Z 2) * (y * y) - c * c)); [unfold u; rewrite HA; field; exact N1|].
          transitivity (c * c * (y * y - 1)); [|unfold u; field; exact N1]. rewrite <- Hd.
          transitivity (c * c * (d * x * x * y * y - x * x)); [ring|]. rewrite Heq. ring. }
        apply (fmul_cancel_l (x * x)); [apply fmul_nonzero; exact Nx|].
        transitivity (c * c * u * u); [field; exact Nx|]. rewrite <- K. ring.
      * cbn [MontTheory.psi]. apply pt_eq.
        -- field. repeat split; assumption.
        -- unfold u. field. split; [exact N1|]. intro E. apply F_2_neq_0. transitivity (y + 1 - (y - 1)); [ring|exact E].
Qed.

Lemma ucoord_0 : forall Q, on Q -> (ucoord Q = 0 <-> padd 1 d (psi Q) (psi Q) = pzero).
Proof.
  intros Q H. split.
  - intro E. destruct Q as [[u v]|]; cbn [ucoord] in E.
    + rewrite E, (psi_T c). rewrite (c_N_neg d). apply pt_eq; ring.
    + cbn [MontTheory.psi]. apply padd_0_l.
  - intro E. apply (c_two_torsion_pt d ND) in E; [|exact (psi_on A c d HA Nc NS Hd Q H)]. destruct E as [E|E].
    + assert (K : Q = None) by (apply (psi_inj A c HA Nc NS); [exact H|exact I|exact E]). rewrite K. reflexivity.
    + assert (K : Q = Some (0, 0)).
      { apply (psi_inj A c HA Nc NS); [exact H|cbn; ring|]. rewrite (psi_T c). exact E. }
      rewrite K. reflexivity.
Qed.
End Iso.

(** ** Counting points: of every nonzero u exactly one of f(u) and - f(u) is a square. *)
Definition rhs (u : F) : F := u * u * u + mont_A * (u * u) + u.
Definition pts (e u : F) : list mpoint :=
  let w := e * rhs u in
  if feqb w 0 then [Some (u, 0)] else if feqb (fsqrt w * fsqrt w) w then [Some (u, fsqrt w); Some (u, - fsqrt w)] else [].
Definition all_pts (e : F) (n : nat) : list mpoint := None :: flat_map (pts e) (all_F n).

Lemma some_inj : forall u v u' v' : F, Some (u, v) = Some (u', v') -> u = u' /\ v = v'.
Proof. intros u v u' v' E. assert (K : (u, v) = (u', v')) by (inversion E; reflexivity). split; [exact (f_equal fst K)|exact (f_equal snd K)]. Qed.
Lemma e_sq : forall e, curve_or_twist e -> e * e = 1.
Proof. intros e [->| ->]; ring. Qed.
Lemma on_iff : forall e u v, curve_or_twist e -> (on_mont mont_A e (Some (u, v)) <-> v * v = e * rhs u).
Proof.
  intros e u v He. pose proof (e_sq e He) as E. cbn [on_mont]. fold (rhs u). split; intro H.
  - rewrite <- H. transitivity (e * e * (v * v)); [rewrite E; ring|ring].
  - rewrite H. transitivity (e * e * rhs u); [ring|]. rewrite E. ring.
Qed.
Lemma pts_in : forall e u P, curve_or_twist e -> (In P (pts e u) <-> exists v, P = Some (u, v) /\ on_mont mont_A e P).
Proof.
  intros e u P He. unfold pts. cbv zeta. destruct (feqb (e * rhs u) 0) eqn:E0.
  - apply feqb_eq in E0. split.
    + intros [<-|[]]. exists 0. split; [reflexivity|]. apply on_iff; [exact He|]. rewrite E0. ring.
    + intros (v & -> & H). apply on_iff in H; [|exact He]. rewrite E0 in H. apply fsq_0 in H. rewrite H. left. reflexivity.
  - destruct (feqb (fsqrt (e * rhs u) * fsqrt (e * rhs u)) (e * rhs u)) eqn:E1.
    + apply feqb_eq in E1. split.
      * intros [<-|[<-|[]]]; (eexists; split; [reflexivity|]; apply on_iff; [exact He|]; rewrite <- E1 at 3; ring).
      * intros (v & -> & H). apply on_iff in H; [|exact He]. rewrite <- E1 in H. apply fsq_eq in H. destruct H as [->| ->]; [left|right; left]; reflexivity.
    + split; [intros []|]. intros (v & -> & H). exfalso. apply on_iff in H; [|exact He].
      assert (K : is_square (e * rhs u)) by (exists v; exact H). apply fsqrt_iff in K. congruence.
Qed.
Lemma pts_nodup : forall e u, NoDup (pts e u).
Proof.
  intros e u. unfold pts. cbv zeta. destruct (feqb (e * rhs u) 0) eqn:E0; [repeat constructor; intros []|].
  destruct (feqb (fsqrt (e * rhs u) * fsqrt (e * rhs u)) (e * rhs u)) eqn:E1; [|constructor].
  apply feqb_eq in E1. constructor; [|repeat constructor; intros []]. intros [E|[]]. apply some_inj in E. destruct E as [_ E].
  assert (Z0 : fsqrt (e * rhs u) = 0) by (apply fopp_eq_self; symmetry; exact E).
  rewrite Z0 in E1. rewrite <- E1 in E0. revert E0. replace (0 * 0) with (0 : F) by ring. rewrite (proj2 (feqb_eq 0 0) eq_refl). discriminate.
Qed.
Lemma nodup_flat : forall (X Y : Type) (f : X -> list Y) l, NoDup l -> (forall x, NoDup (f x)) ->
  (forall x y z, In z (f x) -> In z (f y) -> x = y) -> NoDup (flat_map f l).
Proof.
  intros X Y f l H HN HD. induction H as [|a l Na Nl IH]; [constructor|]. cbn [flat_map].
  assert (K : forall l1 l2 : list Y, NoDup l1 -> NoDup l2 -> (forall x, In x l1 -> ~ In x l2) -> NoDup (l1 ++ l2)).
  { induction 1 as [|x l1 Nx _ IH1]; intros N2 Dj; [exact N2|]. cbn. constructor.
    - intro I. apply in_app_iff in I. destruct I as [I|I]; [contradiction|]. apply (Dj x); [left; reflexivity|exact I].
    - apply IH1; [exact N2|]. intros z Hz. apply Dj. right. exact Hz. }
  apply K; [apply HN|exact IH|]. intros z Hz Hz'. apply in_flat_map in Hz'. destruct Hz' as (b & Hb & Hz'). rewrite (HD a b z Hz Hz') in Na. contradiction.
Qed.
Lemma all_F_nodup : forall n, (Z.of_nat n <= p)%Z -> NoDup (all_F n).
Proof.
  intros n Hn. unfold all_F. assert (K : forall m k, (Z.of_nat (k + m) <= p)%Z -> NoDup (map (fun i => of_Z (Z.of_nat i)) (seq k m))).
  { induction m as [|m IH]; intros k Hk; [constructor|]. cbn [seq map]. constructor.
    - intro I. apply in_map_iff in I. destruct I as (j & E & Hj). apply in_seq in Hj. apply of_Z_eq in E. rewrite !Z.mod_small in E by lia. lia.
    - apply IH. lia. }
  apply K. exact Hn.
Qed.
Lemma pts_two : forall u, (length (pts 1 u) + length (pts (- (1)) u) = 2)%nat.
Proof.
  intro u. unfold pts. cbv zeta. set (w := rhs u). replace (1 * w) with w by ring. replace (- (1) * w) with (- w) by ring.
  destruct (feqb w 0) eqn:E0.
  - apply feqb_eq in E0. rewrite E0. replace (- (0)) with (0 : F) by ring. rewrite (proj2 (feqb_eq 0 0) eq_refl). reflexivity.
  - assert (W : w <> 0). { intro K. apply feqb_eq in K. congruence. }
    assert (E0' : feqb (- w) 0 = false). { destruct (feqb (- w) 0) eqn:K; [|reflexivity]. apply feqb_eq in K. exfalso. apply W. apply fopp_0_iff. exact K. }
    rewrite E0'. destruct (feqb (fsqrt w * fsqrt w) w) eqn:E1; destruct (feqb (fsqrt (- w) * fsqrt (- w)) (- w)) eqn:E2; try reflexivity; exfalso.
    + apply fsqrt_iff in E1, E2. apply neg1_nonsquare. apply (square_mul_cancel (- (1)) w W E1). replace (- (1) * w) with (- w) by ring. exact E2.
    + destruct (square_or_neg w) as [K|K]; apply fsqrt_iff in K; congruence.
Qed.
Lemma all_pts_ok : forall e n, curve_or_twist e -> Z.of_nat n = p -> NoDup (all_pts e n) /\ (forall P, In P (all_pts e n) <-> on_mont mont_A e P).
Proof.
  intros e n He Hn. unfold all_pts. split.
  - constructor.
    + intro I. apply in_flat_map in I. destruct I as (u & _ & I). apply pts_in in I; [|exact He]. destruct I as (v & E & _). discriminate.
    + apply nodup_flat; [apply all_F_nodup; lia|apply pts_nodup|]. intros x y z Hx Hy. apply pts_in in Hx, Hy; try exact He.
      destruct Hx as (v & -> & _). destruct Hy as (v' & E & _). apply some_inj in E. exact (proj1 E).
  - intro P. split.
    + intros [<-|I]; [exact Logic.I|]. apply in_flat_map in I. destruct I as (u & _ & I). apply pts_in in I; [|exact He]. destruct I as (v & _ & H). exact H.
    + intro H. destruct P as [[u v]|]; [right|left; reflexivity]. apply in_flat_map. exists u. split; [apply all_F_in; exact Hn|].
      apply pts_in; [exact He|]. exists v. split; [reflexivity|exact H].
Qed.
Lemma all_pts_sum : forall n, (length (all_pts 1 n) + length (all_pts (- (1)) n) = 2 * n + 2)%nat.
Proof.
  intro n. unfold all_pts. cbn [length]. assert (K : forall l, (length (flat_map (pts 1) l) + length (flat_map (pts (- (1))) l) = 2 * length l)%nat).
  { induction l as [|a l IH]; [reflexivity|]. cbn [flat_map]. rewrite !app_length. cbn [length]. pose proof (pts_two a). lia. }
  specialize (K (all_F n)). unfold all_F in K at 3. rewrite map_length, seq_length in K. lia.
Qed.

(** ** Curve448 *)
Local Opaque pmul zmul padd SpecCurve.G.
Lemma same_length : forall (X : Type) (l1 l2 : list X), NoDup l1 -> NoDup l2 -> (forall x, In x l1 <-> In x l2) -> length l1 = length l2.
Proof.
  intros X l1 l2 H1 H2 H. pose proof (NoDup_incl_length H1 (fun x K => proj1 (H x) K)). pose proof (NoDup_incl_length H2 (fun x K => proj2 (H x) K)). lia.
Qed.
Lemma nodup_map : forall (X Y : Type) (f : X -> Y) l, NoDup l -> (forall x y, In x l -> In y l -> f x = f y -> x = y) -> NoDup (map f l).
Proof.
  intros X Y f l H. induction H as [|a l Na Nl IH]; intro HI; [constructor|]. cbn [map]. constructor.
  - intro I. apply in_map_iff in I. destruct I as (b & E & Hb). apply HI in E; [subst b; contradiction|right; exact Hb|left; reflexivity].
  - apply IH. intros x y Hx Hy. apply HI; right; assumption.
Qed.

(** What is known once a curve with a point of order l is given. *)
Section Known.
Variables A c d : F.
Hypothesis HA : A = c * c + of_Z 2.
Hypothesis Nc : c <> 0.
Hypothesis NS : ~ is_square (A + of_Z 2).
Hypothesis Hd : d * (c * c) = A + of_Z 2.
Local Notation on := (on_mont A 1).
Local Notation psi := (psi c).
Local Notation "n • P" := (mont_mul A 1 n P) (at level 40).
Local Notation "n ∘ P" := (zmul 1 d n P) (at level 40).
Let ND : ~ is_square d := nsq_d A c d NS Hd.
Let Gr : edw_group 1 d (on_curve 1 d) := complete_group d ND.
Let Ab := c_ab d ND.

Lemma psi_zmul : forall n P, (0 <= n)%Z -> on P -> psi (n • P) = n ∘ psi P.
Proof. intros n P Hn HP. rewrite zmul_nonneg by exact Hn. exact (proj2 (psi_mul A c d HA Nc NS Hd n P HP)). Qed.
Lemma mul_on : forall n P, on P -> on (n • P).
Proof. intros n P HP. exact (proj1 (psi_mul A c d HA Nc NS Hd n P HP)). Qed.
Lemma psi_on' : forall P, on P -> on_curve 1 d (psi P).
Proof. intros P HP. exact (psi_on A c d HA Nc NS Hd P HP). Qed.
Lemma ucoord_mul_0 : forall n P, (0 <= n)%Z -> on P -> (ucoord (n • P) = 0 <-> (2 * n) ∘ psi P = pzero).
Proof.
  intros n P Hn HP. rewrite (ucoord_0 A c d HA Nc NS Hd _ (mul_on n P HP)). rewrite (psi_zmul n P Hn HP).
  rewrite <- (ag_mul_add _ _ _ _ _ _ Ab) by (apply psi_on'; exact HP). replace (n + n)%Z with (2 * n)%Z by ring. reflexivity.
Qed.
Lemma transfer : forall L, NoDup L -> (forall P, In P L <-> on P) -> NoDup (map psi L) /\ (forall Q, In Q (map psi L) <-> on_curve 1 d Q).
Proof.
  intros L ND' HL. split.
  - apply nodup_map; [exact ND'|]. intros x y Hx Hy E. apply HL in Hx, Hy. exact (psi_inj A c HA Nc NS x y Hx Hy E).
  - intro Q. split; intro H.
    + apply in_map_iff in H. destruct H as (P & <- & HP). apply psi_on'. apply HL. exact HP.
    + destruct Q as [x y]. destruct (psi_surj A c d HA Nc NS Hd x y H) as (P & HP & E). apply in_map_iff. exists P. split; [exact E|]. apply HL. exact HP.
Qed.

Lemma psi_neg : forall P, psi (mont_neg P) = pneg (psi P).
Proof.
  intros [[u v]|]; cbn [mont_neg MontTheory.psi pneg pzero].
  - apply pt_eq; [apply fdiv_opp|reflexivity].
  - apply pt_eq; [ring|reflexivity].
Qed.
Lemma same_u : forall M N, on M -> on N -> (ucoord M = 0 -> psi M = pzero) -> (ucoord N = 0 -> psi N = pzero) ->
  (ucoord M = ucoord N <-> psi M = psi N \/ psi M = pneg (psi N)).
Proof.
  intros M N HM HN ZM ZN. split.
  - intro E. destruct (F_eq_dec (ucoord N) 0) as [U|U].
    + left. rewrite ZM by (rewrite E; exact U). rewrite ZN by exact U. reflexivity.
    + destruct M as [[u v]|], N as [[u' v']|]; cbn [ucoord] in *; try (exfalso; apply U; reflexivity); try (exfalso; apply U; symmetry; exact E).
      subst u'. apply (mont_eq A) in HM, HN. rewrite <- HN in HM. apply fsq_eq in HM. destruct HM as [->| ->]; [left; reflexivity|right].
      exact (psi_neg (Some (u, v'))).
  - intros [E|E].
    + apply (psi_inj A c HA Nc NS) in E; [rewrite E; reflexivity|exact HM|exact HN].
    + rewrite <- psi_neg in E. apply (psi_inj A c HA Nc NS) in E; [|exact HM|apply mont_neg_on; exact HN]. rewrite E. destruct N as [[u v]|]; reflexivity.
Qed.

Variables (l : Z) (P0 : mpoint).
Hypothesis l_prime : prime l.
Hypothesis l_odd : (l mod 2 = 1)%Z.
Hypothesis l_large : (2 * p < 12 * l)%Z.
Hypothesis on_P0 : on P0.
Hypothesis P0_high : ucoord (2 • P0) <> 0.
Hypothesis P0_l : (4 * l) ∘ psi P0 = pzero.
Let Q0 := 4 ∘ psi P0.
Lemma on_Q0 : on_curve 1 d Q0. Proof. apply (zmul_S _ _ _ Gr). apply psi_on'. exact on_P0. Qed.
Lemma Q0_nz : Q0 <> pzero.
Proof. intro E. apply P0_high. apply ucoord_mul_0; [lia|exact on_P0|]. exact E. Qed.
Lemma Q0_l : l ∘ Q0 = pzero.
Proof. unfold Q0. rewrite <- (a_mul_mul _ _ _ _ _ _ Ab) by (apply psi_on'; exact on_P0). rewrite Z.mul_comm. exact P0_l. Qed.
Lemma k_kernel : forall P n, on P -> (4 | n)%Z -> (n ∘ psi P = pzero <-> (l | n)%Z \/ 4 ∘ psi P = pzero).
Proof.
  intros P n HP D. exact (c_kernel d ND (n1 A c d HA Hd) l Q0 l_prime l_odd l_large on_Q0 Q0_nz Q0_l (psi P) n (psi_on' P HP) D).
Qed.
Lemma l_rel2 : forall n, (l | 2 * n)%Z -> (l | n)%Z.
Proof.
  intros n D. apply Gauss with 2%Z; [exact D|]. apply rel_prime_sym. apply prime_rel_prime; [exact prime_2|]. intros [q Hq]. rewrite Hq in l_odd.
  rewrite Z.mod_mul in l_odd by lia. discriminate.
Qed.
Theorem k_zero : forall P n, on P -> (0 <= n)%Z -> (2 | n)%Z -> (ucoord (n • P) = 0 <-> (l | n)%Z \/ ucoord (2 • P) = 0).
Proof.
  intros P n HP Hn [q Hq]. rewrite (ucoord_mul_0 n P Hn HP), (ucoord_mul_0 2 P ltac:(lia) HP). change (2 * 2)%Z with 4%Z.
  rewrite (k_kernel P (2 * n) HP) by (exists q; lia). split; (intros [D|D]; [left|right; exact D]).
  - apply l_rel2. exact D.
  - apply Z.divide_mul_r. exact D.
Qed.
Theorem k_count : forall L, NoDup L -> (forall P, In P L <-> on P) -> Z.of_nat (length L) = (4 * l)%Z.
Proof.
  intros L HN HL. destruct (c_count d ND (n1 A c d HA Hd) l Q0 l_prime l_odd l_large on_Q0 Q0_nz Q0_l) as (L' & N' & H' & Len).
  destruct (transfer L HN HL) as [N2 H2]. rewrite <- Len. f_equal. rewrite <- (map_length psi L). apply same_length; [exact N2|exact N'|].
  intro x. rewrite H2, H'. reflexivity.
Qed.
(** Multiples of four, up to sign. *)
Theorem k_equal : forall P m n, on P -> (0 <= m)%Z -> (0 <= n)%Z -> (4 | m)%Z -> (4 | n)%Z -> ucoord (2 • P) <> 0 ->
  (ucoord (m • P) = ucoord (n • P) <-> (l | m - n)%Z \/ (l | m + n)%Z).
Proof.
  intros P m n HP Hm Hn Dm Dn Hhigh. pose proof (psi_on' P HP) as OP.
  assert (H4 : 4 ∘ psi P <> pzero). { intro E. apply Hhigh. apply (ucoord_mul_0 2 P ltac:(lia) HP). exact E. }
  assert (Hz : forall k, (0 <= k)%Z -> (4 | k)%Z -> ucoord (k • P) = 0 -> k ∘ psi P = pzero).
  { intros k Hk Dk E. apply k_zero in E; [|exact HP|exact Hk|apply Z.divide_trans with 4%Z; [exists 2%Z; reflexivity|exact Dk]].
    destruct E as [E|E]; [|contradiction]. apply k_kernel; [exact HP|exact Dk|]. left. exact E. }
  assert (Kd : (m ∘ psi P = n ∘ psi P) <-> (l | m - n)%Z).
  { transitivity ((m - n) ∘ psi P = pzero).
    - replace m with ((m - n) + n)%Z at 1 by ring. rewrite (ag_mul_add _ _ _ _ _ _ Ab) by exact OP. split; intro E.
      + apply (a_cancel _ _ _ _ _ _ Ab (n ∘ psi P)); try (apply (ag_mul_S _ _ _ _ _ _ Ab); exact OP); [exact (ag_z _ _ _ _ _ _ Ab)|].
        rewrite (ag_comm _ _ _ _ _ _ Ab), E. symmetry. apply (a_0_r _ _ _ _ _ _ Ab).
      + rewrite E. apply (ag_0 _ _ _ _ _ _ Ab).
    - rewrite (k_kernel P (m - n) HP) by (apply Z.divide_sub_r; assumption). split; [intros [D|D]; [exact D|contradiction]|intro D; left; exact D]. }
  assert (Ks : (m ∘ psi P = pneg (n ∘ psi P)) <-> (l | m + n)%Z).
  { transitivity ((m + n) ∘ psi P = pzero).
    - rewrite (ag_mul_add _ _ _ _ _ _ Ab) by exact OP. split; intro E.
      + rewrite E. apply (a_inv_l _ _ _ _ _ _ Ab). apply (ag_mul_S _ _ _ _ _ _ Ab). exact OP.
      + rewrite (ag_comm _ _ _ _ _ _ Ab) in E. apply (a_neg_unique _ _ _ _ _ _ Ab) in E; [exact E| |]; apply (ag_mul_S _ _ _ _ _ _ Ab); exact OP.
    - rewrite (k_kernel P (m + n) HP) by (apply Z.divide_add_r; assumption). split; [intros [D|D]; [exact D|contradiction]|intro D; left; exact D]. }
  rewrite <- Kd, <- Ks. rewrite <- !psi_zmul by assumption.
  apply same_u; try (apply mul_on; exact HP); intro E.
  - rewrite psi_zmul by assumption. apply Hz; assumption.
  - rewrite psi_zmul by assumption. apply Hz; assumption.
Qed.
End Known.

(** ** The two curves *)
Local Opaque ell ell_twist p Gx Gy pzero mont_mul.
Lemma orders : (4 * ell + 4 * ell_twist = 2 * p + 2)%Z. Proof. reflexivity. Qed.
Lemma ell_large : (2 * p < 12 * ell)%Z. Proof. reflexivity. Qed.
Lemma ell_twist_large : (2 * p < 12 * ell_twist)%Z. Proof. reflexivity. Qed.
Lemma ell_twist_mod2 : (ell_twist mod 2 = 1)%Z. Proof. reflexivity. Qed.
Lemma two_ell_range : (0 <= 2 * ell < 2 ^ 448)%Z. Proof. split; [discriminate|reflexivity]. Qed.
Lemma over_zero : forall x y, y = 0 -> x * finv (y * y) = 0.
Proof. intros x y E. rewrite E. replace (0 * 0) with (0 : F) by ring. rewrite finv_0. ring. Qed.
Lemma five_two_ell : forall v, on_mont mont_A 1 (Some (of_Z 5, v)) -> ucoord (mont_mul mont_A 1 (2 * ell) (Some (of_Z 5, v))) = 0.
Proof.
  intros v Hv. destruct (digits_scalar (2 * ell) two_ell_range) as [Hs Vs]. set (s := digits 32 14 (2 * ell)) in *.
  pose proof (ladder_exact 1 (rev (scalar_bits s)) _ (or_introl eq_refl) Hv ltac:(discriminate)) as K1.
  pose proof (ed_ladder (rev (scalar_bits s)) SpecCurve.G on_G) as K2. cbv zeta in K1, K2. cbn [ucoord] in K1.
  unfold edN at 1 2, edD at 1 2 in K2. rewrite gen_u in K2. rewrite K1 in K2. clear K1.
  assert (E : (bits_acc (rev (scalar_bits s)) 0 + Z.b2z (last (rev (scalar_bits s)) false) = 2 * ell)%Z).
  { rewrite scalar_bits_val, last_rev_bits, Vs by exact Hs. rewrite Z.mul_comm at 2. rewrite Z.mod_mul by discriminate. apply Z.add_0_r. }
  rewrite E in K2. rewrite K2. rewrite (pmul_mul _ _ _ ed_group) by (exact on_G || (pose proof ell_pos'; lia)). rewrite ell_G.
  rewrite (pmul_zero ed_a ed_d) by lia. unfold edN, edD. apply over_zero. reflexivity.
Qed.
Lemma five_high : forall e v, curve_or_twist e -> on_mont mont_A e (Some (of_Z 5, v)) -> ucoord (mont_mul mont_A e 2 (Some (of_Z 5, v))) <> 0.
Proof.
  intros e v He Hv. rewrite (ucoord_dbl e He _ Hv ltac:(discriminate)). cbn [ucoord]. rewrite udbl_0. rewrite <- of_Z_opp. intros [E|[E|E]]; apply of_Z_eq in E; revert E; vm_compute; discriminate.
Qed.
Lemma six_high : forall e v, curve_or_twist e -> on_mont mont_A e (Some (of_Z 6, v)) -> ucoord (mont_mul mont_A e 2 (Some (of_Z 6, v))) <> 0.
Proof.
  intros e v He Hv. rewrite (ucoord_dbl e He _ Hv ltac:(discriminate)). cbn [ucoord]. rewrite udbl_0. rewrite <- of_Z_opp. intros [E|[E|E]]; apply of_Z_eq in E; revert E; vm_compute; discriminate.
Qed.

Definition order_of (e : F) (l : Z) : Prop := (e = 1 /\ l = ell) \/ (e = - (1) /\ l = ell_twist).
Lemma curve_known : exists c P0, mont_A = c * c + of_Z 2 /\ c <> 0 /\ on_mont mont_A 1 P0 /\ ucoord (mont_mul mont_A 1 2 P0) <> 0 /\
  zmul 1 ((mont_A + of_Z 2) / (c * c)) (4 * ell) (psi c P0) = pzero.
Proof.
  destruct curve_c as (c & HA & Nc). exists c. eexists. split; [exact HA|]. split; [exact Nc|]. split; [exact curve_point|].
  split; [apply five_high; [left; reflexivity|exact curve_point]|].
  pose proof (five_two_ell _ curve_point) as K. apply (ucoord_mul_0 mont_A c _ HA Nc nsq_A2 (dcc _ _ Nc)) in K; [|pose proof two_ell_range; lia|exact curve_point].
  replace (4 * ell)%Z with (2 * (2 * ell))%Z by ring. exact K.
Qed.
Theorem curve_count : forall n, Z.of_nat n = p -> Z.of_nat (length (all_pts 1 n)) = (4 * ell)%Z.
Proof.
  intros n Hn. destruct curve_known as (c & P0 & HA & Nc & H0 & Hh & Hl).
  destruct (all_pts_ok 1 n (or_introl eq_refl) Hn) as [N1 H1].
  exact (k_count mont_A c _ HA Nc nsq_A2 (dcc _ _ Nc) ell P0 prime_ell ell_mod2 ell_large H0 Hh Hl _ N1 H1).
Qed.
Theorem twist_count : forall n, Z.of_nat n = p -> Z.of_nat (length (all_pts (- (1)) n)) = (4 * ell_twist)%Z.
Proof. intros n Hn. pose proof (curve_count n Hn). pose proof (all_pts_sum n). pose proof orders. lia. Qed.
Lemma twist_known : exists c P0, - mont_A = c * c + of_Z 2 /\ c <> 0 /\ on_mont (- mont_A) 1 P0 /\ ucoord (mont_mul (- mont_A) 1 2 P0) <> 0 /\
  zmul 1 ((- mont_A + of_Z 2) / (c * c)) (4 * ell_twist) (psi c P0) = pzero.
Proof.
  destruct twist_c as (c & HA & Nc). exists c. eexists. split; [exact HA|]. split; [exact Nc|]. split; [apply flip_on; exact twist_point|]. split.
  - rewrite <- flip_mul, flip_ucoord. intro E. apply (proj1 (fopp_0_iff _)) in E. revert E. apply six_high; [right; reflexivity|exact twist_point].
  - pose proof p_pos as PP. assert (exists n, Z.of_nat n = p) as [n Hn] by (exists (Z.to_nat p); apply Z2Nat.id; lia).
    destruct (all_pts_ok (- (1)) n (or_intror eq_refl) Hn) as [N1 H1]. rewrite <- (twist_count n Hn).
    assert (T : NoDup (map flip (all_pts (- (1)) n)) /\ (forall P, In P (map flip (all_pts (- (1)) n)) <-> on_mont (- mont_A) 1 P)).
    { split.
      - apply nodup_map; [exact N1|]. intros x y _ _. apply flip_inj.
      - intro P. rewrite in_map_iff. split.
        + intros (Q & <- & HQ). apply flip_on. apply H1. exact HQ.
        + intro HP. exists (flip P). split; [apply flip_flip|]. apply H1. apply flip_on'. rewrite flip_flip. exact HP. }
    destruct T as [N2 H2]. destruct (transfer (- mont_A) c _ HA Nc nsq_mA2 (dcc _ _ Nc) _ N2 H2) as [N3 H3].
    rewrite <- (map_length flip), <- (map_length (psi c)).
    apply (a_lagrange _ _ _ _ _ _ (c_ab _ (nsq_d _ c _ nsq_mA2 (dcc _ _ Nc))) _ N3 H3).
    apply (psi_on (- mont_A) c _ HA Nc nsq_mA2 (dcc _ _ Nc)). apply flip_on. exact twist_point.
Qed.

(** The two together. *)
Theorem zero_iff : forall e l, order_of e l -> forall P n, on_mont mont_A e P -> (0 <= n)%Z -> (2 | n)%Z ->
  (ucoord (mont_mul mont_A e n P) = 0 <-> (l | n)%Z \/ ucoord (mont_mul mont_A e 2 P) = 0).
Proof.
  intros e l [[-> ->]|[-> ->]] P n HP Hn D.
  - destruct curve_known as (c & P0 & HA & Nc & H0 & Hh & Hl).
    exact (k_zero mont_A c _ HA Nc nsq_A2 (dcc _ _ Nc) ell P0 prime_ell ell_mod2 ell_large H0 Hh Hl P n HP Hn D).
  - destruct twist_known as (c & P0 & HA & Nc & H0 & Hh & Hl).
    pose proof (k_zero (- mont_A) c _ HA Nc nsq_mA2 (dcc _ _ Nc) ell_twist P0 prime_ell_twist ell_twist_mod2 ell_twist_large H0 Hh Hl (flip P) n (flip_on _ _ HP) Hn D) as K.
    rewrite <- !flip_mul, !flip_ucoord, !fopp_0_iff in K. exact K.
Qed.
Theorem equal_iff : forall e l, order_of e l -> forall P m n, on_mont mont_A e P -> (0 <= m)%Z -> (0 <= n)%Z -> (4 | m)%Z -> (4 | n)%Z ->
  ucoord (mont_mul mont_A e 2 P) <> 0 ->
  (ucoord (mont_mul mont_A e m P) = ucoord (mont_mul mont_A e n P) <-> (l | m - n)%Z \/ (l | m + n)%Z).
Proof.
  intros e l [[-> ->]|[-> ->]] P m n HP Hm Hn Dm Dn Hh'.
  - destruct curve_known as (c & P0 & HA & Nc & H0 & Hh & Hl).
    exact (k_equal mont_A c _ HA Nc nsq_A2 (dcc _ _ Nc) ell P0 prime_ell ell_mod2 ell_large H0 Hh Hl P m n HP Hm Hn Dm Dn Hh').
  - destruct twist_known as (c & P0 & HA & Nc & H0 & Hh & Hl).
    pose proof (k_equal (- mont_A) c _ HA Nc nsq_mA2 (dcc _ _ Nc) ell_twist P0 prime_ell_twist ell_twist_mod2 ell_twist_large H0 Hh Hl (flip P) m n (flip_on _ _ HP) Hm Hn Dm Dn) as K.
    rewrite <- !flip_mul, !flip_ucoord in K. rewrite <- K.
    + split; intro E; [rewrite E; reflexivity|]. apply (f_equal fopp) in E. revert E. generalize (ucoord (mont_mul mont_A (- (1)) m P)) (ucoord (mont_mul mont_A (- (1)) n P)).
      intros x y E. transitivity (- - x); [ring|]. rewrite E. ring.
    + intro E. apply (proj1 (fopp_0_iff _)) in E. contradiction.
Qed.
