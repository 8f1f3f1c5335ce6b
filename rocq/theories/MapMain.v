(** Proofs for C82: what the maps between the three curves identify and what they reach, on the modelled functions. *)
Require Import ZArith List Bool Lia Ring Field.
From Verif Require Import Base BaseProofs Wp SpecParams SpecField SpecCurve SpecEncoding SpecDecaf FieldTheory EdwardsTheory CurveTheory PhiHat EdSigns
  Primes AbGroup Order GroupOrder FieldBackend FieldModel FieldU32Model Backends BackendLaws FieldMain ScalarModel TwistedModel ScalarMulModel EdwardsModel
  PointSpec TwistedProofs ScalarMulProofs EdwardsProofs EdwardsMain TwistedMain EdwardsCases DecafModel ScalarMain DecafProofs DecafTheory DecafGroup DecafMain MontgomeryMain DocsMain MapTheory.
Import ListNotations.
Open Scope F_scope.
Open Scope res_scope.
Local Opaque fadd fsub fmul fopp fdiv finv fpow of_Z padd pmul zmul pzero fsqrt SpecCurve.G D T4 ell quarter.
Local Notation "n • P" := (pmul ed_a ed_d n P) (at level 40).

Lemma in_four : forall (A : Type) (a b c d e : A), In e [a; b; c; d] <-> e = a \/ e = b \/ e = c \/ e = d.
Proof. intros. cbn [In]. intuition congruence. Qed.
Lemma in_two : forall (A : Type) (a b e : A), In e [a; b] <-> e = a \/ e = b.
Proof. intros. cbn [In]. intuition congruence. Qed.
Theorem four_different : forall x y, on_ed (x, y) -> NoDup [(x, y); (- x, - y); (y, - x); (- y, x)].
Proof.
  intros x y H. pose proof (ed_yx_nz x y H) as N.
  assert (A : x = y -> False) by (intros ->; apply N; ring). assert (A' : x = - y -> False) by (intros ->; apply N; ring).
  assert (Z0 : x = - x -> y = - y -> False).
  { intros E1 E2. apply fopp_eq_self in E1, E2. apply A. congruence. }
  assert (X : forall a b c d : F, (a, b) = (c, d) -> a = c /\ b = d) by (intros a b c d E; apply pair_equal_spec; exact E).
  repeat constructor; cbn [In]; intro K; repeat (destruct K as [K|K]; [|]); try exact K; apply X in K; destruct K as [K1 K2].
  - apply Z0; congruence.
  - apply A. congruence.
  - apply A'. congruence.
  - apply A'. rewrite K1. ring.
  - apply A. transitivity (- - x); [ring|]. rewrite <- K1. ring.
  - apply Z0; [congruence|]. congruence.
Qed.

Section Maps.
Variable B : backend.
Hypothesis S : shipped B.
Let L := shipped_laws B S.
Lemma fe_of : forall a : F, exists f, is_val B f a.
Proof.
  intro a. destruct (l_from B L (le_bytes 56 (fval a)) (le_bytes_bytes _ _)) as (f & _ & H). exists f.
  rewrite le_val_le_bytes in H by (pose proof (fval_range a); assert (p < 2 ^ 448)%Z by reflexivity; lia). rewrite of_Z_fval in H. exact H.
Qed.
Lemma ed_of : forall Q, on_ed Q -> exists P, ed_valid B P /\ ed_affine B P = Q.
Proof.
  intros [x y] H. destruct (fe_of x) as (fx & Tx & Ex), (fe_of y) as (fy & Ty & Ey), (fe_of (x * y)) as (ft & Tt & Et).
  exists (mkEd fx fy (fe_one B) ft). apply ed_rep_iff. unfold ed_rep. cbn [edX edY edZ edT fst snd]. rewrite (fv1 B L), Ex, Ey, Et. pose proof (tight1 B L).
  split; [auto|]. split; [exact H|]. split; [exact F_1_neq_0|]. repeat split; ring.
Qed.
Lemma tw_of : forall Q, even_tw Q -> exists P, tw_valid B P /\ tw_affine B P = Q.
Proof.
  intros [x y] H. destruct (fe_of x) as (fx & Tx & Ex), (fe_of y) as (fy & Ty & Ey), (fe_of (x * y)) as (ft & Tt & Et).
  exists (mkTw fx fy (fe_one B) ft). apply tw_of_rep. unfold tw_rep. cbn [twX twY twZ twT fst snd]. rewrite (fv1 B L), Ex, Ey, Et. pose proof (tight1 B L).
  split; [auto|]. split; [exact H|]. split; [exact F_1_neq_0|]. repeat split; ring.
Qed.

Theorem to_twisted_fibre : forall P Q, ed_valid B P -> ed_valid B Q ->
  exists T U b, ed_to_twisted B P = Ok T /\ ed_to_twisted B Q = Ok U /\ tw_ct_eq B T U = Ok b /\
    (b = true <-> let (x, y) := ed_affine B P in In (ed_affine B Q) [(x, y); (- x, - y); (y, - x); (- y, x)]).
Proof.
  intros P Q VP VQ. pose proof (valid_on B P VP) as OP. pose proof (valid_on B Q VQ) as OQ. apply (rep_of B) in VP, VQ.
  destruct (ed_to_twisted_ok B L _ _ VP) as (T & ET & HT). destruct (ed_to_twisted_ok B L _ _ VQ) as (U & EU & HU).
  exists T, U, (peqb (phi (ed_affine B P)) (phi (ed_affine B Q))). split; [exact ET|]. split; [exact EU|]. split; [exact (tw_ct_eq_ok B L _ _ _ _ HT HU)|].
  rewrite peqb_eq. destruct (ed_affine B P) as [x y], (ed_affine B Q) as [x' y']. rewrite in_four. apply phi_fibre; assumption.
Qed.
Theorem to_twisted_image : forall T, tw_valid B T ->
  ((exists P R, ed_valid B P /\ ed_to_twisted B P = Ok R /\ tw_ct_eq B R T = Ok true) <-> pmul tw_a tw_d ell (tw_affine B T) = pzero).
Proof.
  intros T V. pose proof (tw_valid_even B T V) as O. apply (tw_rep_of B) in V. rewrite <- phi_image by exact O. split.
  - intros (P & R & VP & ER & EQ). pose proof (valid_on B P VP) as OP. apply (rep_of B) in VP. destruct (ed_to_twisted_ok B L _ _ VP) as (R' & ER' & HR). rewrite ER in ER'. apply ok_inj in ER'. subst R'.
    rewrite (tw_ct_eq_ok B L _ _ _ _ HR V) in EQ. apply ok_inj in EQ. apply peqb_eq in EQ. exists (ed_affine B P). split; assumption.
  - intros (Q & OQ & EQ). destruct (ed_of Q OQ) as (P & VP & AP). exists P. pose proof (rep_of B P VP) as HP. destruct (ed_to_twisted_ok B L _ _ HP) as (R & ER & HR). exists R.
    split; [exact VP|]. split; [exact ER|]. rewrite (tw_ct_eq_ok B L _ _ _ _ HR V). apply (f_equal Ok). apply peqb_eq. rewrite AP. exact EQ.
Qed.
Theorem to_untwisted_fibre : forall T U, tw_valid B T -> tw_valid B U ->
  exists P Q b, tw_to_untwisted B T = Ok P /\ tw_to_untwisted B U = Ok Q /\ ed_ct_eq B P Q = Ok b /\ dc_equals B T U = Ok b /\
    (b = true <-> let (x, y) := tw_affine B T in In (tw_affine B U) [(x, y); (- x, - y)]).
Proof.
  intros T U VT VU. pose proof (tw_valid_even B T VT) as OT. pose proof (tw_valid_even B U VU) as OU. destruct (equals_class B S T U VT VU) as (e & EE & IE). apply (tw_rep_of B) in VT, VU.
  destruct (tw_to_untwisted_ok B L _ _ VT) as (P & EP & HP). destruct (tw_to_untwisted_ok B L _ _ VU) as (Q & EQ & HQ).
  exists P, Q, e. split; [exact EP|]. split; [exact EQ|].
  assert (K : (peqb (phihat (tw_affine B T)) (phihat (tw_affine B U))) = e).
  { apply Bool.eq_iff_eq_true. rewrite peqb_eq, IE. apply phihat_fibre; assumption. }
  split; [rewrite <- K; exact (ed_ct_eq_ok B L _ _ _ _ HP HQ)|]. split; [exact EE|].
  assert (SY : same_class (tw_affine B T) (tw_affine B U) <-> same_class (tw_affine B U) (tw_affine B T)).
  { rewrite <- (phihat_fibre _ _ OT OU), <- (phihat_fibre _ _ OU OT). split; intro; symmetry; assumption. }
  rewrite IE, SY. destruct (tw_affine B T) as [x y], (tw_affine B U) as [x' y']. rewrite in_two. apply class_coords.
Qed.
Theorem to_untwisted_image : forall P, ed_valid B P ->
  ((exists T R, tw_valid B T /\ tw_to_untwisted B T = Ok R /\ ed_ct_eq B R P = Ok true) <-> ed_is_torsion_free B P = Ok true).
Proof.
  intros P V. pose proof (valid_on B P V) as O. rewrite (torsion_free_eq B S P V). apply (rep_of B) in V.
  transitivity (ell • ed_affine B P = pzero).
  2:{ split; [intros ->; apply (f_equal Ok); apply peqb_refl|intro E; apply peqb_eq; apply ok_inj in E; exact E]. }
  rewrite <- phihat_image by exact O. split.
  - intros (T & R & VT & ER & EQ). pose proof (tw_valid_even B T VT) as OT. apply (tw_rep_of B) in VT. destruct (tw_to_untwisted_ok B L _ _ VT) as (R' & ER' & HR). rewrite ER in ER'. apply ok_inj in ER'. subst R'.
    rewrite (ed_ct_eq_ok B L _ _ _ _ HR V) in EQ. apply ok_inj in EQ. apply peqb_eq in EQ. exists (tw_affine B T). split; assumption.
  - intros (Q & OQ & EQ). destruct (tw_of Q OQ) as (T & VT & AT). exists T. pose proof (tw_rep_of B T VT) as HT. destruct (tw_to_untwisted_ok B L _ _ HT) as (R & ER & HR). exists R.
    split; [exact VT|]. split; [exact ER|]. rewrite (ed_ct_eq_ok B L _ _ _ _ HR V). apply (f_equal Ok). apply peqb_eq. rewrite AT. exact EQ.
Qed.

Lemma axes : forall x y, on_ed (x, y) -> (x * y = 0 <-> In (x, y) [(0, 1); (0, - (1)); (1, 0); (- (1), 0)]).
Proof.
  intros x y H. pose proof (ed_eq x y H) as E. rewrite in_four. split.
  - intro Z. destruct (fmul_integral _ _ Z) as [X|Y].
    + subst x. assert (Y : y * y = 1 * 1). { transitivity (0 * 0 + y * y - 1 + 1); [ring|]. rewrite <- E. ring. }
      destruct (fsq_eq _ _ Y) as [-> | ->]; [left|right; left]; reflexivity.
    + subst y. assert (X : x * x = 1 * 1). { transitivity (x * x + 0 * 0 - 1 + 1); [ring|]. rewrite <- E. ring. }
      destruct (fsq_eq _ _ X) as [-> | ->]; [right; right; left|right; right; right]; reflexivity.
  - intros [K|[K|[K|K]]]; apply pair_equal_spec in K; destruct K as [-> ->]; ring.
Qed.
Lemma uc_bytes : forall u v : F, le_bytes 56 (fval u) = le_bytes 56 (fval v) <-> u = v.
Proof.
  intros u v. split; [|intros ->; reflexivity]. intro E. apply (f_equal le_val) in E. pose proof (fval_range u). pose proof (fval_range v). assert (p < 2 ^ 448)%Z by reflexivity.
  rewrite !le_val_le_bytes in E by lia. apply F_eq. exact E.
Qed.
Theorem to_montgomery_fibre : forall P Q, ed_valid B P -> ed_valid B Q ->
  exists a b, ed_to_montgomery B P = Ok a /\ ed_to_montgomery B Q = Ok b /\
    let (x, y) := ed_affine B P in
    (x * y <> 0 -> (a = b <-> In (ed_affine B Q) [(x, y); (- x, y); (x, - y); (- x, - y)])) /\
    (x * y = 0 -> (a = b <-> In (ed_affine B Q) [(0, 1); (0, - (1)); (1, 0); (- (1), 0)])).
Proof.
  intros P Q VP VQ. pose proof (valid_on B P VP) as OP. pose proof (valid_on B Q VQ) as OQ. apply (rep_of B) in VP, VQ.
  eexists. eexists. split; [exact (ed_to_montgomery_ok B L _ _ VP)|]. split; [exact (ed_to_montgomery_ok B L _ _ VQ)|].
  destruct (ed_affine B P) as [x y], (ed_affine B Q) as [x' y']. rewrite uc_bytes. pose proof (uc_fibre x y x' y' OP OQ) as K. unfold uc in K. rewrite K. clear K. split; intro Z.
  - rewrite in_four. split.
    + intros [[X Y]|[E _]]; [|destruct (Z E)]. symmetry in X, Y. destruct (fsq_eq _ _ X) as [-> | ->], (fsq_eq _ _ Y) as [-> | ->]; auto.
    + intro K. left. destruct K as [K|[K|[K|K]]]; apply pair_equal_spec in K; destruct K as [-> ->]; split; ring.
  - rewrite <- (axes x' y' OQ). split; [|auto]. intros [[X Y]|[_ E]]; [|exact E].
    apply fsq_0. transitivity ((x' * x') * (y' * y')); [ring|]. rewrite <- X, <- Y. transitivity ((x * y) * (x * y)); [ring|]. rewrite Z. ring.
Qed.
Theorem to_montgomery_image : forall b, bytes 56 b ->
  ((exists P, ed_valid B P /\ ed_to_montgomery B P = Ok b) <->
   (le_val b < p)%Z /\ let u := of_Z (le_val b) in is_square u /\ is_square (u * u * u + of_Z 156326 * (u * u) + u)).
Proof.
  intros b Hb. split.
  - intros (P & V & E). pose proof (valid_on B P V) as O. apply (rep_of B) in V. rewrite (ed_to_montgomery_ok B L _ _ V) in E. apply ok_inj in E.
    change (snd (ed_affine B P) * snd (ed_affine B P) * finv (fst (ed_affine B P) * fst (ed_affine B P))) with (uc (ed_affine B P)) in E. pose proof (fval_range (uc (ed_affine B P))).
    assert (p < 2 ^ 448)%Z by reflexivity. assert (W : le_val b = fval (uc (ed_affine B P))) by (rewrite <- E; apply le_val_le_bytes; lia). rewrite W. split; [lia|].
    rewrite of_Z_fval. apply uc_image. exists (ed_affine B P). split; [exact O|reflexivity].
  - intros [Lt Sq]. apply uc_image in Sq. destruct Sq as (Q & O & E). destruct (ed_of Q O) as (P & V & A). exists P. split; [exact V|]. apply (rep_of B) in V.
    rewrite (ed_to_montgomery_ok B L _ _ V). apply (f_equal Ok). rewrite A. unfold uc in E. rewrite E. rewrite fval_of_Z, Z.mod_small; [apply bytes_le_bytes; exact Hb|].
    split; [|exact Lt]. apply le_val_nonneg. exact Hb.
Qed.
Theorem two_isogeny_refuted : exists P Q R T U V, ed_valid B P /\ ed_valid B Q /\ ed_valid B R /\
  ed_ct_eq B P Q = Ok false /\ ed_ct_eq B P R = Ok false /\ ed_ct_eq B Q R = Ok false /\
  ed_to_twisted B P = Ok T /\ ed_to_twisted B Q = Ok U /\ ed_to_twisted B R = Ok V /\ tw_ct_eq B T U = Ok true /\ tw_ct_eq B T V = Ok true.
Proof.
  pose proof on_G as OG. destruct SpecCurve.G as [x y]. assert (E : ed_a * (x * x) + y * y = 1 + ed_d * (x * x) * (y * y)) by exact OG. Local Transparent ed_a. unfold ed_a in E.
  assert (O1 : on_ed (- x, - y)). { unfold on_ed, on_curve, ed_a. transitivity (1 * (x * x) + y * y); [ring|]. rewrite E. ring. }
  assert (O2 : on_ed (y, - x)). { unfold on_ed, on_curve, ed_a. transitivity (1 * (x * x) + y * y); [ring|]. rewrite E. ring. }
  destruct (ed_of _ OG) as (P & VP & AP), (ed_of _ O1) as (Q & VQ & AQ), (ed_of _ O2) as (R & VR & AR).
  destruct (to_twisted_fibre P Q VP VQ) as (T & U & b & ET & EU & EB & IB). destruct (to_twisted_fibre P R VP VR) as (T' & W & c & ET' & EW & EC & IC). rewrite ET in ET'. apply ok_inj in ET'. subst T'.
  rewrite AP, AQ in IB. rewrite AP, AR in IC.
  assert (b = true) by (apply IB; cbn [In]; auto). assert (c = true) by (apply IC; cbn [In]; auto). subst b c. pose proof (four_different x y OG) as ND.
  assert (eqf : forall A C, ed_valid B A -> ed_valid B C -> ed_affine B A <> ed_affine B C -> ed_ct_eq B A C = Ok false).
  { intros A C VA VC N. destruct (ed_eq_iff B S A C VA VC) as (e & Ee & Ie). destruct e; [destruct (N (proj1 Ie eq_refl))|exact Ee]. }
  exists P, Q, R, T, U, W. do 3 (split; [assumption|]). apply NoDup_cons_iff in ND. destruct ND as [N1 ND]. apply NoDup_cons_iff in ND. destruct ND as [N2 _].
  split; [apply eqf; [exact VP|exact VQ|]; rewrite AP, AQ; intro K; apply N1; rewrite K; cbn [In]; auto|].
  split; [apply eqf; [exact VP|exact VR|]; rewrite AP, AR; intro K; apply N1; rewrite K; cbn [In]; auto|].
  split; [apply eqf; [exact VQ|exact VR|]; rewrite AQ, AR; intro K; apply N2; rewrite K; cbn [In]; auto|].
  repeat split; assumption.
Qed.
End Maps.

Theorem different_points : forall x y, on_ed (x, y) -> x * y <> 0 -> NoDup [(x, y); (- x, y); (x, - y); (- x, - y)].
Proof.
  intros x y H Z. destruct (fmul_nonzero_inv _ _ Z) as [Nx Ny].
  assert (Ex : forall P : Prop, x = - x -> P) by (intros P E; destruct (Nx (fopp_eq_self x E))). assert (Ey : forall P : Prop, y = - y -> P) by (intros P E; destruct (Ny (fopp_eq_self y E))).
  assert (X : forall a b c d : F, (a, b) = (c, d) -> a = c /\ b = d) by (intros a b c d E; apply pair_equal_spec; exact E).
  repeat constructor; cbn [In]; intro K; repeat (destruct K as [K|K]; [|]); try exact K; apply X in K; destruct K as [K1 K2];
    first [apply Ex; congruence|apply Ey; congruence].
Qed.

(** ** Cases *)
Lemma reached_twisted : forall B, shipped B -> tw_valid B (tw_generator B) /\ pmul tw_a tw_d ell (tw_affine B (tw_generator B)) = pzero /\
  exists T, tw_valid B T /\ pmul tw_a tw_d ell (tw_affine B T) <> pzero.
Proof.
  intros B S. destruct (tw_gen_valid B S) as [V A]. split; [exact V|]. split; [rewrite A; exact ell_D|].
  destruct (tw_of B S _ even_N) as (T & VT & AT). exists T. split; [exact VT|]. rewrite AT. intro E.
  destruct (proj2 (phi_image _ even_N) E) as ([x y] & O & EQ).
  (* phihat (phi P) = 4 P = phihat N = 0, so P is of order dividing 4 and phi P = 0 *)
  assert (F4 : 4 • (x, y) = pzero) by (rewrite <- phihat_phi by exact O; rewrite EQ; exact phihat_N).
  rewrite (phi_four _ O F4), zero_pair in EQ. apply pair_equal_spec in EQ. destruct EQ as [_ K]. apply F_1_neq_0. apply fopp_eq_self. exact K.
Qed.
Lemma reached_untwisted : forall B, shipped B -> ed_valid B (ed_generator B) /\ ed_is_torsion_free B (ed_generator B) = Ok true /\
  ed_valid B (t4_point B) /\ ed_is_torsion_free B (t4_point B) = Ok false.
Proof. intros B S. split; [exact (proj1 (gen_valid B S))|]. split; [exact (gen_torsion B S)|]. split; [exact (proj1 (t4_valid B S))|exact (t4_torsion B S)]. Qed.
Lemma reached_u : bytes 56 (le_bytes 56 5) /\ (forall B, shipped B -> exists P, ed_valid B P /\ ed_to_montgomery B P = Ok (le_bytes 56 5)) /\
  bytes 56 (le_bytes 56 (p - 1)) /\ (forall B, shipped B -> ~ exists P, ed_valid B P /\ ed_to_montgomery B P = Ok (le_bytes 56 (p - 1))).
Proof.
  split; [apply le_bytes_bytes|]. split.
  - intros B S. exists (ed_generator B). split; [exact (proj1 (gen_valid B S))|]. rewrite (generator_u B S). reflexivity.
  - split; [apply le_bytes_bytes|]. intros B S K. apply (to_montgomery_image B S) in K; [|apply le_bytes_bytes]. destruct K as [_ [K _]].
    assert (p < 2 ^ 448)%Z by reflexivity. pose proof p_pos. rewrite le_val_le_bytes in K by lia. apply neg1_nonsquare.
    replace (- (1) : F) with (of_Z (p - 1)); [exact K|]. apply fval_eq. vm_compute. reflexivity.
Qed.
