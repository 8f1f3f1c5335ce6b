(** Proofs for C94: chains of Montgomery multiplications. *)
Require Import ZArith Znumtheory List Bool Lia Permutation.
From Verif Require Import Base BaseProofs SpecParams SpecField SpecMontgomery SpecTwist SpecChain FieldTheory FieldBackend Backends FieldMain ScalarModel ScalarProofs ScalarProofs2 ScalarMain
  MontTheory Ladder LadderMont MontCurves MontgomeryModel MontgomeryMain TwistPrime MontOrder EdwardsProofs EdwardsMain GroupOrder Primes TwistMain.
Import ListNotations.
Open Scope Z_scope.
Local Opaque fadd fsub fmul fopp fdiv finv fpow of_Z ell ell_twist p mont_mul le_bytes.

Lemma product_nonneg : forall l, Forall is_scalar l -> 0 <= even_product l.
Proof.
  intros l H. induction H as [|s l Hs _ IH]; [discriminate|]. unfold even_product in *. cbn [fold_right]. pose proof (lmult_nonneg s Hs) as K. unfold lmult in K. nia.
Qed.
Lemma product_perm : forall l l', Permutation l l' -> even_product l = even_product l'.
Proof.
  intros l l' H. unfold even_product. induction H as [|s l l' _ IH|s t l|l l' l'' _ IH _ IH']; cbn [fold_right]; [reflexivity|rewrite IH; reflexivity|ring|congruence].
Qed.
Lemma product_even : forall s l, is_scalar s -> (2 | even_product (s :: l)).
Proof. intros s l Hs. unfold even_product. cbn [fold_right]. apply Z.divide_mul_l. exact (even_lmult s Hs). Qed.
Lemma product_divides : forall q l, prime q -> (q | even_product l) -> Exists (fun s => (q | sval s + sval s mod 2)) l.
Proof.
  intros q l Hq. induction l as [|s l IH]; unfold even_product; cbn [fold_right]; intro D.
  - exfalso. destruct Hq as [H1 _]. apply Z.divide_1_r_nonneg in D; lia.
  - apply prime_mult in D; [|exact Hq]. destruct D as [D|D]; [left; exact D|right; exact (IH D)].
Qed.
Lemma divides_product : forall q l, Exists (fun s => (q | sval s + sval s mod 2)) l -> (q | even_product l).
Proof. intros q l H. unfold even_product. induction H; cbn [fold_right]; [apply Z.divide_mul_l; assumption|apply Z.divide_mul_r; assumption]. Qed.

Section Main.
Variable B : backend.
Hypothesis S : shipped B.
Lemma chain_point : forall e, curve_or_twist e -> forall l, Forall is_scalar l -> forall P, on_mont mont_A e P ->
  forall n, 0 <= n -> chain B (le_bytes 56 (fval (ucoord (mont_mul mont_A e n P)))) l = Ok (le_bytes 56 (fval (ucoord (mont_mul mont_A e (even_product l * n) P)))).
Proof.
  intros e He l H. induction H as [|s l Hs Hl IH]; intros P HP n Hn.
  - cbn [chain]. unfold even_product. cbn [fold_right]. rewrite Z.mul_1_l. reflexivity.
  - cbn [chain]. rewrite (mul_point B S e _ s He (mont_mul_on e He n P HP) Hs). cbn [bind]. pose proof (lmult_nonneg s Hs) as K.
    rewrite (mont_mul_assoc e He) by assumption. rewrite (IH P HP (lmult s * n)) by nia. f_equal. f_equal. f_equal. f_equal. f_equal.
    unfold even_product. cbn [fold_right]. unfold lmult. ring.
Qed.
Theorem chain_exact : forall u s l e v, bytes 56 u -> is_scalar s -> Forall is_scalar l -> curve_or_twist e -> on_mont mont_A e (Some (of_Z (le_val u), v)) ->
  chain B u (s :: l) = Ok (le_bytes 56 (fval (ucoord (mont_mul mont_A e (even_product (s :: l)) (Some (of_Z (le_val u), v)))))).
Proof.
  intros u s l e v Hu Hs Hl He H. cbn [chain]. destruct (mul_exact B S u s Hu Hs) as [_ M]. rewrite (M e v He H). cbn [bind]. fold (lmult s).
  rewrite (chain_point e He l Hl _ H (lmult s) (lmult_nonneg s Hs)). f_equal. f_equal. f_equal. f_equal. f_equal. unfold even_product. cbn [fold_right]. unfold lmult. ring.
Qed.
Theorem chain_order : forall u l l', bytes 56 u -> Forall is_scalar l -> Permutation l l' -> chain B u l = chain B u l' /\ exists r, chain B u l = Ok r /\ bytes 56 r.
Proof.
  intros u l l' Hu Hl HP. assert (Hl' : Forall is_scalar l') by (rewrite <- HP; exact Hl).
  destruct l as [|s l]; destruct l' as [|s' l'].
  - split; [reflexivity|]. exists u. split; [reflexivity|exact Hu].
  - apply Permutation_nil in HP. discriminate.
  - symmetry in HP. apply Permutation_nil in HP. discriminate.
  - destruct (mont_u_exists (of_Z (le_val u))) as (e & v & He & Hv). inversion Hl; subst. inversion Hl'; subst.
    rewrite (chain_exact u s l e v), (chain_exact u s' l' e v) by assumption. rewrite (product_perm _ _ HP). split; [reflexivity|]. eexists. split; [reflexivity|apply le_bytes_bytes].
Qed.

(** When the result is zero, and when two chains agree. *)
Lemma by_kind : forall u (Q : Prop) (D : Z -> Prop), (forall e l v, order_of e l -> on_mont mont_A e (Some (of_Z (le_val u), v)) -> (Q <-> D l \/ u_low (le_val u))) ->
  (Q <-> u_low (le_val u) \/ (u_on_curve (le_val u) /\ D ell) \/ (u_on_twist (le_val u) /\ D ell_twist)).
Proof.
  intros u Q D K.
  assert (K1 : forall v, on_mont mont_A 1%F (Some (of_Z (le_val u), v)) -> (Q <-> D ell \/ u_low (le_val u))).
  { intros v H. apply (K _ _ v (or_introl (conj eq_refl eq_refl)) H). }
  assert (K2 : forall v, on_mont mont_A (- (1))%F (Some (of_Z (le_val u), v)) -> (Q <-> D ell_twist \/ u_low (le_val u))).
  { intros v H. apply (K _ _ v (or_intror (conj eq_refl eq_refl)) H). }
  split.
  - intro E. destruct (u_kinds (le_val u)) as [C|C]; destruct C as [v H].
    + apply (K1 v H) in E. destruct E as [E|E]; [right; left; split; [exists v; exact H|exact E]|left; exact E].
    + apply (K2 v H) in E. destruct E as [E|E]; [right; right; split; [exists v; exact H|exact E]|left; exact E].
  - intros [E|[[[v H] E]|[[v H] E]]].
    + destruct (u_kinds (le_val u)) as [[v H]|[v H]]; [apply (K1 v H)|apply (K2 v H)]; right; exact E.
    + apply (K1 v H). left. exact E.
    + apply (K2 v H). left. exact E.
Qed.
Theorem chain_zero : forall u s l, bytes 56 u -> is_scalar s -> Forall is_scalar l ->
  (chain B u (s :: l) = Ok zeros <-> u_low (le_val u) \/ (u_on_curve (le_val u) /\ (ell | even_product (s :: l))) \/ (u_on_twist (le_val u) /\ (ell_twist | even_product (s :: l)))).
Proof.
  intros u s l Hu Hs Hl. apply (by_kind u _ (fun q => (q | even_product (s :: l)))). intros e q v Ho H.
  assert (He : curve_or_twist e) by (destruct Ho as [[-> _]|[-> _]]; [left|right]; reflexivity).
  rewrite (chain_exact u s l e v Hu Hs Hl He H), zero_out.
  rewrite (zero_iff e q Ho _ _ H (product_nonneg _ (Forall_cons _ Hs Hl)) (product_even s l Hs)). rewrite (low_iff e _ v He H). reflexivity.
Qed.
Theorem chain_equal : forall u s l s' l', bytes 56 u -> ~ u_low (le_val u) -> is_scalar s -> Forall is_scalar l -> is_scalar s' -> Forall is_scalar l' ->
  (4 | even_product (s :: l)) -> (4 | even_product (s' :: l')) ->
  (chain B u (s :: l) = chain B u (s' :: l') <->
   (u_on_curve (le_val u) /\ ((ell | even_product (s :: l) - even_product (s' :: l')) \/ (ell | even_product (s :: l) + even_product (s' :: l')))) \/
   (u_on_twist (le_val u) /\ ((ell_twist | even_product (s :: l) - even_product (s' :: l')) \/ (ell_twist | even_product (s :: l) + even_product (s' :: l'))))).
Proof.
  intros u s l s' l' Hu NL Hs Hl Hs' Hl' D D'. set (m := even_product (s :: l)) in *. set (n := even_product (s' :: l')) in *.
  pose proof (by_kind u (chain B u (s :: l) = chain B u (s' :: l')) (fun q => (q | m - n) \/ (q | m + n))) as K. rewrite K.
  - tauto.
  - intros e q v Ho H. assert (He : curve_or_twist e) by (destruct Ho as [[-> _]|[-> _]]; [left|right]; reflexivity).
    rewrite (chain_exact u s l e v Hu Hs Hl He H), (chain_exact u s' l' e v Hu Hs' Hl' He H). fold m n.
    assert (N2 : ucoord (mont_mul mont_A e 2 (Some (of_Z (le_val u), v))) <> of_Z 0) by (intro E; apply NL; apply (low_iff e _ v He H); exact E).
    pose proof (equal_iff e q Ho _ m n H (product_nonneg _ (Forall_cons _ Hs Hl)) (product_nonneg _ (Forall_cons _ Hs' Hl')) D D' N2) as Q.
    split.
    + intro E. apply ok_inj in E. apply le_inj in E. apply Q in E. left. exact E.
    + intros [E|E]; [|contradiction]. apply Q in E. rewrite E. reflexivity.
Qed.
Theorem chain_reduced : forall u l, bytes 56 u -> l <> [] -> Forall (fun s => is_scalar s /\ 0 < sval s < ell) l -> (chain B u l = Ok zeros <-> u_low (le_val u)).
Proof.
  intros u l Hu Nl H. destruct l as [|s l]; [contradiction|]. assert (Hl : Forall is_scalar (s :: l)) by (eapply Forall_impl; [|exact H]; intros a [X _]; exact X).
  inversion Hl; subst. rewrite chain_zero by assumption.
  assert (K : forall q, ell <= q -> prime q -> ~ (q | even_product (s :: l))).
  { intros q Hq Pq D. apply product_divides in D; [|exact Pq]. rewrite Exists_exists in D. destruct D as (t & I & D). rewrite Forall_forall in H. destruct (H t I) as [Ht R].
    pose proof ell_mod2 as E2. pose proof (Z.div_mod (sval t) 2 ltac:(lia)) as Dt. pose proof (Z.mod_pos_bound (sval t) 2 ltac:(lia)) as Rm.
    pose proof (Z.div_mod ell 2 ltac:(lia)) as De. apply Z.divide_pos_le in D; [|lia]. lia. }
  pose proof (K ell ltac:(lia) prime_ell). pose proof (K ell_twist ltac:(pose proof ell_twist_gt; lia) prime_ell_twist). tauto.
Qed.
Definition secret (k : list Z) : scalar := scalar_from_bytes (clamp448 k).
Theorem chain_x448 : forall u l, bytes 56 u -> l <> [] -> Forall (bytes 56) l ->
  (chain B u (map (fun k => scalar_from_bytes (clamp448 k)) l) = Ok zeros <->
   u_low (le_val u) \/ (u_on_curve (le_val u) /\ Exists (fun k => le_val (clamp448 k) = 4 * ell) l)).
Proof.
  intros u l Hu Nl H. fold secret.
  assert (HS : forall k, bytes 56 k -> is_scalar (secret k) /\ sval (secret k) + sval (secret k) mod 2 = le_val (clamp448 k)).
  { intros k Hk. destruct (clamp_facts k Hk) as (Hc & [q D4] & _). destruct (from_bytes_scalar _ Hc) as [X V]. split; [exact X|]. unfold secret. rewrite V, D4.
    replace (q * 4) with (q * 2 * 2) by ring. rewrite Z.mod_mul by lia. ring. }
  assert (EX : forall q, prime q -> ((q | even_product (map secret l)) <-> Exists (fun k => (q | le_val (clamp448 k))) l)).
  { intros q Pq. split.
    - intro D. apply product_divides in D; [|exact Pq]. rewrite Exists_exists in *. destruct D as (t & I & D). apply in_map_iff in I. destruct I as (k & <- & I). exists k. split; [exact I|].
      rewrite Forall_forall in H. rewrite <- (proj2 (HS k (H k I))). exact D.
    - intro D. apply divides_product. rewrite Exists_exists in *. destruct D as (k & I & D). exists (secret k). split; [apply in_map; exact I|].
      rewrite Forall_forall in H. rewrite (proj2 (HS k (H k I))). exact D. }
  assert (Hl : Forall is_scalar (map secret l)) by (apply Forall_forall; intros t I; apply in_map_iff in I; destruct I as (k & <- & I); rewrite Forall_forall in H; exact (proj1 (HS k (H k I)))).
  assert (Z : chain B u (map secret l) = Ok zeros <-> u_low (le_val u) \/ (u_on_curve (le_val u) /\ (ell | even_product (map secret l))) \/ (u_on_twist (le_val u) /\ (ell_twist | even_product (map secret l)))).
  { destruct l as [|k l]; [contradiction|]. cbn [map] in *. inversion Hl; subst. apply chain_zero; assumption. }
  change (map (fun k => scalar_from_bytes (clamp448 k)) l) with (map secret l). rewrite Z, (EX ell prime_ell), (EX ell_twist prime_ell_twist). clear Z EX Hl HS.
  pose proof ell_bounds as EB. pose proof ell_twist_bounds as TB. pose proof pows as PW. rewrite !Exists_exists. rewrite Forall_forall in H. split.
  - intros [E|[[C (k & I & D)]|[C (k & I & D)]]]; [left; exact E|right; split; [exact C|]; exists k; split; [exact I|]|exfalso]; destruct (clamp_facts k (H k I)) as (_ & D4 & R).
    + apply (four_l ell) in D; [|exact ell_mod2|exact D4]. destruct D as [q Hq]. assert (q = 1) by nia. lia.
    + apply (four_l ell_twist) in D; [|exact ell_twist_mod2|exact D4]. destruct D as [q Hq]. assert (1 <= q) by nia. nia.
  - intros [E|[C (k & I & D)]]; [left; exact E|right; left; split; [exact C|]]. exists k. split; [exact I|]. rewrite D. exists 4. ring.
Qed.
End Main.

(** ** Cases *)
Definition party (n : Z) : scalar := scalar_from_bytes (le_bytes 56 n).
Lemma party_ok : forall n, 0 <= n < 2 ^ 448 -> is_scalar (party n) /\ sval (party n) = n.
Proof. intros n Hn. destruct (from_bytes_scalar (le_bytes 56 n) (le_bytes_bytes 56 n)) as [H V]. split; [exact H|]. unfold party. rewrite V. apply le_val_le_bytes. exact Hn. Qed.
Lemma chain_case : forall B, shipped B -> let l := [party 3; party 4; party (ell - 1)] in
  Forall (fun s => is_scalar s /\ 0 < sval s < ell) l /\ Permutation l [party (ell - 1); party 3; party 4] /\ even_product l = 16 * (ell - 1) /\
  chain B (le_bytes 56 5) l <> Ok zeros /\ chain B (le_bytes 56 5) (l ++ [scalar_from_bytes (clamp448 weak_secret)]) = Ok zeros.
Proof.
  intros B S l. assert (EB : 4 < ell < 2 ^ 448) by (split; reflexivity). destruct (party_ok 3) as [H3 V3]; [lia|]. destruct (party_ok 4) as [H4 V4]; [lia|].
  destruct (party_ok (ell - 1)) as [H5 V5]; [lia|]. destruct weak_case as (Hw & Vw & C5 & N5 & _). destruct (clamp_facts weak_secret Hw) as (Hc & _ & _).
  destruct (from_bytes_scalar _ Hc) as [Hws Vws]. assert (E5 : le_val (le_bytes 56 5) = 5) by (vm_compute; reflexivity).
  assert (HF : Forall (fun s => is_scalar s /\ 0 < sval s < ell) l).
  { unfold l. apply Forall_cons; [split; [exact H3|lia]|]. apply Forall_cons; [split; [exact H4|lia]|]. apply Forall_cons; [split; [exact H5|lia]|]. apply Forall_nil. }
  split; [exact HF|]. split; [unfold l; apply (Permutation_cons_append [party 3; party 4] (party (ell - 1))) || (symmetry; apply (Permutation_cons_append [party 3; party 4] (party (ell - 1))))|].
  split; [|split].
  - unfold l, even_product. cbn [fold_right]. rewrite V3, V4, V5. change (3 mod 2) with 1. change (4 mod 2) with 0.
    assert (E : (ell - 1) mod 2 = 0) by (vm_compute; reflexivity). rewrite E. ring.
  - intro E. apply (chain_reduced B S _ _ (le_bytes_bytes 56 5)) in E; [|discriminate|exact HF]. rewrite E5 in E. contradiction.
  - unfold l. cbn [app]. apply (chain_zero B S); [apply le_bytes_bytes|exact H3|apply Forall_cons; [exact H4|]; apply Forall_cons; [exact H5|]; apply Forall_cons; [exact Hws|apply Forall_nil]|]. right. left. rewrite E5. split; [exact C5|].
    apply divides_product. do 3 right. left. rewrite Vws, Vw. exists 4. replace (4 * ell) with (2 * ell * 2) at 2 by ring. rewrite Z.mod_mul by lia. ring.
Qed.
