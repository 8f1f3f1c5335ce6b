(** Elementary number theory over [Z]: Fermat's little theorem and Pocklington's primality criterion. *)
Require Import ZArith Znumtheory List Bool Lia Permutation.
Import ListNotations.
Open Scope Z_scope.

Lemma mod_eq_divide : forall m a b, 0 < m -> (a mod m = b mod m <-> (m | a - b)).
Proof.
  intros m a b Hm. split.
  - intro E. apply Zmod_divide; [lia|]. rewrite Zminus_mod, E, Z.sub_diag. apply Z.mod_0_l. lia.
  - intros [q Hq]. replace a with (b + q * m) by lia. apply Z.mod_add. lia.
Qed.

Lemma mod_mul_cong : forall m a a' b b', 0 < m -> a mod m = a' mod m -> b mod m = b' mod m ->
  (a * b) mod m = (a' * b') mod m.
Proof. intros. rewrite Z.mul_mod, H0, H1, <- Z.mul_mod by lia. reflexivity. Qed.

Lemma mod_pow_cong : forall m a a' e, 0 < m -> 0 <= e -> a mod m = a' mod m -> (a ^ e) mod m = (a' ^ e) mod m.
Proof.
  intros m a a' e Hm He E. revert e He. apply natlike_ind.
  - reflexivity.
  - intros e He IH. rewrite !Z.pow_succ_r by lia. apply mod_mul_cong; assumption.
Qed.

Lemma pow_1_mod : forall m a e, 1 < m -> 0 <= e -> a mod m = 1 -> (a ^ e) mod m = 1.
Proof.
  intros m a e Hm He E. rewrite (mod_pow_cong m a 1 e) by (rewrite ?E, ?Z.mod_1_l; lia).
  rewrite Z.pow_1_l by lia. apply Z.mod_1_l. lia.
Qed.

(** ** Fermat *)
Definition zprod (l : list Z) : Z := fold_right Z.mul 1 l.

Lemma zprod_perm : forall l l', Permutation l l' -> zprod l = zprod l'.
Proof. intros l l' H. induction H; cbn; try lia. unfold zprod in *. cbn. nia. Qed.

Section Fermat.
Variable q : Z.
Hypothesis Hq : prime q.
Let q_gt1 : 1 < q. Proof. destruct Hq. lia. Qed.

Definition residues : list Z := map (fun k => Z.of_nat (S k)) (seq 0 (Z.to_nat (q - 1))).

Lemma residues_spec : forall x, In x residues <-> 1 <= x < q.
Proof.
  intro x. unfold residues. rewrite in_map_iff. split.
  - intros (k & <- & Hk). apply in_seq in Hk. lia.
  - intro Hx. exists (Z.to_nat (x - 1)). split; [lia|]. apply in_seq. lia.
Qed.

Lemma residues_NoDup : NoDup residues.
Proof.
  unfold residues. apply FinFun.Injective_map_NoDup; [|apply seq_NoDup].
  intros a b E. lia.
Qed.

Lemma residues_length : length residues = Z.to_nat (q - 1).
Proof. unfold residues. rewrite map_length, seq_length. reflexivity. Qed.

Lemma prime_cancel : forall a x y, ~ (q | a) -> (a * x) mod q = (a * y) mod q -> x mod q = y mod q.
Proof.
  intros a x y Ha E. apply mod_eq_divide in E; [|lia]. apply mod_eq_divide; [lia|].
  replace (a * x - a * y) with (a * (x - y)) in E by ring.
  apply prime_mult in E; [|exact Hq]. tauto.
Qed.

Lemma zprod_coprime : forall l, (forall x, In x l -> ~ (q | x)) -> ~ (q | zprod l).
Proof.
  induction l as [|x l IH]; intro H; cbn.
  - intro D. apply Z.divide_1_r in D. lia.
  - intro D. apply prime_mult in D; [|exact Hq]. destruct D as [D|D].
    + apply (H x); [left; reflexivity|exact D].
    + apply IH; [|exact D]. intros y Hy. apply H. right. exact Hy.
Qed.

Lemma zprod_scale : forall a l, zprod (map (fun x => (a * x) mod q) l) mod q = (a ^ Z.of_nat (length l) * zprod l) mod q.
Proof.
  intros a l. induction l as [|x l IH].
  - reflexivity.
  - cbn [map length zprod fold_right]. fold (zprod (map (fun x => (a * x) mod q) l)). fold (zprod l).
    rewrite Nat2Z.inj_succ, Z.pow_succ_r by lia.
    rewrite Z.mul_mod by lia. rewrite Z.mod_mod by lia. rewrite IH. rewrite <- Z.mul_mod by lia.
    f_equal. ring.
Qed.

Theorem fermat : forall a, ~ (q | a) -> a ^ (q - 1) mod q = 1.
Proof.
  intros a Ha.
  set (f := fun x => (a * x) mod q).
  assert (P : Permutation (map f residues) residues).
  { apply NoDup_Permutation_bis.
    - assert (G : forall l, (forall x, In x l -> 1 <= x < q) -> NoDup l -> NoDup (map f l)).
      { induction l as [|x l IH]; intros Hr HN; cbn [map]; [constructor|]. inversion HN; subst. constructor.
        - rewrite in_map_iff. intros (y & Ey & Hy). unfold f in Ey.
          apply prime_cancel in Ey; [|exact Ha].
          assert (1 <= x < q) by (apply Hr; left; reflexivity). assert (1 <= y < q) by (apply Hr; right; assumption).
          rewrite !Z.mod_small in Ey by lia. congruence.
        - apply IH; [|assumption]. intros y Hy. apply Hr. right. exact Hy. }
      apply G; [|apply residues_NoDup]. intros x Hx. apply residues_spec. exact Hx.
    - rewrite map_length. lia.
    - intros y Hy. rewrite in_map_iff in Hy. destruct Hy as (x & <- & Hx). apply residues_spec in Hx.
      apply residues_spec. unfold f. pose proof (Z.mod_pos_bound (a * x) q ltac:(lia)).
      assert ((a * x) mod q <> 0); [|lia]. intro E. apply Zmod_divide in E; [|lia].
      apply prime_mult in E; [|exact Hq]. destruct E as [E|E]; [tauto|].
      apply Z.divide_pos_le in E; lia. }
  apply zprod_perm in P. pose proof (zprod_scale a residues) as S. fold f in S. rewrite P in S.
  rewrite residues_length in S. rewrite Z2Nat.id in S by lia.
  replace (zprod residues) with (zprod residues * 1) in S at 1 by ring.
  rewrite (Z.mul_comm (a ^ (q - 1))) in S.
  apply prime_cancel in S.
  - rewrite Z.mod_1_l in S by lia. congruence.
  - apply zprod_coprime. intros x Hx. apply residues_spec in Hx. intro D. apply Z.divide_pos_le in D; lia.
Qed.
End Fermat.

(** ** Prime divisors *)
Lemma prime_divisor : forall n, 1 < n -> exists r, prime r /\ (r | n).
Proof.
  intros n Hn. assert (H0 : 0 <= n) by lia. revert n H0 Hn.
  apply (Zlt_0_ind (fun n => 1 < n -> exists r, prime r /\ (r | n))).
  intros n IH _ Hn. destruct (prime_dec n) as [P|N].
  - exists n. split; [exact P|apply Z.divide_refl].
  - destruct (not_prime_divide n Hn N) as (d & Hd & Dd).
    destruct (IH d ltac:(lia) ltac:(lia)) as (r & Pr & Dr). exists r. split; [exact Pr|].
    apply Z.divide_trans with d; assumption.
Qed.

Lemma prime_if_large_divisors : forall n, 1 < n -> (forall r, prime r -> (r | n) -> n < r * r) -> prime n.
Proof.
  intros n Hn H. destruct (prime_dec n) as [P|N]; [exact P|exfalso].
  destruct (not_prime_divide n Hn N) as (d & Hd & [e He]).
  assert (He1 : 1 < e) by nia.
  destruct (prime_divisor d ltac:(lia)) as (r & Pr & Dr).
  destruct (prime_divisor e He1) as (s & Ps & Ds).
  assert (n < r * r) by (apply H; [exact Pr|]; apply Z.divide_trans with d; [exact Dr|]; exists e; lia).
  assert (n < s * s) by (apply H; [exact Ps|]; apply Z.divide_trans with e; [exact Ds|]; exists d; lia).
  apply Z.divide_pos_le in Dr; [|lia]. apply Z.divide_pos_le in Ds; [|lia].
  destruct Pr, Ps.
  assert (n < d * d) by nia. assert (n < e * e) by nia. assert (e < d) by nia. nia.
Qed.

(** ** Pocklington *)
Lemma pock_divides : forall n q a r, 1 < n -> prime q -> (q | n - 1) -> a ^ (n - 1) mod n = 1 ->
  (exists u, (u * (a ^ ((n - 1) / q) - 1)) mod n = 1) -> prime r -> (r | n) -> (q | r - 1).
Proof.
  intros n q a r Hn Pq [k Hk] Ha [u Hu] Pr Dr.
  assert (Hr : 1 < r) by (destruct Pr; lia). assert (Hq : 1 < q) by (destruct Pq; lia).
  assert (Hk0 : 0 < k) by nia.
  assert (Ek : (n - 1) / q = k) by (rewrite Hk; apply Z.div_mul; lia). rewrite Ek in Hu.
  assert (red : forall x, x mod n = 1 -> x mod r = 1).
  { intros x Hx. destruct Dr as [c Hc]. pose proof (Z.div_mod x n ltac:(lia)) as D. rewrite Hx in D.
    rewrite D, Hc. replace (c * r * (x / (c * r)) + 1) with (1 + (c * (x / (c * r))) * r) by ring.
    rewrite Z.mod_add by lia. apply Z.mod_1_l. lia. }
  apply red in Ha. apply red in Hu.
  assert (NA : ~ (r | a)).
  { intros D. assert (X : a ^ (n - 1) mod r = 0).
    { replace (n - 1) with (Z.succ (n - 2)) by lia. rewrite Z.pow_succ_r by lia.
      apply Z.mod_divide; [lia|]. apply Z.divide_mul_l. exact D. }
    lia. }
  pose proof (fermat r Pr a NA) as F.
  destruct (Zdivide_dec q (r - 1)) as [D|ND]; [exact D|exfalso].
  assert (G : rel_prime q (r - 1)) by (apply prime_rel_prime; assumption).
  apply rel_prime_bezout in G. destruct G as [x y Hxy].
  (* make the coefficient of q non-negative *)
  set (t := (Z.abs x + 1) * (r - 1) + x). 
  assert (Ht : 1 <= t) by (unfold t; nia).
  set (w := (Z.abs x + 1) * q - y).
  assert (Htw : t * q = 1 + w * (r - 1)) by
    (unfold t, w; transitivity ((Z.abs x + 1) * (r - 1) * q + x * q); [ring | replace (x * q) with (1 - y * (r - 1)) by lia; ring]).
  clearbody t w.
  assert (Htq : 1 * 2 <= t * q) by (apply Z.mul_le_mono_nonneg; lia).
  assert (Hw : 0 <= w).
  { destruct (Z_lt_le_dec w 0); [exfalso|assumption].
    assert (w * (r - 1) <= 0) by (apply Z.mul_nonpos_nonneg; lia). lia. }
  assert (Hkw : 0 <= k * w) by (apply Z.mul_nonneg_nonneg; lia).
  assert (X : a ^ k mod r = 1).
  { assert (E1 : (a ^ (n - 1)) ^ t mod r = 1) by (apply pow_1_mod; lia).
    rewrite <- Z.pow_mul_r in E1 by lia. rewrite Hk in E1.
    replace (k * q * t) with (k * (t * q)) in E1 by ring. rewrite Htw in E1.
    replace (k * (1 + w * (r - 1))) with (k + (r - 1) * (k * w)) in E1 by ring.
    rewrite Z.pow_add_r in E1 by (try apply Z.mul_nonneg_nonneg; lia). rewrite Z.pow_mul_r in E1 by lia.
    rewrite Z.mul_mod in E1 by lia. rewrite (pow_1_mod r (a ^ (r - 1)) (k * w)) in E1 by lia.
    rewrite Z.mul_1_r, Z.mod_mod in E1 by lia. exact E1. }
  rewrite Z.mul_mod in Hu by lia. rewrite Zminus_mod, X in Hu. rewrite (Z.mod_1_l r) in Hu by lia.
  change ((1 - 1)) with 0 in Hu. rewrite (Z.mod_0_l r), Z.mul_0_r, Z.mod_0_l in Hu by lia. discriminate.
Qed.

Lemma prod_distinct_primes_divide : forall l m, NoDup l -> (forall q, In q l -> prime q /\ (q | m)) -> (zprod l | m).
Proof.
  induction l as [|q l IH]; intros m HN H; cbn.
  - apply Z.divide_1_l.
  - inversion HN as [|? ? Hni HN']; subst.
    destruct (H q (or_introl eq_refl)) as [Pq Dq].
    assert (Dl : (zprod l | m)) by (apply IH; [assumption|intros; apply H; right; assumption]).
    assert (RP : rel_prime q (zprod l)).
    { apply prime_rel_prime; [exact Pq|]. clear IH Dl HN HN'.
      induction l as [|x l IHl]; cbn.
      - intro D. apply Z.divide_1_r in D. destruct Pq. lia.
      - intro D. apply prime_mult in D; [|exact Pq]. destruct D as [D|D].
        + apply prime_div_prime in D; [|exact Pq|apply H; right; left; reflexivity].
          apply Hni. left. congruence.
        + apply IHl; [| |exact D].
          * intros q' Hq'. apply H. destruct Hq' as [->|Hq']; [left; reflexivity|right; right; assumption].
          * intro. apply Hni. right. assumption. }
    destruct Dl as [c Hc]. rewrite Hc in Dq. rewrite Z.mul_comm in Dq.
    apply Gauss in Dq; [|exact RP]. destruct Dq as [e He]. exists e. fold (zprod l). rewrite Hc, He. ring.
Qed.

Theorem pocklington : forall n a qs, 1 < n -> a ^ (n - 1) mod n = 1 -> NoDup qs ->
  (forall q, In q qs -> prime q /\ (q | n - 1) /\ exists u, (u * (a ^ ((n - 1) / q) - 1)) mod n = 1) ->
  n < zprod qs * zprod qs -> prime n.
Proof.
  intros n a qs Hn Ha HN H Hlt. apply prime_if_large_divisors; [exact Hn|].
  intros r Pr Dr.
  assert (D : (zprod qs | r - 1)).
  { apply prod_distinct_primes_divide; [exact HN|]. intros q Hq. destruct (H q Hq) as (Pq & Dq & Hu).
    split; [exact Pq|]. apply (pock_divides n q a r); assumption. }
  assert (0 < r - 1) by (destruct Pr; lia).
  apply Z.divide_abs_l in D. apply Z.divide_pos_le in D; [|assumption].
  rewrite <- (Z.abs_square (zprod qs)) in Hlt. nia.
Qed.

(** Trial division, for the small primes at the leaves of the certificates. *)
Fixpoint no_divisor (n d : Z) (fuel : nat) : bool :=
  match fuel with
  | O => true
  | S f => negb (n mod d =? 0) && no_divisor n (d + 1) f
  end.

Lemma no_divisor_ok : forall fuel n d, 0 < d -> no_divisor n d fuel = true ->
  forall x, d <= x < d + Z.of_nat fuel -> ~ (x | n).
Proof.
  induction fuel; intros n d Hd H x Hx; [lia|].
  cbn [no_divisor] in H. apply andb_true_iff in H. destruct H as [H1 H2].
  destruct (Z.eq_dec x d) as [->|N].
  - apply negb_true_iff, Z.eqb_neq in H1. intro D. apply H1. apply Z.mod_divide; [lia|exact D].
  - apply (IHfuel n (d + 1)); [lia|exact H2|lia].
Qed.

Lemma trial_prime : forall n fuel, 1 < n -> no_divisor n 2 fuel = true ->
  n < (Z.of_nat fuel + 2) * (Z.of_nat fuel + 2) -> prime n.
Proof.
  intros n fuel Hn H Hlt. apply prime_if_large_divisors; [exact Hn|]. intros r Pr Dr.
  destruct (Z_lt_le_dec r (Z.of_nat fuel + 2)).
  - exfalso. apply (no_divisor_ok fuel n 2 ltac:(lia) H r); [destruct Pr; lia|exact Dr].
  - nia.
Qed.
