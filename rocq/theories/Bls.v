(** A primality test that needs only a third of N - 1 factored (Brillhart, Lehmer and Selfridge), for the order of the twist. *)
Require Import ZArith Znumtheory List Bool Lia.
From Verif Require Import NumTheory HexNum Pock.
Import ListNotations.
Open Scope Z_scope.

(** A tree of the primes q, with the inverses of a^((N - 1) / q) - 1: from x = a^e with e times the product of the primes of the tree
    being N - 1, the powers at the leaves share their squarings. *)
Inductive qtree : Type := Leaf (q : positive) (u : Z) | Node (t1 t2 : qtree).
Fixpoint tprod (t : qtree) : positive := match t with Leaf q _ => q | Node t1 t2 => (tprod t1 * tprod t2)%positive end.
Fixpoint leaves (t : qtree) : list Z := match t with Leaf q _ => [Zpos q] | Node t1 t2 => leaves t1 ++ leaves t2 end.
Fixpoint tree_check (N : Z) (n : nat) (Nl : list dig) (n0 : dig) (t : qtree) (x : list dig) : bool :=
  match t with
  | Leaf q u =>
      ((u * (hval x - 16 ^ Z.of_nat n)) mod N =? 1) &&
      (if (q =? 2)%positive then match mpow n Nl n0 x 2 with Some r => hval r mod N =? 16 ^ Z.of_nat n mod N | None => false end else true)
  | Node t1 t2 =>
      match mpow n Nl n0 x (tprod t2), mpow n Nl n0 x (tprod t1) with
      | Some y1, Some y2 => tree_check N n Nl n0 t1 y1 && tree_check N n Nl n0 t2 y2
      | _, _ => false
      end
  end.
Definition entries_check (N : Z) (n : nat) (n0 a : dig) (k : positive) (t : qtree) : bool :=
  let Nl := hex n N in
  let R := 16 ^ Z.of_nat n in
  let aR := hex n ((dval a * R) mod N) in
  (1 <? N) && (N <? R) && (N mod 2 =? 1) && (Zpos k * Zpos (tprod t) =? N - 1) &&
  match mpow_small n Nl n0 a aR k with
  | None => false
  | Some r => tree_check N n Nl n0 t r
  end.
Definition leaf_ok (N a q : Z) : Prop :=
  (q | N - 1) /\ (exists u, (u * (a ^ ((N - 1) / q) - 1)) mod N = 1) /\ (q = 2 -> a ^ (N - 1) mod N = 1).
Lemma tree_check_ok : forall N n n0 a, 1 < N -> N < 16 ^ Z.of_nat n -> N mod 2 = 1 -> forall t e x, 0 <= e -> e * Zpos (tprod t) = N - 1 ->
  mform n (hex n N) (a ^ e) x -> tree_check N n (hex n N) n0 t x = true -> forall q, In q (leaves t) -> leaf_ok N a q.
Proof.
  intros N n n0 a H1N HNR H2. set (Nl := hex n N). set (R := 16 ^ Z.of_nat n) in *.
  assert (HNl : hval Nl = N) by (unfold Nl; rewrite hval_hex; apply Z.mod_small; unfold R in *; lia).
  induction t as [q0 u|t1 IH1 t2 IH2]; intros e x He Ee Hx H q Hq; cbn [tree_check leaves tprod] in *.
  - destruct Hq as [<-|[]]. apply andb_true_iff in H. destruct H as [H HF]. apply Z.eqb_eq in H. fold R in H, HF.
    assert (E' : (N - 1) / Zpos q0 = e) by (rewrite <- Ee; apply Z.div_mul; lia).
    split; [exists e; lia|]. split.
    + exists (u * R). rewrite E'. etransitivity; [|exact H]. unfold mform in Hx. rewrite HNl in Hx. fold R in Hx.
      rewrite <- Z.mul_assoc. apply mod_mul_cong; [lia|reflexivity|].
      replace (R * (a ^ e - 1)) with (a ^ e * R - R) by ring.
      rewrite Zminus_mod, <- Hx, <- Zminus_mod. reflexivity.
    + intro Q2. injection Q2 as ->. cbn [Pos.eqb] in HF. destruct (mpow n Nl n0 x 2) as [r|] eqn:E2; [|discriminate]. apply Z.eqb_eq in HF.
      apply (mpow_form n Nl n0) with (v := a ^ e) in E2; [|rewrite HNl; assumption|rewrite HNl; assumption|exact Hx].
      rewrite <- Z.pow_mul_r in E2 by lia. rewrite Ee in E2. unfold mform in E2. rewrite HNl in E2. fold R in E2. rewrite HF in E2.
      assert (X : (R * 1) mod N = (R * a ^ (N - 1)) mod N) by (rewrite Z.mul_1_r, E2; f_equal; ring).
      pose proof (R_cancel n Nl) as RC. rewrite HNl in RC. apply (RC H1N H2) in X. rewrite Z.mod_1_l in X by lia. symmetry. exact X.
  - destruct (mpow n Nl n0 x (tprod t2)) as [y1|] eqn:E1; [|discriminate]. destruct (mpow n Nl n0 x (tprod t1)) as [y2|] eqn:E2; [|discriminate].
    apply andb_true_iff in H. destruct H as [C1 C2].
    apply (mpow_form n Nl n0) with (v := a ^ e) in E1; [|rewrite HNl; assumption|rewrite HNl; assumption|exact Hx].
    apply (mpow_form n Nl n0) with (v := a ^ e) in E2; [|rewrite HNl; assumption|rewrite HNl; assumption|exact Hx].
    rewrite <- Z.pow_mul_r in E1, E2 by lia. rewrite Pos2Z.inj_mul in Ee.
    apply in_app_iff in Hq. destruct Hq as [Hq|Hq].
    + apply (IH1 (e * Zpos (tprod t2)) y1); try assumption; [apply Z.mul_nonneg_nonneg; lia|]. rewrite <- Ee. ring.
    + apply (IH2 (e * Zpos (tprod t1)) y2); try assumption; [apply Z.mul_nonneg_nonneg; lia|]. rewrite <- Ee. ring.
Qed.
Lemma entries_check_ok : forall N n n0 a k t, entries_check N n n0 a k t = true -> 1 < N /\ forall q, In q (leaves t) -> leaf_ok N (dval a) q.
Proof.
  intros N n n0 a k t H. unfold entries_check in H.
  apply andb_true_iff in H. destruct H as [H Hd]. apply andb_true_iff in H. destruct H as [H Hk].
  apply andb_true_iff in H. destruct H as [H H2]. apply andb_true_iff in H. destruct H as [H1N HNR].
  apply Z.ltb_lt in H1N. apply Z.ltb_lt in HNR. apply Z.eqb_eq in H2. apply Z.eqb_eq in Hk.
  split; [exact H1N|].
  destruct (mpow_small n (hex n N) n0 a (hex n ((dval a * 16 ^ Z.of_nat n) mod N)) k) as [r|] eqn:E; [|discriminate].
  set (R := 16 ^ Z.of_nat n) in *.
  assert (HNl : hval (hex n N) = N) by (rewrite hval_hex; apply Z.mod_small; unfold R in *; lia).
  apply mpow_small_form in E; [|rewrite HNl; assumption|rewrite HNl; assumption|].
  - exact (tree_check_ok N n n0 (dval a) H1N HNR H2 t (Zpos k) r (Pos2Z.is_nonneg k) Hk E Hd).
  - unfold mform. rewrite HNl. rewrite hval_hex. fold R.
    rewrite Z.mod_small with (b := R); [apply Z.mod_mod; lia|].
    pose proof (Z.mod_pos_bound (dval a * R) N ltac:(lia)). lia.
Qed.

(** A factor 4 of N - 1 also divides r - 1. *)
Lemma four_divides : forall n a r, 1 < n -> (4 | n - 1) -> a ^ (n - 1) mod n = 1 ->
  (exists u, (u * (a ^ ((n - 1) / 2) - 1)) mod n = 1) -> prime r -> (r | n) -> (4 | r - 1).
Proof.
  intros n a r Hn [k Hk] Ha [u Hu] Pr Dr. assert (Hr : 1 < r) by (destruct Pr; lia).
  assert (E2 : (n - 1) / 2 = 2 * k) by (rewrite Hk; replace (k * 4) with (2 * k * 2) by ring; apply Z.div_mul; lia).
  assert (D2 : (2 | r - 1)).
  { apply (pock_divides n 2 a r); try assumption; [exact prime_2|exists (2 * k); lia|exists u; exact Hu]. }
  rewrite E2 in Hu.
  assert (red : forall x, x mod n = 1 -> x mod r = 1).
  { intros x Hx. destruct Dr as [c Hc]. pose proof (Z.div_mod x n ltac:(lia)) as D. rewrite Hx in D.
    rewrite D, Hc. replace (c * r * (x / (c * r)) + 1) with (1 + (c * (x / (c * r))) * r) by ring.
    rewrite Z.mod_add by lia. apply Z.mod_1_l. lia. }
  apply red in Ha. apply red in Hu.
  assert (NA : ~ (r | a)).
  { intros D. assert (X : a ^ (n - 1) mod r = 0).
    { replace (n - 1) with (Z.succ (n - 2)) by lia. rewrite Z.pow_succ_r by lia.
      apply Z.mod_divide; [lia|]. apply Z.divide_mul_l. exact D. }
    lia. }
  pose proof (fermat r Pr a NA) as F. destruct D2 as [m Hm].
  destruct (Z.Even_or_Odd m) as [[j Ej]|[j Ej]]; [exists j; lia|exfalso].
  (* r - 1 = 4 j + 2, n - 1 = 4 k *)
  assert (X : a ^ (2 * k) mod r = 1).
  { assert (E1 : (a ^ (r - 1)) ^ k mod r = 1) by (apply pow_1_mod; lia). rewrite <- Z.pow_mul_r in E1 by lia.
    replace ((r - 1) * k) with (2 * k + (n - 1) * j) in E1 by nia. rewrite Z.pow_add_r in E1 by nia. rewrite (Z.pow_mul_r a (n - 1) j) in E1 by lia.
    rewrite Z.mul_mod in E1 by lia. rewrite (pow_1_mod r (a ^ (n - 1)) j) in E1 by lia.
    rewrite Z.mul_1_r, Z.mod_mod in E1 by lia. exact E1. }
  rewrite Z.mul_mod in Hu by lia. rewrite Zminus_mod, X in Hu. rewrite (Z.mod_1_l r) in Hu by lia.
  change ((1 - 1)) with 0 in Hu. rewrite (Z.mod_0_l r), Z.mul_0_r, Z.mod_0_l in Hu by lia. discriminate.
Qed.

(** If the prime divisors of N are 1 modulo F, so are all. *)
Lemma all_divisors : forall N F, 1 < F -> 1 < N -> (forall r, prime r -> (r | N) -> (F | r - 1)) ->
  forall d, 0 < d -> (d | N) -> (F | d - 1).
Proof.
  intros N F HF HN HP d Hd. assert (H0 : 0 <= d) by lia. revert d H0 Hd.
  apply (Zlt_0_ind (fun d => 0 < d -> (d | N) -> (F | d - 1))). intros d IH _ Hd Dd.
  destruct (Z.eq_dec d 1) as [->|N1]; [exists 0; lia|].
  destruct (prime_divisor d ltac:(lia)) as (r & Pr & [e He]). assert (1 < r) by (destruct Pr; lia). assert (0 < e) by nia.
  assert (Fr : (F | r - 1)). { apply HP; [exact Pr|]. apply Z.divide_trans with d; [exists e; lia|exact Dd]. }
  assert (Fe : (F | e - 1)). { apply IH; [nia|lia|]. apply Z.divide_trans with d; [exists r; lia|exact Dd]. }
  destruct Fr as [x Hx], Fe as [y Hy]. exists (x * e + y). rewrite He. replace (e * r) with (e * (r - 1) + e) by ring. rewrite Hx.
  replace e with (y * F + 1) at 2 by lia. ring.
Qed.

(** N = 1 + R F with F large enough that two factors 1 + a F, 1 + b F determine a + b and a b, and no such a, b. *)
Theorem bls : forall N F c1 c2 s, 1 < F -> 1 < N -> (forall r, prime r -> (r | N) -> (F | r - 1)) ->
  N = 1 + F * (c2 * F + c1) -> 0 <= c1 < F -> 0 <= c2 -> c2 + 1 < F -> 0 <= s -> s * s < c1 * c1 - 4 * c2 < (s + 1) * (s + 1) -> prime N.
Proof.
  intros N F c1 c2 s HF HN HP EN Hc1 Hc2 Hlt Hs [S1 S2]. destruct (prime_dec N) as [P|NP]; [exact P|exfalso].
  destruct (not_prime_divide N HN NP) as (d & Hd & [e He]).
  assert (E1 : 1 < e). { destruct (Z_le_gt_dec e 1) as [L|G]; [exfalso|lia]. assert (e * d <= 1 * d) by (apply Z.mul_le_mono_nonneg_r; lia). lia. }
  destruct (all_divisors N F HF HN HP d ltac:(lia) ltac:(exists e; lia)) as [a Ha].
  destruct (all_divisors N F HF HN HP e ltac:(lia) ltac:(exists d; lia)) as [b Hb].
  assert (Ea : d = a * F + 1) by lia. assert (Eb : e = b * F + 1) by lia.
  assert (A1 : 1 <= a). { destruct (Z_le_gt_dec a 0) as [L|G]; [exfalso|lia]. assert (a * F <= 0 * F) by (apply Z.mul_le_mono_nonneg_r; lia). lia. }
  assert (B1 : 1 <= b). { destruct (Z_le_gt_dec b 0) as [L|G]; [exfalso|lia]. assert (b * F <= 0 * F) by (apply Z.mul_le_mono_nonneg_r; lia). lia. }
  assert (Q : a * b * F + (a + b) = c2 * F + c1).
  { apply (Z.mul_cancel_l _ _ F); [lia|]. rewrite EN, Ea, Eb in He.
    replace (F * (a * b * F + (a + b))) with ((b * F + 1) * (a * F + 1) - 1) by ring. lia. }
  assert (AB : a + b <= a * b + 1). { assert (0 <= (a - 1) * (b - 1)) by (apply Z.mul_nonneg_nonneg; lia). lia. }
  set (m := a * b) in *. set (t := a + b) in *.
  assert (L : m <= c2).
  { destruct (Z_le_gt_dec m c2) as [L|G]; [exact L|exfalso].
    assert ((c2 + 1) * F <= m * F) by (apply Z.mul_le_mono_nonneg_r; lia). unfold t in *. lia. }
  assert (E : m = c2).
  { destruct (Z_lt_le_dec m c2) as [G|G]; [exfalso|lia]. assert ((m + 1) * F <= c2 * F) by (apply Z.mul_le_mono_nonneg_r; lia). lia. }
  assert (E' : t = c1) by (rewrite E in Q; lia).
  assert (D : c1 * c1 - 4 * c2 = (a - b) * (a - b)) by (rewrite <- E, <- E'; unfold m, t; ring).
  rewrite D in S1, S2. clear - Hs S1 S2. rewrite <- (Z.abs_square (a - b)) in S1, S2. pose proof (Z.abs_nonneg (a - b)) as Hn.
  set (x := Z.abs (a - b)) in *. destruct (Z_le_gt_dec x s) as [L|G].
  - assert (x * x <= s * s) by (apply Z.mul_le_mono_nonneg; lia). lia.
  - assert ((s + 1) * (s + 1) <= x * x) by (apply Z.mul_le_mono_nonneg; lia). lia.
Qed.

(** The whole check: F is twice the product of the leaves, which are 2 and the odd primes qs. *)
Definition bls_check (N : Z) (n : nat) (n0 a : dig) (k : positive) (t : qtree) (qs : list positive) (s : Z) : bool :=
  let F := 4 * zprod (map Zpos qs) in
  let R := (N - 1) / F in
  let c1 := R mod F in let c2 := R / F in
  entries_check N n n0 a k t && distinct (2%positive :: qs) && forallb (fun q => existsb (Z.eqb (Zpos q)) (leaves t)) (2%positive :: qs) &&
  (F * R =? N - 1) && ((N - 1) mod 4 =? 0) && (1 <? F) && (c2 + 1 <? F) && (0 <=? s) &&
  (s * s <? c1 * c1 - 4 * c2) && (c1 * c1 - 4 * c2 <? (s + 1) * (s + 1)) && (0 <=? c2).
Lemma zprod_odd : forall l, (forall q, In q l -> prime q /\ q <> 2) -> rel_prime 2 (zprod l).
Proof.
  intros l H. apply prime_rel_prime; [exact prime_2|]. induction l as [|q l IH]; cbn.
  - intro D. apply Z.divide_1_r in D. lia.
  - fold (zprod l). intro D. apply prime_mult in D; [|exact prime_2]. destruct D as [D|D].
    + destruct (H q (or_introl eq_refl)) as [Pq N2]. apply prime_div_prime in D; [congruence|exact prime_2|exact Pq].
    + apply IH; [|exact D]. intros. apply H. right. assumption.
Qed.
Theorem bls_check_ok : forall N n n0 a k t qs s, bls_check N n n0 a k t qs s = true -> (forall q, In q (map Zpos qs) -> prime q) -> prime N.
Proof.
  intros N n n0 a k t qs s H HP. unfold bls_check in H. cbv zeta in H. set (F := 4 * zprod (map Zpos qs)) in *.
  do 10 (apply andb_true_iff in H; destruct H as [H ?]).
  apply Z.leb_le in H0, H3. apply Z.ltb_lt in H1, H2, H4, H5. apply Z.eqb_eq in H6, H7. apply distinct_ok in H9. rewrite forallb_forall in H8.
  destruct (entries_check_ok _ _ _ _ _ _ H) as (HN & HQ').
  assert (HQ : forall q, In q (2%positive :: qs) -> leaf_ok N (dval a) (Zpos q)).
  { intros q Hq. apply HQ'. apply H8 in Hq. apply existsb_exists in Hq. destruct Hq as (x & Hx & E). apply Z.eqb_eq in E. rewrite E. exact Hx. }
  destruct (HQ 2%positive (or_introl eq_refl)) as (_ & U2 & Ha). specialize (Ha eq_refl). cbn [map] in H9. inversion H9 as [|? ? N2 ND]; subst.
  apply (bls N F (((N - 1) / F) mod F) ((N - 1) / F / F) s); try assumption.
  - intros r Pr Dr.
    assert (D4 : (4 | r - 1)).
    { apply (four_divides N (dval a) r); try assumption; [apply Z.mod_divide; [lia|exact H6]]. }
    assert (DP : (zprod (map Zpos qs) | r - 1)).
    { apply prod_distinct_primes_divide; [exact ND|].
      intros q Hq. split; [apply HP; exact Hq|]. pose proof (HP q Hq) as Pq. apply in_map_iff in Hq. destruct Hq as (q' & <- & Hq).
      destruct (HQ q' (or_intror Hq)) as (Dq & Uq & _).
      apply (pock_divides N (Zpos q') (dval a) r); assumption. }
    unfold F. set (Pz := zprod (map Zpos qs)) in *. destruct DP as [c Hc]. rewrite Hc in *.
    assert (RP : rel_prime 4 Pz).
    { change 4 with (2 * 2). apply rel_prime_sym. apply rel_prime_mult; apply rel_prime_sym; apply zprod_odd; intros q Hq;
        (split; [apply HP; exact Hq|]); intros ->; contradiction. }
    rewrite Z.mul_comm in D4. apply Gauss in D4; [|exact RP]. destruct D4 as [g ->]. exists g. ring.
  - rewrite <- (Z.mul_comm F ((N - 1) / F / F)), <- Z.div_mod by lia. lia.
  - apply Z.mod_pos_bound. lia.
  - lia.
Qed.
