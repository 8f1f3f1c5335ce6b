(** Proofs of the scalar properties (statements are repeated in PropsScalar.v). *)
Require Import ZArith Znumtheory List Bool Lia.
From Verif Require Import Base BaseProofs SpecParams NumTheory Primes ScalarModel ScalarProofs ScalarProofs2.
Import ListNotations.
Open Scope Z_scope.
Open Scope res_scope.

Lemma scalar_bytes_bijection :
  (forall b, bytes 56 b -> is_scalar (scalar_from_bytes b) /\ sval (scalar_from_bytes b) = le_val b /\
     scalar_to_bytes (scalar_from_bytes b) = b) /\
  (forall s, is_scalar s -> bytes 56 (scalar_to_bytes s) /\ le_val (scalar_to_bytes s) = sval s /\
     scalar_from_bytes (scalar_to_bytes s) = s) /\
  (forall a b, is_scalar a -> is_scalar b -> (scalar_eqb a b = true <-> sval a = sval b)).
Proof.
  split; [|split].
  - intros b Hb. destruct (from_bytes_scalar b Hb) as [H1 H2]. split; [exact H1|]. split; [exact H2|].
    rewrite to_bytes_digits by assumption. rewrite H2. apply array_digits_eval; [lia|exact Hb].
  - intros s Hs. destruct (to_bytes_scalar s Hs) as [H1 H2]. split; [exact H1|]. split; [exact H2|].
    destruct (from_bytes_scalar _ H1) as [H3 H4]. apply scalar_inj; [assumption|assumption|congruence].
  - exact scalar_eqb_ok.
Qed.

Lemma canonical_bytes_iff : forall b s, bytes 57 b ->
  (scalar_from_canonical_bytes b = Ok (Some s) <-> is_scalar s /\ sval s = le_val b /\ le_val b < ell).
Proof.
  intros b s Hb. destruct (from_canonical_ok b Hb) as [H1 H2].
  destruct (Z_lt_le_dec (le_val b) ell) as [L|L].
  - destruct (H1 L) as (s' & E & Hs & V). rewrite E. split.
    + intro X. injection X as <-. tauto.
    + intros (Hs' & V' & _). f_equal. f_equal. apply scalar_inj; [assumption|assumption|congruence].
  - rewrite (H2 L). split; [discriminate|]. lia.
Qed.

Lemma canonical_bytes_reject : forall b, bytes 57 b -> ell <= le_val b -> scalar_from_canonical_bytes b = Ok None.
Proof. intros b Hb. apply from_canonical_ok. exact Hb. Qed.

Lemma bytes_le_bytes : forall n b, bytes n b -> le_bytes n (le_val b) = b.
Proof. intros n b Hb. apply array_digits_eval; [lia|exact Hb]. Qed.

Lemma canonical_bytes_roundtrip :
  (forall b s, bytes 57 b -> scalar_from_canonical_bytes b = Ok (Some s) -> scalar_to_bytes_rfc_8032 s = b) /\
  (forall s, is_scalar s -> sval s < ell -> scalar_from_canonical_bytes (scalar_to_bytes_rfc_8032 s) = Ok (Some s)).
Proof.
  split.
  - intros b s Hb E. apply canonical_bytes_iff in E; [|exact Hb]. destruct E as (Hs & V & _).
    rewrite to_bytes_rfc_ok by assumption. rewrite V. apply bytes_le_bytes. exact Hb.
  - intros s Hs L. rewrite to_bytes_rfc_ok by assumption. pose proof (scalar_range s Hs).
    assert (X : le_val (le_bytes 57 (sval s)) = sval s).
    { unfold le_val, le_bytes. rewrite eval_digits by lia. apply Z.mod_small.
      assert (2 ^ 448 < 2 ^ (8 * Z.of_nat 57)) by reflexivity. lia. }
    apply canonical_bytes_iff; [apply digits_array; lia|]. rewrite X. tauto.
Qed.

Lemma scalar_add_mod : forall a b, is_scalar a -> is_scalar b -> sval a < ell -> sval b < ell ->
  exists r, scalar_add a b = Ok r /\ is_scalar r /\ sval r = (sval a + sval b) mod ell.
Proof.
  intros a b Ha Hb La Lb. pose proof (scalar_range a Ha). pose proof (scalar_range b Hb).
  pose proof ell_lt. assert (2 ^ 446 * 2 < 2 ^ 448) by reflexivity.
  destruct (scalar_add_ok a b Ha Hb) as (r & E & Hr & V); [lia|].
  exists r. split; [exact E|]. split; [exact Hr|]. rewrite V. apply reduce_mod. lia.
Qed.

Lemma scalar_sub_mod : forall a b, is_scalar a -> is_scalar b -> sval a < ell -> sval b < ell ->
  exists r, scalar_sub a b = Ok r /\ is_scalar r /\ sval r = (sval a - sval b) mod ell.
Proof.
  intros a b Ha Hb La Lb. pose proof (scalar_range a Ha). pose proof (scalar_range b Hb).
  destruct (scalar_sub_ok a b Ha Hb) as (r & E & Hr & V); [lia|].
  exists r. split; [exact E|]. split; [exact Hr|]. rewrite V. pose proof ell_pos.
  destruct (Z.leb_spec (sval b) (sval a)).
  - symmetry. apply Z.mod_small. lia.
  - apply Z.mod_unique with (-1). left; lia. lia.
Qed.

Lemma scalar_add_exact_domain : forall a b, is_scalar a -> is_scalar b ->
  exists r, scalar_add a b = Ok r /\ is_scalar r /\
    (sval r mod ell = (sval a + sval b) mod ell <-> sval a + sval b < 2 ^ 448 + ell).
Proof.
  intros a b Ha Hb. pose proof (scalar_range a Ha). pose proof (scalar_range b Hb). pose proof ell_pos as EP.
  destruct (Z_lt_le_dec (sval a + sval b) (2 ^ 448 + ell)) as [L|L].
  - destruct (scalar_add_ok a b Ha Hb L) as (r & E & Hr & V). exists r. split; [exact E|]. split; [exact Hr|].
    split; [intro; exact L|]. intros _. rewrite V. apply reduce_cong.
  - destruct (scalar_add_overflow a b Ha Hb L) as (r & E & Hr & V). exists r. split; [exact E|]. split; [exact Hr|].
    split; [|lia]. intro C. exfalso.
    set (t := sval a + sval b) in *.
    assert (T : t < 2 * 2 ^ 448) by (unfold t; lia).
    assert (ML : mod_low_bits < 2 ^ 417 /\ 0 <= mod_low_bits) by (split; vm_compute; congruence).
    rewrite Z.mod_small in V.
    2:{ assert (2 ^ 417 < ell) by reflexivity. lia. }
    rewrite V in C. apply mod_eq_divide in C; [|lia].
    replace (t - 2 ^ 448 - ell + mod_low_bits - t) with (- (2 ^ 448 + ell - mod_low_bits)) in C by ring.
    apply Z.divide_opp_r in C. apply Z.mod_divide in C; [|lia].
    revert C. vm_compute. discriminate.
Qed.

Lemma scalar_sub_exact_domain : forall a b, is_scalar a -> is_scalar b ->
  exists r, scalar_sub a b = Ok r /\ is_scalar r /\
    (sval r mod ell = (sval a - sval b) mod ell <-> sval b <= sval a + ell).
Proof.
  intros a b Ha Hb. pose proof (scalar_range a Ha). pose proof (scalar_range b Hb). pose proof ell_pos as EP.
  destruct (Z_lt_le_dec (sval a + ell) (sval b)) as [L|L].
  - destruct (scalar_sub_underflow a b Ha Hb L) as (r & E & Hr & V). exists r. split; [exact E|]. split; [exact Hr|].
    split; [|lia]. intro C. exfalso. rewrite V in C. apply mod_eq_divide in C; [|lia].
    replace (sval a - sval b + ell + 2 ^ 448 - (sval a - sval b)) with (ell + 2 ^ 448) in C by ring.
    apply Z.mod_divide in C; [|lia]. revert C. vm_compute. discriminate.
  - destruct (scalar_sub_ok a b Ha Hb L) as (r & E & Hr & V). exists r. split; [exact E|]. split; [exact Hr|].
    split; [intro; exact L|]. intros _. rewrite V. destruct (Z.leb_spec (sval b) (sval a)); [reflexivity|].
    replace (sval a - sval b + ell) with (sval a - sval b + 1 * ell) by ring. apply Z.mod_add. lia.
Qed.

Definition top_scalar : scalar := repeat (2 ^ 32 - 1) 14.
Lemma top_scalar_ok : is_scalar top_scalar /\ sval top_scalar = 2 ^ 448 - 1.
Proof. split; [split; [reflexivity|repeat constructor; vm_compute; congruence]|reflexivity]. Qed.

Lemma scalar_add_wrong : exists a b r, is_scalar a /\ is_scalar b /\ scalar_add a b = Ok r /\
  sval r mod ell <> (sval a + sval b) mod ell.
Proof.
  exists top_scalar, top_scalar. destruct top_scalar_ok as [H V].
  destruct (scalar_add_exact_domain _ _ H H) as (r & E & Hr & I). exists r.
  split; [exact H|]. split; [exact H|]. split; [exact E|]. intro C. apply I in C. rewrite V in C. revert C. vm_compute. discriminate.
Qed.

Lemma scalar_sub_wrong : exists a b r, is_scalar a /\ is_scalar b /\ scalar_sub a b = Ok r /\
  sval r mod ell <> (sval a - sval b) mod ell.
Proof.
  exists scalar_zero, top_scalar. destruct top_scalar_ok as [H V]. destruct scalar_zero_ok as [H0 V0].
  destruct (scalar_sub_exact_domain _ _ H0 H) as (r & E & Hr & I). exists r.
  split; [exact H0|]. split; [exact H|]. split; [exact E|]. intro C. apply I in C. rewrite V, V0 in C. revert C. vm_compute. intuition.
Qed.

(** ** Inverse *)
Lemma ell_fermat : forall a, a mod ell <> 0 -> a ^ (ell - 1) mod ell = 1.
Proof.
  intros a Ha. apply (fermat ell prime_ell). intro D. apply Ha. apply Z.mod_divide; [|exact D]. pose proof ell_pos. lia.
Qed.

Lemma pow_pred_pred : forall a q, 2 < q -> a * a ^ (q - 2) = a ^ (q - 1).
Proof. intros a q Hq. rewrite <- Z.pow_succ_r by lia. f_equal. lia. Qed.
Lemma pow_zero_mod : forall a q e, 0 < q -> 0 < e -> a mod q = 0 -> a ^ e mod q = 0.
Proof.
  intros a q e Hq He Ha. rewrite (mod_pow_cong q a 0) by (rewrite ?Z.mod_0_l; lia). rewrite Z.pow_0_l by lia. apply Z.mod_0_l. lia.
Qed.

Lemma scalar_invert_ok : forall s, is_scalar s ->
  exists r, scalar_invert s = Ok r /\ is_scalar r /\ sval r < ell /\
    (sval s mod ell <> 0 -> (sval s * sval r) mod ell = 1) /\
    (sval s mod ell = 0 -> sval r = 0).
Proof.
  intros s Hs. destruct (scalar_invert_pow s Hs) as (r & E & Hr & V). pose proof ell_pos as EP.
  pose proof (ell_fermat (sval s)) as F. pose proof (pow_pred_pred (sval s) ell EP) as PP.
  pose proof (pow_zero_mod (sval s) ell (ell - 2) ltac:(lia) ltac:(lia)) as PZ.
  exists r. split; [exact E|]. split; [exact Hr|]. rewrite V.
  split; [apply Z.mod_pos_bound; lia|]. split.
  - intro N. rewrite Z.mul_mod_idemp_r by lia. rewrite PP. exact (F N).
  - exact PZ.
Qed.

Lemma scalar_invert_mul : forall s, is_scalar s -> sval s mod ell <> 0 ->
  exists i, scalar_invert s = Ok i /\ is_scalar i /\ sval i < ell /\
    scalar_mul i s = Ok scalar_one /\ scalar_mul s i = Ok scalar_one.
Proof.
  intros s Hs N. destruct (scalar_invert_ok s Hs) as (i & E & Hi & L & I & _). exists i.
  specialize (I N). destruct scalar_one_ok as [H1 V1].
  split; [exact E|]. split; [exact Hi|]. split; [exact L|]. split.
  - destruct (scalar_mul_ok i s Hi Hs) as (r & Er & Hr & Vr). rewrite Er. f_equal. apply scalar_inj; [assumption|assumption|].
    rewrite Vr, V1, Z.mul_comm. exact I.
  - destruct (scalar_mul_ok s i Hs Hi) as (r & Er & Hr & Vr). rewrite Er. f_equal. apply scalar_inj; [assumption|assumption|].
    rewrite Vr, V1. exact I.
Qed.

Lemma scalar_invert_zero : forall s, is_scalar s -> sval s mod ell = 0 -> scalar_invert s = Ok scalar_zero.
Proof.
  intros s Hs N. destruct (scalar_invert_ok s Hs) as (i & E & Hi & L & _ & Z0). rewrite E. f_equal.
  destruct scalar_zero_ok as [H0 V0]. apply scalar_inj; [assumption|assumption|]. rewrite V0. apply Z0. exact N.
Qed.

Lemma scalar_halve_mod : forall s, is_scalar s ->
  exists r, scalar_halve s = Ok r /\ is_scalar r /\ (2 * sval r) mod ell = sval s mod ell /\ (sval s < ell -> sval r < ell).
Proof.
  intros s Hs. destruct (scalar_halve_ok s Hs) as (r & E & Hr & V). exists r. pose proof ell_pos.
  split; [exact E|]. split; [exact Hr|]. rewrite V. pose proof (scalar_range s Hs).
  destruct (Z.even (sval s)).
  - split; [reflexivity|]. lia.
  - split; [|lia]. replace (sval s + ell) with (sval s + 1 * ell) by ring. apply Z.mod_add. lia.
Qed.

(** ** Counting for [random] *)
Lemma map_NoDup_range : forall {A} (f : nat -> A) n, (forall i j, (i < n)%nat -> (j < n)%nat -> f i = f j -> i = j) ->
  NoDup (map f (seq 0 n)).
Proof.
  intros A f n Hinj. assert (G : forall k m, (k + m <= n)%nat -> NoDup (map f (seq k m))).
  { intros k m. revert k. induction m; intros k Hk; cbn [seq map]; constructor.
    - rewrite in_map_iff. intros (x & E & Hx). apply in_seq in Hx. apply Hinj in E; lia.
    - apply IHm. lia. }
  apply G. lia.
Qed.

Lemma count_residues : forall m v N, 0 < m -> 0 <= v < m -> m <= N ->
  exists c, (Z.of_nat c = N / m \/ Z.of_nat c = N / m + 1) /\
    forall k, 0 <= v + k * m < N <-> 0 <= k < Z.of_nat c.
Proof.
  intros m v N Hm Hv HN. exists (Z.to_nat ((N - 1 - v) / m + 1)).
  assert (Q0 : 0 <= (N - 1 - v) / m) by (apply Z.div_pos; lia).
  rewrite Z2Nat.id by lia.
  pose proof (Z.div_mod N m ltac:(lia)) as D1. pose proof (Z.mod_pos_bound N m ltac:(lia)) as B1.
  pose proof (Z.div_mod (N - 1 - v) m ltac:(lia)) as D2. pose proof (Z.mod_pos_bound (N - 1 - v) m ltac:(lia)) as B2.
  set (q1 := N / m) in *. set (q2 := (N - 1 - v) / m) in *. set (r1 := N mod m) in *. set (r2 := (N - 1 - v) mod m) in *.
  clearbody q1 q2 r1 r2. split.
  - assert (m * (q1 - q2) < 2 * m) by lia. assert (- m < m * (q1 - q2)) by lia. nia.
  - intro k. split; intro Hk; nia.
Qed.

Lemma scalar_random_count : forall v, is_scalar v -> sval v < ell ->
  exists L, NoDup L /\ (forall b, In b L <-> bytes 114 b /\ scalar_random b = Ok v) /\
    (Z.of_nat (length L) = 2 ^ 912 / ell \/ Z.of_nat (length L) = 2 ^ 912 / ell + 1).
Proof.
  intros v Hv Lv. pose proof (scalar_range v Hv) as Rv. pose proof ell_pos as EP.
  destruct (count_residues ell (sval v) (2 ^ 912)) as (c & Hc & Hk); [lia|lia|vm_compute; discriminate|].
  exists (map (fun k => le_bytes 114 (sval v + Z.of_nat k * ell)) (seq 0 c)).
  assert (VAL : forall k, (k < c)%nat -> le_val (le_bytes 114 (sval v + Z.of_nat k * ell)) = sval v + Z.of_nat k * ell).
  { intros k K. unfold le_val, le_bytes. rewrite eval_digits by lia. apply Z.mod_small.
    change (8 * Z.of_nat 114) with 912. apply Hk. lia. }
  split; [|split].
  - apply map_NoDup_range. intros i j Hi Hj E. apply (f_equal le_val) in E. rewrite !VAL in E by assumption. nia.
  - intro b. rewrite in_map_iff. split.
    + intros (k & <- & Hin). apply in_seq in Hin. split; [apply digits_array; lia|].
      destruct (from_bytes_wide_ok (le_bytes 114 (sval v + Z.of_nat k * ell))) as (r & E & Hr & V); [apply digits_array; lia|].
      unfold scalar_random. rewrite E. f_equal. apply scalar_inj; [assumption|assumption|]. rewrite V, VAL by lia.
      rewrite Z.mod_add by lia. apply Z.mod_small. lia.
    + intros [Hb E]. destruct (from_bytes_wide_ok b Hb) as (r & E' & Hr & V). unfold scalar_random in E. rewrite E in E'.
      injection E' as <-.
      pose proof (Z.div_mod (le_val b) ell ltac:(lia)) as D. rewrite <- V in D.
      pose proof (array_range 8 114 b ltac:(lia) Hb) as R. fold (le_val b) in R. change (8 * Z.of_nat 114) with 912 in R.
      set (q := le_val b / ell) in *. clearbody q.
      assert (Q : 0 <= q < Z.of_nat c) by (apply Hk; lia).
      exists (Z.to_nat q). split; [|apply in_seq; lia].
      rewrite Z2Nat.id by lia. replace (sval v + q * ell) with (le_val b) by lia. apply bytes_le_bytes. exact Hb.
  - rewrite map_length, seq_length. exact Hc.
Qed.

Lemma scalar_random_canonical : forall b, bytes 114 b ->
  exists r, scalar_random b = Ok r /\ is_scalar r /\ sval r < ell.
Proof.
  intros b Hb. destruct (from_bytes_wide_ok b Hb) as (r & E & Hr & V). exists r. unfold scalar_random.
  split; [exact E|]. split; [exact Hr|]. rewrite V. apply Z.mod_pos_bound. reflexivity.
Qed.

Lemma scalar_bits_spec : forall s, is_scalar s ->
  length (scalar_bits s) = 448%nat /\
  forall i, (i < 448)%nat -> nth i (scalar_bits s) false = Z.testbit (sval s) (Z.of_nat i).
Proof. intros s Hs. exact (scalar_bits_ok 14 s Hs). Qed.

Lemma scalar_no_panic :
  (forall a b, is_scalar a -> is_scalar b ->
     scalar_add a b <> Panic /\ scalar_sub a b <> Panic /\ scalar_mul a b <> Panic /\
     scalar_invert a <> Panic /\ scalar_halve a <> Panic) /\
  (forall b, bytes 57 b -> scalar_from_canonical_bytes b <> Panic) /\
  (forall b, bytes 114 b -> scalar_from_bytes_mod_order_wide b <> Panic /\ scalar_random b <> Panic) /\
  (forall a, is_scalar a -> to_radix_16 a <> Panic).
Proof.
  split; [|split; [|split]].
  - intros a b Ha Hb.
    destruct (scalar_add_total a b Ha Hb) as (r1 & -> & _). destruct (scalar_sub_total a b Ha Hb) as (r2 & -> & _).
    destruct (scalar_mul_ok a b Ha Hb) as (r3 & -> & _). destruct (scalar_invert_pow a Ha) as (r4 & -> & _).
    destruct (scalar_halve_ok a Ha) as (r5 & -> & _). repeat split; discriminate.
  - intros b Hb. destruct (from_canonical_ok b Hb) as [H1 H2]. destruct (Z_lt_le_dec (le_val b) ell) as [L|L].
    + destruct (H1 L) as (s & -> & _). discriminate.
    + rewrite (H2 L). discriminate.
  - intros b Hb. unfold scalar_random. destruct (from_bytes_wide_ok b Hb) as (r & -> & _). split; discriminate.
  - intros a Ha. destruct (to_radix_16_ok a Ha) as (d & -> & _). discriminate.
Qed.

(** ** The field Z/l *)
Definition canonical (s : scalar) : Prop := is_scalar s /\ sval s < ell.

Lemma canonical_add : forall a b, canonical a -> canonical b ->
  exists r, scalar_add a b = Ok r /\ canonical r /\ sval r = (sval a + sval b) mod ell.
Proof.
  intros a b [Ha La] [Hb Lb]. destruct (scalar_add_mod a b Ha Hb La Lb) as (r & E & Hr & V). exists r.
  split; [exact E|]. split; [|exact V]. split; [exact Hr|]. rewrite V. apply Z.mod_pos_bound. reflexivity.
Qed.
Lemma canonical_sub : forall a b, canonical a -> canonical b ->
  exists r, scalar_sub a b = Ok r /\ canonical r /\ sval r = (sval a - sval b) mod ell.
Proof.
  intros a b [Ha La] [Hb Lb]. destruct (scalar_sub_mod a b Ha Hb La Lb) as (r & E & Hr & V). exists r.
  split; [exact E|]. split; [|exact V]. split; [exact Hr|]. rewrite V. apply Z.mod_pos_bound. reflexivity.
Qed.
Lemma canonical_mul : forall a b, canonical a -> canonical b ->
  exists r, scalar_mul a b = Ok r /\ canonical r /\ sval r = (sval a * sval b) mod ell.
Proof.
  intros a b [Ha La] [Hb Lb]. destruct (scalar_mul_ok a b Ha Hb) as (r & E & Hr & V). exists r.
  split; [exact E|]. split; [|exact V]. split; [exact Hr|]. rewrite V. apply Z.mod_pos_bound. reflexivity.
Qed.
Lemma canonical_eq : forall a b, canonical a -> canonical b -> sval a mod ell = sval b mod ell -> a = b.
Proof.
  intros a b [Ha La] [Hb Lb] E. pose proof (scalar_range a Ha). pose proof (scalar_range b Hb).
  rewrite !Z.mod_small in E by lia. apply scalar_inj; assumption.
Qed.

Ltac okstep :=
  match goal with
  | Ha : canonical ?a, Hb : canonical ?b |- context [scalar_add ?a ?b] =>
      let r := fresh "r" in let E := fresh "E" in let H := fresh "H" in let V := fresh "V" in
      destruct (canonical_add a b Ha Hb) as (r & E & H & V); rewrite !E; cbn [bind]
  | Ha : canonical ?a, Hb : canonical ?b |- context [scalar_sub ?a ?b] =>
      let r := fresh "r" in let E := fresh "E" in let H := fresh "H" in let V := fresh "V" in
      destruct (canonical_sub a b Ha Hb) as (r & E & H & V); rewrite !E; cbn [bind]
  | Ha : canonical ?a, Hb : canonical ?b |- context [scalar_mul ?a ?b] =>
      let r := fresh "r" in let E := fresh "E" in let H := fresh "H" in let V := fresh "V" in
      destruct (canonical_mul a b Ha Hb) as (r & E & H & V); rewrite !E; cbn [bind]
  end.
Ltac modfin :=
  eexists; split; [reflexivity|]; split; [assumption|]; f_equal; apply canonical_eq; [assumption|assumption|];
  repeat match goal with H : sval _ = _ mod ell |- _ => rewrite H; clear H end;
  pose proof ell_pos;
  repeat (rewrite ?Z.add_mod_idemp_l, ?Z.add_mod_idemp_r, ?Z.mul_mod_idemp_l, ?Z.mul_mod_idemp_r,
          ?Zminus_mod_idemp_l, ?Zminus_mod_idemp_r, ?Z.mod_mod by lia);
  f_equal; ring.

Lemma scalar_field_laws : forall a b c, canonical a -> canonical b -> canonical c ->
  (exists r, (x <- scalar_add a b ;; scalar_add x c) = Ok r /\ canonical r /\ (x <- scalar_add b c ;; scalar_add a x) = Ok r) /\
  (exists r, scalar_add a b = Ok r /\ canonical r /\ scalar_add b a = Ok r) /\
  scalar_add a scalar_zero = Ok a /\
  (x <- scalar_sub scalar_zero a ;; scalar_add a x) = Ok scalar_zero /\
  (exists r, scalar_sub a b = Ok r /\ canonical r /\ (x <- scalar_sub scalar_zero b ;; scalar_add a x) = Ok r) /\
  (exists r, (x <- scalar_mul a b ;; scalar_mul x c) = Ok r /\ canonical r /\ (x <- scalar_mul b c ;; scalar_mul a x) = Ok r) /\
  (exists r, scalar_mul a b = Ok r /\ canonical r /\ scalar_mul b a = Ok r) /\
  scalar_mul a scalar_one = Ok a /\
  (exists r, (x <- scalar_add b c ;; scalar_mul a x) = Ok r /\ canonical r /\
     (x <- scalar_mul a b ;; y <- scalar_mul a c ;; scalar_add x y) = Ok r) /\
  (a <> scalar_zero -> (x <- scalar_invert a ;; scalar_mul a x) = Ok scalar_one) /\
  scalar_one <> scalar_zero.
Proof.
  intros a b c Ha Hb Hc.
  destruct scalar_zero_ok as [Z1 Z2]. destruct scalar_one_ok as [O1 O2]. pose proof ell_pos as EP.
  assert (HZ : canonical scalar_zero) by (split; [exact Z1|rewrite Z2; lia]).
  assert (HO : canonical scalar_one) by (split; [exact O1|rewrite O2; lia]).
  repeat split.
  - do 4 okstep. modfin.
  - do 2 okstep. modfin.
  - okstep. f_equal. apply canonical_eq; [assumption|assumption|]. rewrite V, Z2, Z.add_0_r, Z.mod_mod by lia. reflexivity.
  - do 2 okstep. f_equal. apply canonical_eq; [assumption|assumption|]. rewrite V0, V, Z2.
    rewrite Z.add_mod_idemp_r, Z.mod_mod by lia. f_equal. lia.
  - do 3 okstep. eexists. split; [reflexivity|]. split; [assumption|]. f_equal. apply canonical_eq; [assumption|assumption|].
    repeat match goal with H : sval _ = _ mod ell |- _ => rewrite H; clear H end. rewrite ?Z2.
    rewrite ?Z.add_mod_idemp_r, ?Z.mod_mod by lia. reflexivity || (f_equal; lia).
  - do 4 okstep. modfin.
  - do 2 okstep. modfin.
  - okstep. f_equal. apply canonical_eq; [assumption|assumption|]. rewrite V, O2, Z.mul_1_r, Z.mod_mod by lia. reflexivity.
  - do 5 okstep. modfin.
  - intro N. destruct Ha as [Ha La]. destruct (scalar_invert_mul a Ha) as (i & E & _ & _ & _ & M).
    + pose proof (scalar_range a Ha). rewrite Z.mod_small by lia. intro E. apply N. apply scalar_inj; [assumption|assumption|congruence].
    + rewrite E. exact M.
  - discriminate.
Qed.
