(** Counting further: the strings the decoders accept, and how far random scalars are from uniform. *)
Require Import ZArith List Bool Lia.
From Verif Require Import Base BaseProofs SpecParams SpecField SpecCurve SpecCount SpecEncoding SpecRfc8032 SpecDecaf SpecExponent FieldBackend Backends
  ScalarModel ScalarProofs ScalarProofs2 ScalarMain DecafModel DecafProofs DecafRun DecafMain BackendLaws CurveTheory EdwardsMain EdwardsFacts GroupOrder Rfc8032Main ExponentMain CountStrings.
Import ListNotations.
Open Scope Z_scope.

(** ** Lists of numbers *)
Lemma range_length : forall l a b, a <= b -> NoDup l -> (forall x, In x l -> a <= x < b) -> Z.of_nat (length l) <= b - a.
Proof.
  intros l a b Hab N H. assert (I : incl l (map (fun i => a + Z.of_nat i) (seq 0 (Z.to_nat (b - a))))).
  { intros x Hx. apply H in Hx. apply in_map_iff. exists (Z.to_nat (x - a)). split; [lia|]. apply in_seq. lia. }
  apply (NoDup_incl_length N) in I. rewrite map_length, seq_length in I. lia.
Qed.
Lemma filter_split : forall (A : Type) (f : A -> bool) l, (length (filter f l) + length (filter (fun x => negb (f x)) l) = length l)%nat.
Proof. intros A f. induction l as [|x l IH]; [reflexivity|]. cbn [filter]. destruct (f x); cbn [negb length]; lia. Qed.

Lemma exactly_union : forall n m D D', exactly n D -> exactly m D' -> (forall b, D b -> ~ D' b) -> exactly (n + m) (fun b => D b \/ D' b).
Proof.
  intros n m D D' (l & N & <- & H) (l' & N' & <- & H') X. exists (l ++ l'). split; [|split].
  - assert (Y : forall b, In b l -> ~ In b l') by (intros b I J; apply (X b); [apply H|apply H']; assumption).
    clear H H' X. induction N as [|b l Nb _ IH]; [exact N'|]. cbn [app]. constructor.
    + rewrite in_app_iff. intros [I|I]; [exact (Nb I)|exact (Y b (or_introl eq_refl) I)].
    + apply IH. intros c I. apply Y. right. exact I.
  - rewrite app_length. lia.
  - intro b. rewrite in_app_iff, H, H'. reflexivity.
Qed.

(** ** Random scalars *)
Lemma quotient_exact : forall m v N, 0 < m -> 0 <= v < m -> v < N -> (N - 1 - v) / m + 1 = N / m + (if v <? N mod m then 1 else 0).
Proof.
  intros m v N Hm Hv HN. pose proof (Z.div_mod N m ltac:(lia)) as D1. pose proof (Z.mod_pos_bound N m ltac:(lia)) as B1.
  set (q1 := N / m) in *. set (r1 := N mod m) in *. clearbody q1 r1. destruct (Z.ltb_spec v r1).
  - rewrite <- (Z.div_unique (N - 1 - v) m q1 (r1 - 1 - v)); [ring|left; lia|lia].
  - rewrite <- (Z.div_unique (N - 1 - v) m (q1 - 1) (m + r1 - 1 - v)); [ring|left; lia|lia].
Qed.
Lemma random_one : forall v, is_scalar v -> sval v < ell ->
  exactly (2 ^ 912 / ell + (if sval v <? 2 ^ 912 mod ell then 1 else 0)) (fun b => bytes 114 b /\ scalar_random b = Ok v).
Proof.
  intros v Hv Lv. pose proof (scalar_range v Hv) as Rv. pose proof ell_pos as EP.
  assert (EN : ell < 2 ^ 912) by reflexivity. rewrite <- quotient_exact by lia.
  assert (Hk : forall k, 0 <= sval v + k * ell < 2 ^ 912 <-> 0 <= k < (2 ^ 912 - 1 - sval v) / ell + 1) by (intro k; apply count_exact; lia).
  assert (Q0 : 0 <= (2 ^ 912 - 1 - sval v) / ell) by (apply Z.div_pos; lia).
  set (n := (2 ^ 912 - 1 - sval v) / ell) in *. clearbody n.
  exists (map (fun k => le_bytes 114 (sval v + Z.of_nat k * ell)) (seq 0 (Z.to_nat (n + 1)))).
  assert (VAL : forall k, (k < Z.to_nat (n + 1))%nat -> le_val (le_bytes 114 (sval v + Z.of_nat k * ell)) = sval v + Z.of_nat k * ell).
  { intros k K. unfold le_val, le_bytes. rewrite eval_digits by lia. apply Z.mod_small.
    change (8 * Z.of_nat 114) with 912. apply Hk. lia. }
  split; [|split].
  - apply map_NoDup_range. intros i j Hi Hj E. apply (f_equal le_val) in E. rewrite !VAL in E by assumption. nia.
  - rewrite map_length, seq_length. lia.
  - intro b. rewrite in_map_iff. split.
    + intros (k & <- & Hin). apply in_seq in Hin. split; [apply digits_array; lia|].
      destruct (from_bytes_wide_ok (le_bytes 114 (sval v + Z.of_nat k * ell))) as (r & E & Hr & V); [apply digits_array; lia|].
      unfold scalar_random. rewrite E. f_equal. apply scalar_inj; [assumption|assumption|]. rewrite V, VAL by lia.
      rewrite Z.mod_add by lia. apply Z.mod_small. lia.
    + intros [Hb E]. destruct (from_bytes_wide_ok b Hb) as (r & E' & Hr & V). unfold scalar_random in E. rewrite E in E'.
      injection E' as <-.
      pose proof (Z.div_mod (le_val b) ell ltac:(lia)) as D. rewrite <- V in D.
      pose proof (array_range 8 114 b ltac:(lia) Hb) as R. fold (le_val b) in R. change (8 * Z.of_nat 114) with 912 in R.
      set (q := le_val b / ell) in *. clearbody q.
      assert (Q : 0 <= q < n + 1) by (apply Hk; lia).
      exists (Z.to_nat q). split; [|apply in_seq; lia].
      rewrite Z2Nat.id by lia. replace (sval v + q * ell) with (le_val b) by lia. apply bytes_le_bytes. exact Hb.
Qed.
Definition into (T : list scalar) (b : list Z) : Prop := bytes 114 b /\ exists v, In v T /\ scalar_random b = Ok v.
Lemma random_set : forall T, NoDup T -> (forall v, In v T -> is_scalar v /\ sval v < ell) ->
  exactly (2 ^ 912 / ell * Z.of_nat (length T) + Z.of_nat (length (filter (fun v => sval v <? 2 ^ 912 mod ell) T))) (into T).
Proof.
  intros T N H. set (q := 2 ^ 912 / ell). set (f := fun v => sval v <? 2 ^ 912 mod ell). induction N as [|v T Nv N IH].
  - exists []. split; [constructor|]. split; [cbn [length filter]; lia|]. intro b. split; [intros []|]. intros (_ & v & [] & _).
  - assert (IH' := IH (fun w I => H w (or_intror I))). destruct (H v (or_introl eq_refl)) as [Hv Lv].
    apply (exactly_ext _ (fun b => (bytes 114 b /\ scalar_random b = Ok v) \/ into T b)).
    + intro b. unfold into. split.
      * intros [[Hb E]|(Hb & w & I & E)]; (split; [exact Hb|]); [exists v; split; [left; reflexivity|exact E]|exists w; split; [right; exact I|exact E]].
      * intros (Hb & w & [<-|I] & E); [left; auto|right]. split; [exact Hb|]. exists w. auto.
    + assert (X : q * Z.of_nat (length (v :: T)) + Z.of_nat (length (filter f (v :: T))) =
        (q + (if f v then 1 else 0)) + (q * Z.of_nat (length T) + Z.of_nat (length (filter f T)))).
      { cbn [length filter]. destruct (f v); cbn [length]; lia. }
      rewrite X. apply exactly_union; [exact (random_one v Hv Lv)|exact IH'|].
      intros b [_ E] (_ & w & I & E'). rewrite E in E'. injection E' as ->. exact (Nv I).
Qed.

Lemma nodup_sval : forall T, NoDup T -> (forall v, In v T -> is_scalar v) -> NoDup (map sval T).
Proof.
  intros T N H. induction N as [|v T Nv _ IH]; [constructor|]. cbn [map]. constructor.
  - intro I. apply in_map_iff in I. destruct I as (w & E & I). apply Nv. replace v with w; [exact I|]. apply scalar_inj; [apply H; right; exact I|apply H; left; reflexivity|exact E].
  - apply IH. intros w I. apply H. right. exact I.
Qed.
Lemma distance_arith : forall q r l c c' N, N = q * l + r -> 0 <= c <= r -> 0 <= c' <= l - r ->
  Z.abs ((q * (c + c') + c) * l - (c + c') * N) <= r * (l - r).
Proof. intros q r l c c' N -> Hc Hc'. replace ((q * (c + c') + c) * l - (c + c') * (q * l + r)) with (c * (l - r) - c' * r) by ring. apply Z.abs_le. nia. Qed.

Lemma ell_nz : ell <> 0. Proof. discriminate. Qed.
Lemma ell_gt : 0 < ell. Proof. reflexivity. Qed.
Lemma distance_set : forall q r M T, M = ell * q + r -> 0 <= r < ell -> NoDup T -> (forall v, In v T -> is_scalar v /\ sval v < ell) ->
  Z.abs ((q * Z.of_nat (length T) + Z.of_nat (length (filter (fun v => sval v <? r) T))) * ell - Z.of_nat (length T) * M) <= r * (ell - r).
Proof.
  intros q r M T D R N H. rewrite <- (filter_split _ (fun v => sval v <? r) T), Nat2Z.inj_add. apply distance_arith; [rewrite D; ring|split; [lia|]..].
  - rewrite <- (map_length sval). apply (Z.le_trans _ (r - 0)); [|lia]. apply range_length; [lia| |].
    + apply nodup_sval; [apply NoDup_filter; exact N|]. intros v I. apply filter_In in I. exact (proj1 (H v (proj1 I))).
    + intros x I. apply in_map_iff in I. destruct I as (v & <- & I). apply filter_In in I. destruct I as [I F]. apply Z.ltb_lt in F. pose proof (scalar_range v (proj1 (H v I))). lia.
  - rewrite <- (map_length sval). apply range_length; [lia| |].
    + apply nodup_sval; [apply NoDup_filter; exact N|]. intros v I. apply filter_In in I. exact (proj1 (H v (proj1 I))).
    + intros x I. apply in_map_iff in I. destruct I as (v & <- & I). apply filter_In in I. destruct I as [I F]. apply negb_true_iff, Z.ltb_ge in F. pose proof (proj2 (H v I)). lia.
Qed.
Theorem random_distance : forall T, NoDup T -> (forall v, In v T -> is_scalar v /\ sval v < ell) ->
  exists N, exactly N (into T) /\
    Z.abs (N * ell - Z.of_nat (length T) * 2 ^ 912) <= 2 ^ 912 mod ell * (ell - 2 ^ 912 mod ell).
Proof.
  intros T N H. exact (ex_intro _ _ (conj (random_set T N H) (distance_set _ _ _ T (Z.div_mod (2 ^ 912) ell ell_nz) (Z.mod_pos_bound (2 ^ 912) ell ell_gt) N H))).
Qed.
Lemma low_list : forall r, 0 <= r <= ell -> exists T, NoDup T /\ (forall v, In v T -> is_scalar v /\ sval v < r) /\ Z.of_nat (length T) = r.
Proof.
  intros r R. assert (EB : ell < 2 ^ 448) by reflexivity.
  assert (SV : forall n, 0 <= n < ell -> sval (digits 32 14 n) = n).
  { intros n Hn. unfold sval. rewrite eval_digits by lia. apply Z.mod_small. change (32 * Z.of_nat 14) with 448. lia. }
  assert (X : exists n, Z.of_nat n = r) by (exists (Z.to_nat r); lia). destruct X as [n En].
  exists (map (fun i => digits 32 14 (Z.of_nat i)) (seq 0 n)). split; [|split].
  - apply map_NoDup_range. intros i j Hi Hj E. apply (f_equal sval) in E. rewrite !SV in E by lia. lia.
  - intros v I. apply in_map_iff in I. destruct I as (i & <- & I). apply in_seq in I. split; [apply digits_array; lia|]. rewrite SV by lia. lia.
  - rewrite map_length, seq_length. exact En.
Qed.
Lemma reached_set : forall q r M, M = ell * q + r -> 0 <= r < ell -> exists T, NoDup T /\ (forall v, In v T -> is_scalar v /\ sval v < ell) /\
  (q * Z.of_nat (length T) + Z.of_nat (length (filter (fun v => sval v <? r) T))) * ell - Z.of_nat (length T) * M = r * (ell - r).
Proof.
  intros q r M D R. destruct (low_list r) as (T & NT & HT & LT); [lia|]. exists T. split; [exact NT|]. split.
  - intros v I. destruct (HT v I). split; [assumption|lia].
  - assert (FT : filter (fun v => sval v <? r) T = T).
    { clear LT NT. induction T as [|v T IH]; [reflexivity|]. cbn [filter]. rewrite (proj2 (Z.ltb_lt _ _) (proj2 (HT v (or_introl eq_refl)))). f_equal. apply IH. intros w I. apply HT. right. exact I. }
    rewrite FT, LT, D. ring.
Qed.
Theorem random_distance_reached : exists T N, NoDup T /\ (forall v, In v T -> is_scalar v /\ sval v < ell) /\ exactly N (into T) /\
  N * ell - Z.of_nat (length T) * 2 ^ 912 = 2 ^ 912 mod ell * (ell - 2 ^ 912 mod ell).
Proof.
  destruct (reached_set _ _ _ (Z.div_mod (2 ^ 912) ell ell_nz) (Z.mod_pos_bound (2 ^ 912) ell ell_gt)) as (T & NT & HT & E).
  exact (ex_intro _ T (ex_intro _ _ (conj NT (conj HT (conj (random_set T NT HT) E))))).
Qed.
Lemma distance_small : 2 ^ 468 * (2 ^ 912 mod ell * (ell - 2 ^ 912 mod ell)) < ell * 2 ^ 912.
Proof. vm_compute. reflexivity. Qed.

(** ** Accepted strings *)
Theorem rfc_total : exactly (4 * ell) (fun b => bytes 57 b /\ exists Q, rfc8032_decode b = Some Q).
Proof.
  destruct ed_count as (L & N & H & E). exists (map ed_encode L). split; [|split].
  - clear E. assert (O : forall Q, In Q L -> on_ed Q) by (intros Q I; apply H; exact I). clear H.
    induction N as [|Q L NQ _ IH]; [constructor|]. cbn [map]. constructor.
    + intro I. apply in_map_iff in I. destruct I as (R & ER & I). apply NQ. replace Q with R; [exact I|]. apply encode_inj; [apply O; right; exact I|apply O; left; reflexivity|exact ER].
    + apply IH. intros R I. apply O. right. exact I.
  - rewrite map_length. exact E.
  - intro b. rewrite in_map_iff. split.
    + intros (Q & <- & I). pose proof (proj1 (encode_bytes Q)) as Hb. split; [exact Hb|]. exists Q. apply (rfc_decode_iff _ _ Hb). split; [apply H; exact I|reflexivity].
    + intros (Hb & Q & E'). apply (rfc_decode_iff _ _ Hb) in E'. destruct E' as [O ->]. exists Q. split; [reflexivity|apply H; exact O].
Qed.
Theorem decaf_total : forall B, shipped B -> exactly ell (fun b => bytes 56 b /\ exists P, dc_decompress B b = Ok (Some P)).
Proof.
  intros B S. apply (exactly_ext _ (fun b => bytes 56 b /\ decaf_ok b)).
  - intro b. split; intros [Hb H]; (split; [exact Hb|]).
    + destruct (accept B S b Hb H) as (P & _ & E & _). exists P. exact E.
    + destruct H as [P E]. destruct (dc_decompress_ok B (shipped_laws B S) b Hb) as (o & E' & K). rewrite E in E'. apply ok_inj in E'. subst o. exact (proj1 K).
  - assert (X : exists n, Z.of_nat n = ell) by (exists (Z.to_nat ell); apply Z2Nat.id; discriminate). destruct X as [m Em].
    exists (map (fun i => string_of (Z.of_nat i)) (seq 0 m)). split; [|split].
    + apply map_NoDup_range. intros i j Hi Hj E. apply string_inj in E. rewrite !Z.mod_small in E by lia. lia.
    + rewrite map_length, seq_length. exact Em.
    + intro b. rewrite in_map_iff. split.
      * intros (i & <- & I). apply in_seq in I. assert (Hb : bytes 56 (string_of (Z.of_nat i))) by apply string_bytes. split; [exact Hb|]. apply (string_all _ Hb). exists (Z.of_nat i). split; [lia|reflexivity].
      * intros [Hb H]. apply (string_all _ Hb) in H. destruct H as (n & R & ->). exists (Z.to_nat n). rewrite Z2Nat.id by lia. split; [reflexivity|]. apply in_seq. lia.
Qed.
