(** Proofs for C92: which points have the same multiple, and how many multiples there are. *)
Require Import ZArith Znumtheory List Bool Lia.
From Verif Require Import Base BaseProofs SpecParams SpecField SpecCurve SpecEncoding SpecCount SpecRfc8032 SpecDecaf SpecExponent SpecApi FieldTheory CurveTheory EdwardsTheory
  EdwardsProofs EdwardsMain AbGroup Order GroupOrder FieldBackend Backends ScalarModel ScalarProofs ScalarMain PointSpec Rfc8032Main ApiExpr ApiRun ApiMeaning ExponentMain CountStrings.
Import ListNotations.
Open Scope Z_scope.
Local Opaque padd pmul SpecCurve.G pzero ell zmul.

(** ** Cyclic groups, given by strings *)
Section Cyclic.
Variables (N s : Z) (str : Z -> list Z) (acc : list Z -> Prop) (f : list Z -> res (option (list Z))).
Hypothesis N_pos : 0 < N.
Hypothesis str_inj : forall m n, str m = str n <-> m mod N = n mod N.
Hypothesis all : forall b, acc b <-> exists n, 0 <= n < N /\ b = str n.
Hypothesis val : forall n, f (str n) = Ok (Some (str (n * s))).
Let g := Z.gcd s N.
Let M := N / g.
Lemma g_pos : 0 < g.
Proof. pose proof (Z.gcd_nonneg s N) as H. unfold g. assert (Z.gcd s N <> 0); [|lia]. intro E. apply Z.gcd_eq_0_r in E. lia. Qed.
Lemma gM : N = g * M.
Proof. pose proof g_pos as G. unfold M. apply Z_div_exact_full_2; [lia|]. apply Z.mod_divide; [lia|]. apply Z.gcd_divide_r. Qed.
Lemma M_pos : 0 < M. Proof. pose proof g_pos. pose proof gM. nia. Qed.
Lemma same : forall m n, m mod N = n mod N <-> (N | m - n).
Proof.
  intros m n. split; intro H.
  - apply Z.mod_divide; [lia|]. rewrite Zminus_mod, H, Z.sub_diag. apply Z.mod_0_l. lia.
  - destruct H as [q H]. replace m with (n + q * N) by lia. apply Z.mod_add. lia.
Qed.
Lemma mul_same : forall m n, str (m * s) = str (n * s) <-> (M | m - n).
Proof.
  intros m n. rewrite str_inj, same, <- Z.mul_sub_distr_r. pose proof g_pos as G. pose proof gM as E. pose proof M_pos as MP.
  assert (D : (g | s)) by apply Z.gcd_divide_l. destruct D as [t Ht]. split.
  - intro D. apply Z.gauss with t.
    + destruct D as [q Hq]. exists q. rewrite Ht, E in Hq. nia.
    + assert (K : Z.gcd (s / g) (N / g) = 1) by (apply Z.gcd_div_gcd; [lia|reflexivity]). rewrite Ht, Z.div_mul in K by lia. fold M in K. rewrite Z.gcd_comm. exact K.
  - intros [q Hq]. exists (q * t). rewrite Hq, Ht, E. ring.
Qed.
Lemma acc_str : forall n, acc (str n).
Proof.
  intro n. apply all. exists (n mod N). split; [apply Z.mod_pos_bound; exact N_pos|]. apply str_inj. rewrite Z.mod_mod by lia. reflexivity.
Qed.
Theorem cyc_fibre : forall b, acc b -> exactly g (fun b' => acc b' /\ f b' = f b).
Proof.
  intros b Hb. apply all in Hb. destruct Hb as (n & Hn & ->). pose proof g_pos as G. pose proof gM as E. pose proof M_pos as MP.
  assert (exists gn, Z.of_nat gn = g) as [gn Egn] by (exists (Z.to_nat g); apply Z2Nat.id; lia).
  exists (map (fun k => str (n + Z.of_nat k * M)) (seq 0 gn)). split; [|split].
  - apply map_NoDup_range. intros i j Hi Hj Q. apply str_inj, same in Q. destruct Q as [q Hq].
    assert (K : (Z.of_nat i - Z.of_nat j) * M = q * g * M) by (rewrite E in Hq; lia). apply Z.mul_reg_r in K; [|lia].
    assert (q = 0) by nia. subst q. lia.
  - rewrite map_length, seq_length. exact Egn.
  - intro b'. rewrite in_map_iff. split.
    + intros (k & <- & _). split; [apply acc_str|]. rewrite !val. do 2 f_equal. apply mul_same. exists (Z.of_nat k). ring.
    + intros [Hb' Q]. apply all in Hb'. destruct Hb' as (n' & Hn' & ->). rewrite !val in Q. injection Q as Q. apply mul_same in Q. destruct Q as [q Hq].
      pose proof (Z.mod_pos_bound q g G) as R. pose proof (Z.div_mod q g ltac:(lia)) as D. exists (Z.to_nat (q mod g)). rewrite Z2Nat.id by lia. split; [|apply in_seq; lia].
      apply str_inj, same. exists (- (q / g)). replace n' with (n + q * M) by lia. set (a := q / g) in *. set (r := q mod g) in *. clearbody a r. rewrite D, E. ring.
Qed.
Theorem cyc_image : exactly (N / g) (fun r => exists b, acc b /\ f b = Ok (Some r)).
Proof.
  fold M. pose proof g_pos as G. pose proof gM as E. pose proof M_pos as MP.
  assert (exists mn, Z.of_nat mn = M) as [mn Emn] by (exists (Z.to_nat M); apply Z2Nat.id; lia).
  exists (map (fun k => str (Z.of_nat k * g)) (seq 0 mn)). split; [|split].
  - apply map_NoDup_range. intros i j Hi Hj Q. apply str_inj, same in Q. destruct Q as [q Hq].
    assert (K : (Z.of_nat i - Z.of_nat j) * g = q * M * g) by (rewrite E in Hq; lia). apply Z.mul_reg_r in K; [|lia].
    assert (q = 0) by nia. subst q. lia.
  - rewrite map_length, seq_length. exact Emn.
  - intro r. rewrite in_map_iff. split.
    + intros (k & <- & _). destruct (Z.gcd_bezout s N g eq_refl) as (x & y & B). exists (str (Z.of_nat k * x)). split; [apply acc_str|]. rewrite val. do 2 f_equal.
      apply str_inj, same. exists (- (Z.of_nat k * y)). rewrite <- B. ring.
    + intros (b & Hb & Q). apply all in Hb. destruct Hb as (n & Hn & ->). rewrite val in Q. injection Q as <-.
      assert (D : (g | s)) by apply Z.gcd_divide_l. destruct D as [t Ht]. pose proof (Z.mod_pos_bound (n * t) M MP) as R. pose proof (Z.div_mod (n * t) M ltac:(lia)) as D.
      exists (Z.to_nat ((n * t) mod M)). rewrite Z2Nat.id by lia. split; [|apply in_seq; lia].
      apply str_inj, same. exists (- ((n * t) / M)). replace (n * s) with (n * t * g) by (rewrite Ht; ring). set (a := n * t / M) in *. set (r := (n * t) mod M) in *. clearbody a r. rewrite D, E. ring.
Qed.
End Cyclic.

(** ** The points of the curve, as multiples of one of them *)
Definition g_full : point := padd ed_a ed_d SpecCurve.G T4.
Definition ed_string (n : Z) : list Z := ed_encode (zmul ed_a ed_d n g_full).
Lemma on_full : on_ed g_full. Proof. apply (ag_add _ _ _ _ _ _ ed_ab); [exact on_G|exact on_T4]. Qed.
Lemma on_mult : forall n, on_ed (zmul ed_a ed_d n g_full). Proof. intro n. apply (ag_mul_S _ _ _ _ _ _ ed_ab). exact on_full. Qed.
Lemma full_mult : forall n, zmul ed_a ed_d n g_full = padd ed_a ed_d (pmul ed_a ed_d (n mod ell) SpecCurve.G) (pmul ed_a ed_d (n mod 4) T4).
Proof.
  intro n. pose proof ell_pos' as EP. pose proof (Z.mod_pos_bound n ell EP). pose proof (Z.mod_pos_bound n 4 ltac:(lia)). unfold g_full.
  rewrite (a_mul_padd _ _ _ _ _ _ ed_ab) by (exact on_G || exact on_T4). rewrite <- !zmul_nonneg by lia.
  rewrite <- (a_mod _ _ _ _ _ _ ed_ab ell n SpecCurve.G EP on_G z_ell_G), <- (a_mod _ _ _ _ _ _ ed_ab 4 n T4 ltac:(lia) on_T4 z_T4_4). reflexivity.
Qed.
Lemma ell_four : ell = 4 * (ell / 4) + 3. Proof. reflexivity. Qed.
Lemma full_inj : forall m n, zmul ed_a ed_d m g_full = zmul ed_a ed_d n g_full <-> m mod (4 * ell) = n mod (4 * ell).
Proof.
  intros m n. pose proof ell_pos' as EP. rewrite !full_mult.
  pose proof (Z.mod_pos_bound m ell EP). pose proof (Z.mod_pos_bound n ell EP). pose proof (Z.mod_pos_bound m 4 ltac:(lia)). pose proof (Z.mod_pos_bound n 4 ltac:(lia)). split; intro E.
  - apply ed_unique in E; try assumption. destruct E as [E1 E2]. assert (D1 : (ell | m - n)) by (apply Z.mod_divide; [lia|]; rewrite Zminus_mod, E1, Z.sub_diag; apply Z.mod_0_l; lia).
    assert (D2 : (4 | m - n)) by (apply Z.mod_divide; [lia|]; rewrite Zminus_mod, E2, Z.sub_diag; reflexivity).
    destruct D1 as [q Hq]. assert (D : (4 | q)). { apply Z.gauss with ell; [rewrite Z.mul_comm, <- Hq; exact D2|reflexivity]. }
    destruct D as [r Hr]. replace m with (n + r * (4 * ell)) by (rewrite Hr in Hq; lia). apply Z.mod_add. lia.
  - assert (K : forall d, (d | 4 * ell) -> 0 < d -> m mod d = n mod d).
    { intros d D Hd. rewrite (Zmod_div_mod d (4 * ell) m), (Zmod_div_mod d (4 * ell) n) by (lia || exact D). rewrite E. reflexivity. }
    rewrite (K ell) by (lia || (exists 4; lia)). rewrite (K 4) by (lia || (exists ell; lia)). reflexivity.
Qed.
Lemma full_all : forall Q, on_ed Q -> exists n, 0 <= n < 4 * ell /\ Q = zmul ed_a ed_d n g_full.
Proof.
  intros Q O. destruct (ed_structure Q O) as (b & c & Hb & Hc & E). pose proof ell_pos' as EP. pose proof ell_four as EF.
  set (n := b * (ell + 1) + c * 3 * ell). exists (n mod (4 * ell)). split; [apply Z.mod_pos_bound; lia|].
  transitivity (zmul ed_a ed_d n g_full); [|apply full_inj; rewrite Z.mod_mod by lia; reflexivity]. rewrite full_mult, E.
  assert (E1 : n mod ell = b). { unfold n. replace (b * (ell + 1) + c * 3 * ell) with (b + (b + 3 * c) * ell) by ring. rewrite Z.mod_add by lia. apply Z.mod_small. exact Hb. }
  assert (E2 : n mod 4 = c). { unfold n. rewrite EF. replace (b * (4 * (ell / 4) + 3 + 1) + c * 3 * (4 * (ell / 4) + 3)) with (c + (b * (ell / 4 + 1) + c * (3 * (ell / 4) + 2)) * 4) by ring.
    rewrite Z.mod_add by lia. apply Z.mod_small. exact Hc. }
  rewrite E1, E2. reflexivity.
Qed.
Lemma ed_string_inj : forall m n, ed_string m = ed_string n <-> m mod (4 * ell) = n mod (4 * ell).
Proof.
  intros m n. rewrite <- full_inj. unfold ed_string. split; [|intros ->; reflexivity]. apply encode_inj; apply on_mult.
Qed.
Definition rfc_ok (b : list Z) : Prop := bytes 57 b /\ exists Q, rfc8032_decode b = Some Q.
Lemma ed_string_all : forall b, rfc_ok b <-> exists n, 0 <= n < 4 * ell /\ b = ed_string n.
Proof.
  intro b. split.
  - intros (Hb & Q & E). apply (rfc_decode_iff _ _ Hb) in E. destruct E as [O ->]. destruct (full_all Q O) as (n & Hn & ->). exists n. split; [exact Hn|reflexivity].
  - intros (n & Hn & ->). unfold ed_string. pose proof (proj1 (encode_bytes (zmul ed_a ed_d n g_full))) as Hb. split; [exact Hb|]. eexists. apply (rfc_decode_iff _ _ Hb). split; [apply on_mult|reflexivity].
Qed.
Lemma ed_val : forall B, shipped B -> forall s n, is_scalar s -> api_run B (AEdCompress (AEdMul (AEdDecompress (ed_string n)) s)) = Ok (Some (ed_string (n * sval s))).
Proof.
  intros B S s n Hs. pose proof (proj1 (encode_bytes (zmul ed_a ed_d n g_full))) as Hb.
  refine (eq_trans (data_meaning B S _ (AEdCompress (AEdMul (AEdDecompress (ed_string n)) s)) (conj Hb Hs)) _). cbn [meaning]. unfold ed_string at 1.
  rewrite (decode_encode _ (on_mult n)). cbn [ob]. apply (f_equal (fun x => Ok (Some x))). unfold ed_string. apply f_equal.
  pose proof (scalar_range s Hs) as R. rewrite Z.mul_comm, (a_mul_mul _ _ _ _ _ _ ed_ab) by exact on_full. symmetry. apply zmul_nonneg. exact (proj1 R).
Qed.
Lemma four_ell_pos : 0 < 4 * ell. Proof. reflexivity. Qed.
Theorem ed_fibre : forall B, shipped B -> forall s b, is_scalar s -> (bytes 57 b /\ exists Q, rfc8032_decode b = Some Q) ->
  exactly (Z.gcd (sval s) (4 * ell)) (fun b' => (bytes 57 b' /\ exists Q, rfc8032_decode b' = Some Q) /\
    api_run B (AEdCompress (AEdMul (AEdDecompress b') s)) = api_run B (AEdCompress (AEdMul (AEdDecompress b) s))).
Proof.
  intros B S s b Hs Hb. exact (cyc_fibre (4 * ell) (sval s) ed_string rfc_ok (fun b => api_run B (AEdCompress (AEdMul (AEdDecompress b) s)))
    four_ell_pos ed_string_inj ed_string_all (fun n => ed_val B S s n Hs) b Hb).
Qed.
Theorem ed_image : forall B, shipped B -> forall s, is_scalar s ->
  exactly (4 * ell / Z.gcd (sval s) (4 * ell)) (fun r => exists b, (bytes 57 b /\ exists Q, rfc8032_decode b = Some Q) /\
    api_run B (AEdCompress (AEdMul (AEdDecompress b) s)) = Ok (Some r)).
Proof.
  intros B S s Hs. exact (cyc_image (4 * ell) (sval s) ed_string rfc_ok (fun b => api_run B (AEdCompress (AEdMul (AEdDecompress b) s)))
    four_ell_pos ed_string_inj ed_string_all (fun n => ed_val B S s n Hs)).
Qed.

(** ** Decaf *)
Definition dc_ok (b : list Z) : Prop := bytes 56 b /\ decaf_ok b.
Lemma dc_all : forall b, dc_ok b <-> exists n, 0 <= n < ell /\ b = string_of n.
Proof.
  intro b. split; [intros [Hb H]; apply (string_all b Hb); exact H|]. intros (n & Hn & ->). pose proof (string_bytes n) as Hb. split; [exact Hb|]. apply (string_all _ Hb). exists n. split; [exact Hn|reflexivity].
Qed.
Lemma dc_val : forall B, shipped B -> forall s n, is_scalar s -> api_run B (shared_secret (string_of n) s) = Ok (Some (string_of (n * sval s))).
Proof. intros B S s n Hs. exact (encoded B S (ETimes (EReceived n) s) (conj I Hs)). Qed.
Theorem dc_fibre : forall B, shipped B -> forall s b, is_scalar s -> (bytes 56 b /\ decaf_ok b) ->
  exactly (Z.gcd (sval s) ell) (fun b' => (bytes 56 b' /\ decaf_ok b') /\ api_run B (shared_secret b' s) = api_run B (shared_secret b s)).
Proof.
  intros B S s b Hs Hb. exact (cyc_fibre ell (sval s) string_of dc_ok (fun b => api_run B (shared_secret b s)) ell_pos' string_inj dc_all (fun n => dc_val B S s n Hs) b Hb).
Qed.
Theorem dc_image : forall B, shipped B -> forall s, is_scalar s ->
  exactly (ell / Z.gcd (sval s) ell) (fun r => exists b, (bytes 56 b /\ decaf_ok b) /\ api_run B (shared_secret b s) = Ok (Some r)).
Proof.
  intros B S s Hs. exact (cyc_image ell (sval s) string_of dc_ok (fun b => api_run B (shared_secret b s)) ell_pos' string_inj dc_all (fun n => dc_val B S s n Hs)).
Qed.

(** Reduced scalars. *)
Lemma gcd_ell : forall n, 0 < n < ell -> Z.gcd n ell = 1.
Proof.
  intros n Hn. apply Zgcd_1_rel_prime. apply rel_prime_sym. apply prime_rel_prime; [exact Primes.prime_ell|]. intro D. apply Z.divide_pos_le in D; lia.
Qed.
Lemma gcd_four_ell : forall n, 0 < n < ell -> Z.gcd n (4 * ell) = Z.gcd n 4.
Proof.
  intros n Hn. pose proof (gcd_ell n Hn) as G. apply Z.gcd_unique; [apply Z.gcd_nonneg|apply Z.gcd_divide_l|apply Z.divide_mul_l; apply Z.gcd_divide_r|].
  intros q D1 D2. apply Z.gcd_greatest; [exact D1|]. rewrite Z.mul_comm in D2. apply Z.gauss with ell; [exact D2|]. apply Z.bezout_1_gcd.
  destruct (Z.gcd_bezout n ell 1 G) as (x & y & E). destruct D1 as [t Ht]. exists (x * t), y. rewrite <- E, Ht. ring.
Qed.
Theorem dc_permutes : forall B, shipped B -> forall s, is_scalar s -> 0 < sval s < ell ->
  (forall b, bytes 56 b -> decaf_ok b -> exactly 1 (fun b' => (bytes 56 b' /\ decaf_ok b') /\ api_run B (shared_secret b' s) = api_run B (shared_secret b s))) /\
  (forall r, bytes 56 r -> decaf_ok r -> exists b, bytes 56 b /\ decaf_ok b /\ api_run B (shared_secret b s) = Ok (Some r)).
Proof.
  intros B S s Hs R. pose proof (gcd_ell _ R) as G. split.
  - intros b Hb Ok. rewrite <- G. apply dc_fibre; auto.
  - intros r Hr Ok. apply (string_all r Hr) in Ok. destruct Ok as (n & Hn & ->). destruct (Z.gcd_bezout _ _ _ G) as (x & y & E).
    destruct (proj2 (dc_all (string_of (n * x))) ) as [Hb Hd].
    + exists ((n * x) mod ell). pose proof ell_pos' as EP. split; [apply Z.mod_pos_bound; exact EP|]. apply string_inj. rewrite Z.mod_mod by lia. reflexivity.
    + exists (string_of (n * x)). split; [exact Hb|]. split; [exact Hd|]. rewrite (dc_val B S s _ Hs). apply (f_equal (fun z => Ok (Some z))). apply string_inj.
      replace (n * x * sval s) with (n + (- (n * y)) * ell) by (transitivity (n * (x * sval s + y * ell) - n * y * ell); [rewrite E; ring|ring]).
      apply Z.mod_add. pose proof ell_pos'. lia.
Qed.
Theorem ed_reduced : forall B, shipped B -> forall s b, is_scalar s -> 0 < sval s < ell -> (bytes 57 b /\ exists Q, rfc8032_decode b = Some Q) ->
  exactly (Z.gcd (sval s) 4) (fun b' => (bytes 57 b' /\ exists Q, rfc8032_decode b' = Some Q) /\
    api_run B (AEdCompress (AEdMul (AEdDecompress b') s)) = api_run B (AEdCompress (AEdMul (AEdDecompress b) s))).
Proof. intros B S s b Hs R Hb. rewrite <- (gcd_four_ell _ R). apply ed_fibre; assumption. Qed.

(** The generator, times 2 and times 4. *)
Theorem gcd_case : (bytes 57 (ed_encode SpecCurve.G) /\ exists Q, rfc8032_decode (ed_encode SpecCurve.G) = Some Q) /\
  (bytes 56 (string_of 1) /\ decaf_ok (string_of 1)) /\
  (forall n, In n [2; 4] -> is_scalar (digits 32 14 n) /\ sval (digits 32 14 n) = n) /\
  Z.gcd 2 (4 * ell) = 2 /\ Z.gcd 4 (4 * ell) = 4 /\ Z.gcd ell (4 * ell) = ell /\ Z.gcd 2 ell = 1.
Proof.
  split; [|split; [apply dc_all; exists 1; split; [split; [discriminate|reflexivity]|reflexivity]|split]].
  - pose proof (proj1 (encode_bytes SpecCurve.G)) as Hb. split; [exact Hb|]. exists SpecCurve.G. apply (rfc_decode_iff _ _ Hb). split; [exact on_G|reflexivity].
  - intros n [<-|[<-|[]]]; (apply digits_scalar; split; [discriminate|reflexivity]).
  - repeat split; vm_compute; reflexivity.
Qed.
