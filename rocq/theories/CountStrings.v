(** Proofs for C88: how many strings stand for one value. *)
Require Import ZArith List Bool Lia.
From Verif Require Import Base BaseProofs SpecParams SpecField SpecCurve SpecCount SpecRfc8032 FieldTheory FieldBackend Backends FieldMain
  ScalarModel ScalarProofs ScalarMain CurveTheory EdSigns TwistedModel EdwardsModel EdwardsProofs EdwardsMain Rfc8032Main SpecEncoding PointSpec DecafModel DecafMain MontgomeryModel MontgomeryMain.
Import ListNotations.
Open Scope Z_scope.
Open Scope res_scope.

(** ** Numbers *)
Lemma exactly_ext : forall n D D', (forall b, D b <-> D' b) -> exactly n D -> exactly n D'.
Proof. intros n D D' E (l & N & Le & H). exists l. split; [exact N|]. split; [exact Le|]. intro b. rewrite <- E. apply H. Qed.

Lemma count_exact : forall m v N k, 0 < m -> 0 <= v < m -> v < N -> 0 <= v + k * m < N <-> 0 <= k < (N - 1 - v) / m + 1.
Proof.
  intros m v N k Hm Hv HN. assert (Q0 : 0 <= (N - 1 - v) / m) by (apply Z.div_pos; lia).
  pose proof (Z.div_mod (N - 1 - v) m ltac:(lia)) as D2. pose proof (Z.mod_pos_bound (N - 1 - v) m ltac:(lia)) as B2.
  set (q2 := (N - 1 - v) / m) in *. set (r2 := (N - 1 - v) mod m) in *. clearbody q2 r2. split; intro Hk; nia.
Qed.

Lemma residues : forall m v, 0 < m -> 0 <= v < m -> v < 2 ^ 448 ->
  exactly ((2 ^ 448 - 1 - v) / m + 1) (fun b => bytes 56 b /\ le_val b mod m = v).
Proof.
  intros m v Hm Hv HN. pose proof (fun k => count_exact m v (2 ^ 448) k Hm Hv HN) as Hk.
  assert (Q0 : 0 <= (2 ^ 448 - 1 - v) / m) by (apply Z.div_pos; lia).
  set (q := (2 ^ 448 - 1 - v) / m) in *. clearbody q.
  exists (map (fun k => le_bytes 56 (v + Z.of_nat k * m)) (seq 0 (Z.to_nat (q + 1)))).
  assert (VAL : forall k, (k < Z.to_nat (q + 1))%nat -> le_val (le_bytes 56 (v + Z.of_nat k * m)) = v + Z.of_nat k * m).
  { intros k K. apply le_val_le_bytes. apply Hk. lia. }
  split; [|split].
  - apply map_NoDup_range. intros i j Hi Hj E. apply (f_equal le_val) in E. rewrite !VAL in E by assumption. nia.
  - rewrite map_length, seq_length. lia.
  - intro b. rewrite in_map_iff. split.
    + intros (k & <- & Hin). apply in_seq in Hin. split; [apply digits_array; lia|]. rewrite VAL by lia. rewrite Z.mod_add by lia. apply Z.mod_small. lia.
    + intros [Hb E]. pose proof (Z.div_mod (le_val b) m ltac:(lia)) as D. rewrite E in D.
      pose proof (array_range 8 56 b ltac:(lia) Hb) as R. fold (le_val b) in R. change (8 * Z.of_nat 56) with 448 in R.
      set (a := le_val b / m) in *. clearbody a.
      assert (Q : 0 <= a < q + 1) by (apply Hk; lia).
      exists (Z.to_nat a). split; [|apply in_seq; lia].
      rewrite Z2Nat.id by lia. replace (v + a * m) with (le_val b) by lia. apply bytes_le_bytes. exact Hb.
Qed.

Lemma p_two : forall v, 0 <= v < p -> (2 ^ 448 - 1 - v) / p + 1 = if v <=? 2 ^ 224 then 2 else 1.
Proof.
  intros v H. assert (P2 : p + 2 ^ 224 = 2 ^ 448 - 1) by reflexivity. assert (K : 2 ^ 224 < p) by reflexivity. destruct (Z.leb_spec v (2 ^ 224)).
  - rewrite <- (Z.div_unique (2 ^ 448 - 1 - v) p 1 (2 ^ 224 - v)); [reflexivity|left; lia|lia].
  - rewrite Z.div_small by lia. reflexivity.
Qed.
Lemma ell_five : forall v, 0 <= v < ell -> (2 ^ 448 - 1 - v) / ell + 1 = if v <? 2 ^ 448 - 4 * ell then 5 else 4.
Proof.
  intros v H. assert (K1 : 4 * ell < 2 ^ 448) by reflexivity. assert (K2 : 2 ^ 448 < 5 * ell) by reflexivity. destruct (Z.ltb_spec v (2 ^ 448 - 4 * ell)).
  - rewrite <- (Z.div_unique (2 ^ 448 - 1 - v) ell 4 (2 ^ 448 - 4 * ell - 1 - v)); [reflexivity|left; lia|lia].
  - rewrite <- (Z.div_unique (2 ^ 448 - 1 - v) ell 3 (2 ^ 448 - 3 * ell - 1 - v)); [reflexivity|left; lia|lia].
Qed.

Lemma field_strings : forall y : F, exactly (if fval y <=? 2 ^ 224 then 2 else 1) (fun b => bytes 56 b /\ of_Z (le_val b) = y).
Proof.
  intro y. pose proof (fval_range y) as R. rewrite <- p_two by exact R. apply (exactly_ext _ (fun b => bytes 56 b /\ le_val b mod p = fval y)).
  - intro b. split; intros [Hb E]; (split; [exact Hb|]).
    + apply F_eq. rewrite fval_of_Z. exact E.
    + rewrite <- E, fval_of_Z. reflexivity.
  - apply residues; [reflexivity|exact R|]. assert (p < 2 ^ 448) by reflexivity. lia.
Qed.

Lemma scalar_strings : forall v, is_scalar v -> sval v < ell ->
  exactly (if sval v <? 2 ^ 448 - 4 * ell then 5 else 4) (fun b => bytes 56 b /\ scalar_mul (scalar_from_bytes b) scalar_one = Ok v).
Proof.
  intros v Hv Lv. pose proof (scalar_range v Hv) as Rv. assert (R : 0 <= sval v < ell) by lia. rewrite <- ell_five by exact R.
  apply (exactly_ext _ (fun b => bytes 56 b /\ le_val b mod ell = sval v)).
  - intro b. split; intros [Hb E]; (split; [exact Hb|]).
    + destruct (proj1 scalar_bytes_bijection b Hb) as (S & V & _).
      destruct (scalar_mul_ok _ scalar_one S (proj1 scalar_one_ok)) as (r & Er & Hr & Vr). rewrite Er. f_equal. apply scalar_inj; [exact Hr|exact Hv|].
      rewrite Vr, V, (proj2 scalar_one_ok), Z.mul_1_r. exact E.
    + destruct (proj1 scalar_bytes_bijection b Hb) as (S & V & _).
      destruct (scalar_mul_ok _ scalar_one S (proj1 scalar_one_ok)) as (r & Er & Hr & Vr). rewrite E in Er. injection Er as <-.
      rewrite Vr, V, (proj2 scalar_one_ok), Z.mul_1_r. reflexivity.
  - apply residues; [reflexivity|exact R|]. assert (ell < 2 ^ 448) by reflexivity. lia.
Qed.
Lemma scalar_canonical_strings : forall v, is_scalar v -> sval v < ell ->
  exactly 1 (fun b => bytes 57 b /\ scalar_from_canonical_bytes b = Ok (Some v)).
Proof.
  intros v Hv Lv. exists [scalar_to_bytes_rfc_8032 v]. split; [constructor; [intros []|constructor]|]. split; [reflexivity|]. intro b. split.
  - intros [<-|[]]. split; [|exact (proj2 canonical_bytes_roundtrip v Hv Lv)].
    unfold scalar_to_bytes_rfc_8032. destruct (proj1 (proj2 scalar_bytes_bijection) v Hv) as (Bv & _). 
    apply (array_app 8 56 1); [exact Bv|]. split; [reflexivity|]. constructor; [lia|constructor].
  - intros [Hb E]. left. exact (proj1 canonical_bytes_roundtrip b v Hb E).
Qed.

(** ** A string and one more byte *)
Lemma exactly_product : forall n k D ls, exactly n D -> (forall c, D c -> length c = k) -> NoDup ls ->
  exactly (n * Z.of_nat (length ls)) (fun b => exists c s, b = c ++ [s] /\ D c /\ In s ls).
Proof.
  intros n k D ls (l & N & <- & H) HL NS.
  assert (Hl : forall c, In c l -> length c = k) by (intros c I; apply HL, H, I).
  assert (G : exists r : list (list Z), NoDup r /\ Z.of_nat (length r) = Z.of_nat (length l) * Z.of_nat (length ls) /\ forall b, In b r <-> exists c s, b = c ++ [s] /\ In c l /\ In s ls).
  { clear H HL D. induction N as [|c l Nc _ IH].
    - exists []. split; [constructor|]. split; [reflexivity|]. intro b. split; [intros []|]. intros (c & s & _ & [] & _).
    - destruct IH as (r & Nr & Lr & Ir); [intros c' I; apply Hl; right; exact I|]. exists (map (fun s => c ++ [s]) ls ++ r). split; [|split].
      + assert (Dj : forall b, In b (map (fun s => c ++ [s]) ls) -> ~ In b r).
        { intros b I J. apply in_map_iff in I. destruct I as (s & <- & Is). apply Ir in J. destruct J as (c' & s' & E & Ic & _).
          apply app_inj_tail in E. destruct E as [-> _]. exact (Nc Ic). }
        clear Ir Lr Nc Hl. induction NS as [|s ls Ns _ IH]; [exact Nr|]. cbn [map app]. constructor.
        * rewrite in_app_iff. intros [I|I]; [|exact (Dj (c ++ [s]) (or_introl eq_refl) I)]. apply in_map_iff in I. destruct I as (s' & E & Is). apply app_inj_tail in E. destruct E as [_ ->]. exact (Ns Is).
        * apply IH. intros b I. apply Dj. right. exact I.
      + rewrite app_length, map_length, Nat2Z.inj_add, Lr. cbn [length]. lia.
      + intro b. rewrite in_app_iff, in_map_iff, Ir. split.
        * intros [(s & <- & Is)|(c' & s & -> & Ic & Is)]; [exists c, s; repeat split; [left; reflexivity|exact Is]|exists c', s; repeat split; [right; exact Ic|exact Is]].
        * intros (c' & s & -> & [<-|Ic] & Is); [left; exists s; split; [reflexivity|exact Is]|right; exists c', s; repeat split; assumption]. }
  destruct G as (r & Nr & Lr & Ir). exists r. split; [exact Nr|]. split; [exact Lr|]. intro b. rewrite Ir. split.
  - intros (c & s & E & I & J). exists c, s. rewrite <- H. auto.
  - intros (c & s & E & I & J). exists c, s. rewrite H. auto.
Qed.

(** ** The last byte of an encoded point *)
Definition sign_bytes (x : F) : list Z := filter (fun s => feqb x (of_Z 0) || Bool.eqb (fodd x) (128 <=? s)) (map Z.of_nat (seq 0 256)).
Lemma sign_bytes_nodup : forall x, NoDup (sign_bytes x).
Proof. intro x. apply NoDup_filter. apply map_NoDup_range. intros i j _ _ E. lia. Qed.
Lemma sign_bytes_in : forall x s, In s (sign_bytes x) <-> 0 <= s < 256 /\ (x <> of_Z 0 -> fodd x = (128 <=? s)).
Proof.
  intros x s. unfold sign_bytes. rewrite filter_In, in_map_iff, orb_true_iff, feqb_eq, eqb_true_iff. split.
  - intros [(i & <- & I) C]. apply in_seq in I. split; [lia|]. intro N. destruct C as [C|C]; [contradiction|exact C].
  - intros [R C]. split; [exists (Z.to_nat s); split; [lia|apply in_seq; lia]|]. destruct (F_eq_dec x (of_Z 0)) as [E|E]; [left; exact E|right; exact (C E)].
Qed.
Lemma sign_bytes_length : forall x, Z.of_nat (length (sign_bytes x)) = if feqb x (of_Z 0) then 256 else 128.
Proof. intro x. unfold sign_bytes. destruct (feqb x (of_Z 0)); [reflexivity|]. destruct (fodd x); vm_compute; reflexivity. Qed.

Section Points.
Variable B : backend.
Hypothesis S : shipped B.

Lemma edwards_strings : forall x y, on_curve ed_a ed_d (x, y) ->
  exactly ((if fval y <=? 2 ^ 224 then 2 else 1) * (if feqb x (of_Z 0) then 256 else 128))
    (fun b => bytes 57 b /\ exists P, ed_decompress B b = Ok (Some P) /\ ed_affine B P = (x, y)).
Proof.
  intros x y O. rewrite <- sign_bytes_length.
  refine (exactly_ext _ _ _ _ (exactly_product _ 56 _ (sign_bytes x) (field_strings y) (fun c H => proj1 (proj1 H)) (sign_bytes_nodup x))).
  intro b. split.
  - intros (c & s & -> & [Hc Ec] & Is). apply sign_bytes_in in Is. destruct Is as [Rs Cs]. pose proof (proj1 Hc) as Lc.
    assert (Hb : bytes 57 (c ++ [s])). { apply (array_app 8 56 1); [exact Hc|]. split; [reflexivity|]. constructor; [exact Rs|constructor]. }
    split; [exact Hb|]. destruct (ed_decompress_exact B S _ Hb) as (K1 & K2 & _).
    assert (F1 : firstn 56 (c ++ [s]) = c) by (rewrite <- Lc, firstn_app, Nat.sub_diag, firstn_all; apply app_nil_r).
    assert (F2 : nth 56 (c ++ [s]) 0 = s) by (rewrite <- Lc; apply nth_middle).
    rewrite F1, Ec in K1, K2. rewrite F2 in K1. destruct (proj2 K2 (ex_intro _ x O)) as [P EP]. exists P. split; [exact EP|].
    destruct (K1 P EP) as (V & Y & Sg). destruct (ed_affine B P) as [x' y'] eqn:EA. cbn [fst snd] in *. subst y'. f_equal.
    pose proof (valid_on B P V) as OP. rewrite EA in OP. 
    destruct (F_eq_dec x (of_Z 0)) as [E|E].
    + destruct (on_ed_same_y _ _ _ OP O) as [X|X]; rewrite X, E; [reflexivity|]. apply fopp_0_iff. reflexivity.
    + assert (E' : x' <> of_Z 0). { intro E'. apply E. destruct (on_ed_same_y _ _ _ O OP) as [X|X]; rewrite X, E'; [reflexivity|]. apply fopp_0_iff. reflexivity. }
      apply (on_ed_same_sign _ _ y OP O). rewrite (Sg E'), (Cs E). reflexivity.
  - intros (Hb & P & EP & EA). destruct (bytes_last 56 b Hb) as (_ & _ & B56 & R & Eb). destruct (ed_decompress_exact B S _ Hb) as (K1 & _).
    destruct (K1 P EP) as (V & Y & Sg). rewrite EA in Y, Sg. cbn [fst snd] in Y, Sg. exists (firstn 56 b), (nth 56 b 0).
    split; [exact Eb|]. split; [split; [exact B56|symmetry; exact Y]|]. apply sign_bytes_in. split; [exact R|exact Sg].
Qed.

Lemma montgomery_strings : forall c, bytes 56 c -> le_val c < p ->
  exactly (if le_val c <=? 2 ^ 224 then 2 else 1) (fun b => bytes 56 b /\ (x <- mp_to_projective B b ;; pm_to_affine B x) = Ok c).
Proof.
  intros c Hc Lc. assert (R : 0 <= le_val c) by (apply (eval_range 8); [lia|exact (proj2 Hc)]). rewrite <- p_two by lia.
  apply (exactly_ext _ (fun b => bytes 56 b /\ le_val b mod p = le_val c)).
  - intro b. split; intros [Hb E]; (split; [exact Hb|]); rewrite projective_roundtrip in * by assumption.
    + rewrite E. f_equal. apply bytes_le_bytes. exact Hc.
    + apply ok_inj in E. rewrite <- E. symmetry. apply le_val_le_bytes. assert (p < 2 ^ 448) by reflexivity. pose proof (Z.mod_pos_bound (le_val b) p ltac:(reflexivity)). lia.
  - apply residues; [reflexivity|lia|]. assert (p < 2 ^ 448) by reflexivity. lia.
Qed.

Lemma decaf_strings : forall P, tw_valid B P ->
  exactly 1 (fun b => bytes 56 b /\ exists Q, dc_decompress B b = Ok (Some Q) /\ dc_equals B Q P = Ok true).
Proof.
  intros P V. destruct (roundtrip B S P V) as (b & Q & EC & Hb & ED & VQ & EQ). exists [b]. split; [constructor; [intros []|constructor]|]. split; [reflexivity|].
  intro c. split.
  - intros [<-|[]]. split; [exact Hb|]. exists Q. auto.
  - intros (Hc & R & DR & ER). left. destruct (decompress_canonical B S c R Hc DR) as [VR CR]. 
    destruct (compress_function B S R P VR V) as (b1 & b2 & e & E1 & E2 & E3 & E4). rewrite CR in E1. rewrite EC in E2. rewrite ER in E3.
    apply ok_inj in E1, E2, E3. subst b1 b2 e. symmetry. apply E4. reflexivity.
Qed.
End Points.

Lemma rfc_strings : forall Q, on_curve ed_a ed_d Q -> exactly 1 (fun b => bytes 57 b /\ rfc8032_decode b = Some Q).
Proof.
  intros Q O. exists [ed_encode Q]. split; [constructor; [intros []|constructor]|]. split; [reflexivity|]. intro b. split.
  - intros [<-|[]]. pose proof (proj1 (encode_bytes Q)) as Hb. split; [exact Hb|]. apply (rfc_decode_iff _ _ Hb). split; [exact O|reflexivity].
  - intros [Hb E]. apply (rfc_decode_iff _ _ Hb) in E. left. symmetry. exact (proj2 E).
Qed.

(** ** Cases *)
Definition y3_x : F := of_Z 0xd63b2f3b13e7a02848e514a84f9d84868a704ea96635c7beb6d42467c9ad134c688232ac8bd3df6a10c69858f6e9f82674842dcf77dc03a9.
Lemma strings_case : forall B, shipped B -> forall n Q, In (n, Q) [(512, (of_Z 0, of_Z 1)); (256, (of_Z 0, fopp (of_Z 1))); (256, (y3_x, of_Z 3)); (128, G)] ->
  on_curve ed_a ed_d Q /\ exactly n (fun b => bytes 57 b /\ exists P, ed_decompress B b = Ok (Some P) /\ ed_affine B P = Q).
Proof.
  intros B S n [x y] I.
  assert (O : on_curve ed_a ed_d (x, y)). { destruct I as [I|[I|[I|[I|[]]]]]; [..|assert (I' : G = (x, y)) by congruence; rewrite <- I'; exact G_on_curve]; injection I as <- <- <-; apply F_eq; vm_compute; reflexivity. }
  split; [exact O|]. 
  assert (E : n = (if fval y <=? 2 ^ 224 then 2 else 1) * (if feqb x (of_Z 0) then 256 else 128)).
  { clear O. destruct I as [I|[I|[I|[I|[]]]]]; [injection I as <- <- <-; vm_compute; reflexivity..|]. assert (n = 128 /\ G = (x, y)) as [-> I'] by (split; congruence).
    assert (Ex : x = fst G) by (rewrite I'; reflexivity). assert (Ey : y = snd G) by (rewrite I'; reflexivity). rewrite Ex, Ey. vm_compute. reflexivity. }
  rewrite E. exact (edwards_strings B S x y O).
Qed.
Lemma number_case :
  (bytes 56 mp_generator /\ le_val mp_generator = 5) /\ sval scalar_one < 2 ^ 448 - 4 * ell /\
  (let v := digits 32 14 (ell - 1) in is_scalar v /\ sval v < ell /\ ~ sval v < 2 ^ 448 - 4 * ell).
Proof.
  split; [split; [split; [reflexivity|repeat constructor; vm_compute; congruence]|reflexivity]|]. split; [reflexivity|].
  split; [apply digits_array; lia|]. split; [vm_compute; reflexivity|vm_compute; intro X; discriminate X].
Qed.
