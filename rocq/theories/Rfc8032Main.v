(** The crate's point encoding and RFC 8032. *)
Require Import ZArith List Bool Lia Ring Field.
From Verif Require Import Base BaseProofs SpecParams SpecField SpecCurve SpecEncoding SpecRfc8032 FieldTheory FieldBackend Backends BackendLaws
  ScalarModel ScalarMain EdwardsTheory CurveTheory TwistedModel EdwardsModel PointSpec EdSigns EdwardsProofs EdwardsRun EdwardsMain.
Import ListNotations.
Open Scope F_scope.
Local Opaque fadd fsub fmul fopp fdiv finv fpow of_Z.

(** (u/v)^((p+1)/4) without a division. *)
Lemma root_gen : forall (w v : F) (e : Z), (0 < e)%Z -> (p = 4 * e + 3)%Z -> v <> 0 ->
  fpow (w * v) 3 * v * fpow (fpow (w * v) 5 * fpow v 3) e = fpow w (e + 1).
Proof.
  intros w v e He Ep Nv. destruct (F_eq_dec w 0) as [Zw|Nw].
  - rewrite Zw. replace (0 * v) with (0 : F) by ring. rewrite !fpow_zero by lia. ring.
  - pose proof (F_fermat w Nw) as Fw. pose proof (F_fermat v Nv) as Fv. rewrite Ep in Fw, Fv. replace (4 * e + 3 - 1)%Z with (e * 4 + 2)%Z in Fw, Fv by lia.
    rewrite fpow_add, fpow_mul in Fw, Fv by lia. rewrite !fpow_mul_l. rewrite fpow_add, fpow_1 by lia.
    rewrite <- !(fpow_mul _ 5), <- !(fpow_mul _ 3) by lia. rewrite (Z.mul_comm 5), (Z.mul_comm 3). rewrite !fpow_mul by lia.
    set (a := fpow w e) in *. set (b := fpow v e) in *. clearbody a b.
    assert (P3 : forall x, fpow x 3 = x * x * x). { intro x. change 3%Z with (1 + 1 + 1)%Z. rewrite !fpow_add, !fpow_1 by lia. reflexivity. }
    assert (P4 : forall x, fpow x 4 = x * x * x * x). { intro x. change 4%Z with (1 + 1 + 1 + 1)%Z. rewrite !fpow_add, !fpow_1 by lia. reflexivity. }
    assert (P5 : forall x, fpow x 5 = x * x * x * x * x). { intro x. change 5%Z with (1 + 1 + 1 + 1 + 1)%Z. rewrite !fpow_add, !fpow_1 by lia. reflexivity. }
    rewrite P4, fpow_2 in Fw, Fv. rewrite !P3, !P5.
    transitivity (a * a * a * a * (w * w) * (b * b * b * b * (v * v)) * (b * b * b * b * (v * v)) * (a * w)); [ring|]. rewrite Fw, Fv. ring.
Qed.
Lemma root_eq : forall w v, v <> 0 -> fpow (w * v) 3 * v * fpow (fpow (w * v) 5 * fpow v 3) ((p - 3) / 4) = fsqrt w.
Proof.
  intros w v N. rewrite root_gen; [|reflexivity|reflexivity|exact N]. unfold fsqrt. apply (f_equal (fpow w)). reflexivity.
Qed.
Lemma rfc_x : forall y : F, let u := y * y - 1 in let v := ed_d * (y * y) - 1 in let w := (1 - y * y) / (1 - ed_d * (y * y)) in
  v <> 0 /\ fpow u 3 * v * fpow (fpow u 5 * fpow v 3) ((p - 3) / 4) = fsqrt w /\ u = w * v.
Proof.
  intros y u v w. pose proof (ed_den_nz y) as N.
  assert (Nv : v <> 0). { intro E. apply N. transitivity (- v); [unfold v; ring|]. rewrite E. ring. }
  assert (U : u = w * v). { unfold u, v, w. field. exact N. }
  split; [exact Nv|]. split; [|exact U]. rewrite U. apply root_eq. exact Nv.
Qed.

Lemma fodd_mod : forall x, (fval x mod 2 = if fodd x then 1 else 0)%Z.
Proof. intro x. unfold fodd. apply Zmod_odd. Qed.
(** Splitting off the last byte. *)
Lemma top_byte : forall b, bytes 57 b -> exists l t, b = l ++ [t] /\ bytes 56 l /\ (0 <= t < 256)%Z /\
  (le_val b = le_val l + 2 ^ 448 * t)%Z /\ (0 <= le_val l < 2 ^ 448)%Z.
Proof.
  intros b Hb. destruct (bytes_last 56 b Hb) as (_ & _ & B56 & R & Eb). exists (firstn 56 b), (nth 56 b 0%Z). split; [exact Eb|]. split; [exact B56|].
  split; [exact R|]. split; [|exact (array_range 8 56 _ ltac:(lia) B56)]. rewrite Eb at 1. unfold le_val. rewrite eval_app by lia. rewrite (proj1 B56).
  cbn [eval]. rewrite Z.mul_0_r, Z.add_0_r. reflexivity.
Qed.
Lemma split_bit : forall v t, (0 <= v < 2 ^ 448 -> 0 <= t < 256 ->
  (v + 2 ^ 448 * t) / 2 ^ 455 = t / 128 /\ (v + 2 ^ 448 * t) mod 2 ^ 455 = v + 2 ^ 448 * (t mod 128))%Z.
Proof.
  intros v t Hv Ht. pose proof (Z.div_mod t 128 ltac:(lia)) as E. pose proof (Z.mod_pos_bound t 128 ltac:(lia)) as R.
  assert (P : (2 ^ 455 = 2 ^ 448 * 128)%Z) by reflexivity. rewrite P. set (A := (2 ^ 448)%Z) in *. clearbody A.
  assert (D : (v + A * t = A * 128 * (t / 128) + (v + A * (t mod 128)))%Z) by nia. split.
  - symmetry. apply (Z.div_unique _ _ _ (v + A * (t mod 128))); [left; nia|exact D].
  - symmetry. apply (Z.mod_unique _ _ (t / 128)); [left; nia|exact D].
Qed.
Lemma encode_same : forall Q, rfc8032_encode Q = ed_encode Q.
Proof.
  intro Q. destruct (encode_bytes Q) as (Hb & _ & _). unfold rfc8032_encode. rewrite <- (bytes_le_bytes 57 (ed_encode Q) Hb). apply (f_equal (le_bytes 57)).
  unfold ed_encode, le_val. rewrite eval_app by lia. rewrite (proj1 (le_bytes_bytes 56 (fval (snd Q)))). fold (le_val (le_bytes 56 (fval (snd Q)))). rewrite le_val_canon.
  rewrite fodd_mod. cbn [eval]. destruct (fodd (fst Q)); reflexivity.
Qed.

Theorem rfc_decode_iff : forall b Q, bytes 57 b -> (rfc8032_decode b = Some Q <-> on_ed Q /\ b = ed_encode Q).
Proof.
  intros b [x0 y0] Hb. destruct (top_byte b Hb) as (l & t & Eb & Bl & Rt & Ev & Rl). destruct (split_bit _ _ Rl Rt) as [D M].
  unfold rfc8032_decode. rewrite Ev, D, M. assert (Pb : (p <= 2 ^ 448)%Z) by (vm_compute; discriminate). 
  assert (Enc : b = ed_encode (x0, y0) <-> l = le_bytes 56 (fval y0) /\ t = if fodd x0 then 128%Z else 0%Z).
  { rewrite Eb. unfold ed_encode. cbn [fst snd]. split; [intro X; apply app_inj_tail in X; exact X|]. intros [-> ->]. reflexivity. }
  destruct (Z.leb_spec p (le_val l + 2 ^ 448 * (t mod 128))) as [Big|Small].
  { split; [discriminate|]. intros [_ X]. apply Enc in X. destruct X as [X1 X2]. exfalso. rewrite X1, le_val_canon in Big. pose proof (fval_range y0).
    assert (t mod 128 = 0)%Z by (rewrite X2; destruct (fodd x0); reflexivity). lia. }
  pose proof (Z.mod_pos_bound t 128 ltac:(lia)) as Rm. assert (T0 : (t mod 128 = 0)%Z).
  { assert (2 ^ 448 * (t mod 128) < 2 ^ 448 * 1)%Z by lia. apply Z.mul_lt_mono_pos_l in H; [lia|reflexivity]. }
  rewrite T0, Z.mul_0_r, Z.add_0_r in *. set (y := of_Z (le_val l)). destruct (rfc_x y) as (Nv & Ex & Eu). rewrite Ex. rewrite Eu at 1.
  set (v := ed_d * (y * y) - 1) in *. set (w := (1 - y * y) / (1 - ed_d * (y * y))) in *. set (r := fsqrt w).
  assert (Ly : l = le_bytes 56 (fval y)). { unfold y. rewrite fval_of_Z, Z.mod_small by lia. symmetry. apply bytes_le_bytes. exact Bl. }
  assert (Inv : (on_ed (x0, y0) /\ b = ed_encode (x0, y0)) <-> y0 = y /\ on_ed (x0, y) /\ (if fodd x0 then 128%Z else 0%Z) = t).
  { rewrite Enc. split.
    - intros (O & X1 & X2). assert (Y : y0 = y). { apply F_eq. rewrite <- (le_val_canon y0), <- X1, Ly. apply le_val_canon. } rewrite Y in O. auto.
    - intros (-> & O & X). auto. }
  rewrite Inv. clear Inv Enc Ex Ev D M Small.
  assert (Tc : t = 0%Z \/ t = 128%Z). { pose proof (Z.div_mod t 128 ltac:(lia)) as E. rewrite T0 in E. pose proof (Z.div_lt_upper_bound t 128 2 ltac:(lia) ltac:(lia)). pose proof (Z.div_pos t 128 ltac:(lia) ltac:(lia)). lia. }
  assert (Bit : (t / 128 = if (t =? 0) then 0 else 1)%Z) by (destruct Tc as [-> | ->]; reflexivity). rewrite Bit, fodd_mod.
  destruct (feqb (v * (r * r)) (w * v)) eqn:Sq; cbn [negb].
  2:{ split; [intro X; exfalso; exact (some_none _ _ (eq_sym X))|]. intros (_ & O & _). exfalso. assert (is_square w) as Q by (apply on_ed_exists; exists x0; exact O).
      apply fsqrt_ok in Q. fold r in Q. rewrite Q in Sq. assert (E : v * w = w * v) by ring. apply feqb_eq in E. rewrite E in Sq. discriminate Sq. }
  apply feqb_eq in Sq. assert (Rw : r * r = w). { apply (fmul_cancel_l v); [exact Nv|]. rewrite Sq. ring. }
  assert (Or : on_ed (r, y)) by (apply on_ed_solved; exact Rw). clear Sq Eu.
  assert (On : on_ed (- r, y)) by exact (on_curve_neg _ _ (r, y) Or).
  destruct (feqb r 0) eqn:Zr; cbn [andb].
  - apply feqb_eq in Zr. assert (X0 : forall x, on_ed (x, y) -> x = 0). { intros x O. destruct (on_ed_same_y _ _ _ O Or) as [X|X]; rewrite X, Zr; [reflexivity|ring]. }
    destruct Tc as [-> | ->]; cbn [Z.eqb Z.leb Pos.eqb].
    + rewrite Zr. rewrite fodd_0. cbn [Z.eqb]. split.
      * intro X. apply some_pair in X. destruct X as [<- <-]. split; [reflexivity|]. split; [rewrite <- Zr; exact Or|]. rewrite fodd_0. reflexivity.
      * intros (-> & O & _). rewrite (X0 _ O). reflexivity.
    + split; [intro X; exfalso; exact (some_none _ _ (eq_sym X))|]. intros (_ & O & X). rewrite (X0 _ O), fodd_0 in X. discriminate X.
  - assert (Nr : r <> 0). { intro E. apply feqb_eq in E. rewrite E in Zr. discriminate Zr. }
    assert (Hx : forall x, on_ed (x, y) -> (if fodd x then 128%Z else 0%Z) = t -> fodd x = negb (t =? 0)%Z).
    { intros x _ X. rewrite <- X. destruct (fodd x); reflexivity. }
    assert (Main : forall x, on_ed (x, y) -> fodd x = negb (t =? 0)%Z -> Some (x, y) = Some (x0, y0) <-> y0 = y /\ on_ed (x0, y) /\ (if fodd x0 then 128%Z else 0%Z) = t).
    { intros x O Fx. split.
      - intro X. apply some_pair in X. destruct X as [<- <-]. split; [reflexivity|]. split; [exact O|]. rewrite Fx. destruct Tc as [-> | ->]; reflexivity.
      - intros (-> & O0 & X). apply (f_equal Some). apply pt_eq; [|reflexivity]. cbn [fst]. apply (on_ed_same_sign _ _ y); [exact O|exact O0|]. rewrite Fx. symmetry. exact (Hx _ O0 X). }
    assert (Fo : fodd (- r) = negb (fodd r)) by (apply fodd_opp; exact Nr).
    destruct Tc as [-> | ->]; cbn [Z.eqb Pos.eqb]; destruct (fodd r) eqn:Fr; cbn [Z.eqb Pos.eqb]; apply Main; try assumption; try reflexivity; rewrite ?Fo, ?Fr; reflexivity.
Qed.

Theorem crate_encode : forall B, shipped B -> forall P, ed_valid B P -> ed_compress B P = Ok (rfc8032_encode (ed_affine B P)).
Proof. intros B S P V. rewrite encode_same. exact (ed_compress_ok B (shipped_laws B S) _ _ (rep_of B P V)). Qed.
Theorem crate_decode : forall B, shipped B -> forall b Q, bytes 57 b ->
  (rfc8032_decode b = Some Q <-> exists P, ed_decompress B b = Ok (Some P) /\ ed_affine B P = Q /\ ed_compress B P = Ok b).
Proof.
  intros B S b Q Hb. rewrite (rfc_decode_iff b Q Hb). pose proof (shipped_laws B S) as L. split.
  - intros [O E]. destruct (ed_decompress_exact B S b Hb) as (K1 & K2 & _). destruct (encode_bytes Q) as (_ & E1 & E2).
    assert (Y : of_Z (le_val (firstn 56 b)) = snd Q) by (rewrite E, E1, le_val_canon; apply of_Z_fval). rewrite Y in K1, K2.
    destruct (proj2 K2) as (P & EP). { exists (fst Q). rewrite <- surjective_pairing. exact O. }
    destruct (K1 P EP) as (V & YP & SP). pose proof (valid_on B P V) as OP.
    assert (X : ed_affine B P = Q).
    { rewrite (surjective_pairing (ed_affine B P)), (surjective_pairing Q). apply pt_eq; [|exact YP]. assert (OP' : on_ed (fst (ed_affine B P), snd Q)) by (rewrite <- YP, <- surjective_pairing; exact OP).
      assert (OQ : on_ed (fst Q, snd Q)) by (rewrite <- surjective_pairing; exact O). destruct (F_eq_dec (fst (ed_affine B P)) 0) as [Z|N].
      - rewrite Z in *. destruct (on_ed_same_y _ _ _ OQ OP') as [X|X]; rewrite X; [reflexivity|ring].
      - apply (on_ed_same_sign _ _ (snd Q)); [exact OP'|exact OQ|]. rewrite (SP N), E, E2. destruct (fodd (fst Q)); reflexivity. }
    exists P. split; [exact EP|]. split; [exact X|]. rewrite (ed_compress_ok B L _ _ (rep_of B P V)), X, E. reflexivity.
  - intros (P & EP & EA & EC). destruct (ed_decompress_exact B S b Hb) as (K1 & _). destruct (K1 P EP) as (V & _).
    rewrite (ed_compress_ok B L _ _ (rep_of B P V)), EA in EC. apply ok_inj in EC. split; [rewrite <- EA; exact (valid_on B P V)|]. symmetry. exact EC.
Qed.
Theorem rfc_roundtrip : forall Q, on_curve ed_a ed_d Q -> rfc8032_decode (rfc8032_encode Q) = Some Q.
Proof. intros Q O. rewrite encode_same. apply rfc_decode_iff; [exact (proj1 (encode_bytes Q))|]. split; [exact O|reflexivity]. Qed.
