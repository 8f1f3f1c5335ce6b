(** The twisted-curve and scalar multiplication properties in the form used by PropsEdwards.v. *)
Require Import ZArith Znumtheory List Bool Lia Ring Field.
From Verif Require Import Base BaseProofs SpecParams SpecField SpecCurve FieldTheory FieldBackend FieldModel Backends BackendLaws
  FieldProofs FieldMain Wp ScalarModel ScalarProofs ScalarProofs2 ScalarMain EdwardsTheory CurveTheory PhiHat TwistedModel ScalarMulModel
  EdwardsModel PointSpec TwistedProofs ScalarMulProofs EdwardsProofs GroupOrder EdwardsMain.
Import ListNotations.
Open Scope F_scope.
Open Scope res_scope.
Local Opaque fadd fsub fmul fopp fdiv finv fpow of_Z padd pmul G pzero T4 ell D Gx Gy Dx Dy.

Lemma padd_unf : forall a d x1 y1 x2 y2, padd a d (x1, y1) (x2, y2) =
  ((x1 * y2 + y1 * x2) / (1 + d * x1 * x2 * y1 * y2), (y1 * y2 - a * x1 * x2) / (1 - d * x1 * x2 * y1 * y2)).
Proof. reflexivity. Qed.

(** ** The twisted base point is the image of the base point *)
Lemma fval_eq : forall x y : F, fval x = fval y -> x = y. Proof. exact F_eq. Qed.
Lemma D_x_num : Dx * (Gy * Gy - Gx * Gx) = of_Z 2 * Gx * Gy. Proof. apply fval_eq. vm_compute. reflexivity. Qed.
Lemma D_y_num : Dy * (of_Z 2 - (Gy * Gy + Gx * Gx)) = Gy * Gy + Gx * Gx. Proof. apply fval_eq. vm_compute. reflexivity. Qed.
Lemma G_pair : G = (Gx, Gy). Proof. reflexivity. Qed.
Lemma D_pair : D = (Dx, Dy). Proof. reflexivity. Qed.
Lemma phi_num : forall x y x' y', on_ed (x, y) -> x' * (y * y - x * x) = of_Z 2 * x * y ->
  y' * (of_Z 2 - (y * y + x * x)) = y * y + x * x -> phi (x, y) = (x', y').
Proof.
  intros x y x' y' O E1 E2. unfold phi. apply pt_eq; apply fdiv_val.
  - apply ed_yx_nz. exact O.
  - symmetry. exact E1.
  - apply ed_E_nz. exact O.
  - symmetry. exact E2.
Qed.
Lemma phi_G : phi G = D.
Proof. rewrite G_pair, D_pair. apply phi_num; [exact on_G|exact D_x_num|exact D_y_num]. Qed.
Lemma even_D : even_tw D. Proof. rewrite <- phi_G. apply phi_even. exact on_G. Qed.

Lemma even_padd : forall P Q, even_tw P -> even_tw Q -> even_tw (padd tw_a tw_d P Q). Proof. exact even_add. Qed.
Lemma even_pmul : forall n P, even_tw P -> even_tw (pmul tw_a tw_d n P). Proof. intros n P H. exact (pmul_S _ _ _ tw_group n P H). Qed.

Section TwMain.
Variable B : backend.
Hypothesis S : shipped B.
Let L := shipped_laws B S.

Lemma tw_of_rep : forall P Q, tw_rep B P Q -> tw_valid B P /\ tw_affine B P = Q. Proof. intros P Q H. apply tw_rep_iff. exact H. Qed.
Lemma tw_ex_rep : forall x Q, okp x (fun R => tw_rep B R Q) -> exists R, x = Ok R /\ tw_valid B R /\ tw_affine B R = Q.
Proof. intros x Q (R & E & H). exists R. split; [exact E|]. apply tw_of_rep. exact H. Qed.
Lemma tw_valid_even : forall P, tw_valid B P -> even_tw (tw_affine B P). Proof. intros P V. exact (tw_rep_even B _ _ (tw_rep_of B P V)). Qed.

Lemma tw_generator_rep : tw_rep B (tw_generator B) D.
Proof.
  unfold tw_rep, tw_generator. cbn [twX twY twZ twT].
  destruct (l_tx B L) as [T1 V1], (l_ty B L) as [T2 V2], (l_tz B L) as [T3 V3], (l_tt B L) as [T4 V4].
  split; [auto|]. split; [exact even_D|]. rewrite V1, V2, V3, V4, D_pair. cbn [fst snd]. split; [exact F_1_neq_0|].
  generalize Dx Dy. intros a b. repeat split; ring.
Qed.

(** ** C33 *)
Theorem isogeny_denominators :
  (forall x y, on_curve ed_a ed_d (x, y) -> y * y - x * x <> 0 /\ of_Z 2 - y * y - x * x <> 0) /\
  (forall x y, on_curve tw_a tw_d (x, y) -> is_square (1 + x * x) -> y * y - - (1) * (x * x) <> 0 /\ of_Z 2 - y * y - - (1) * (x * x) <> 0).
Proof.
  split.
  - intros x y H. split; [apply ed_yx_nz; exact H|]. replace (of_Z 2 - y * y - x * x) with (of_Z 2 - (y * y + x * x)) by ring. apply ed_E_nz. exact H.
  - intros x y H Q. replace (y * y - - (1) * (x * x)) with (y * y + x * x) by ring.
    replace (of_Z 2 - y * y - - (1) * (x * x)) with (of_Z 2 - (y * y - x * x)) by ring. split; [apply tw_C_nz; exact H|apply tw_E_nz; split; assumption].
Qed.
Theorem dual_isogenies : forall T, tw_valid B T ->
  exists R U, tw_to_untwisted B T = Ok R /\ ed_valid B R /\ ed_to_twisted B R = Ok U /\ tw_valid B U /\
    tw_affine B U = pmul tw_a tw_d 4 (tw_affine B T).
Proof.
  intros T V. pose proof (tw_valid_even T V) as O. apply (tw_rep_of B) in V.
  destruct (tw_to_untwisted_ok B L _ _ V) as (R & ER & HR). destruct (ed_to_twisted_ok B L _ _ HR) as (U & EU & HU).
  exists R, U. split; [exact ER|]. split; [exact (proj1 (of_rep B _ _ HR))|]. split; [exact EU|]. rewrite (phi_phihat _ O) in HU. exact (tw_of_rep _ _ HU).
Qed.

(** ** C34 *)
Theorem window_bitwise : forall T s, tw_valid B T -> is_scalar s ->
  (exists R, variable_base B T s = Ok R /\ tw_valid B R /\ tw_affine B R = pmul tw_a tw_d (sval s) (tw_affine B T)) /\
  (exists R, double_and_add B T s = Ok R /\ tw_valid B R /\ tw_affine B R = pmul tw_a tw_d (sval s) (tw_affine B T)) /\
  (l <- variable_base B T s ;; r <- double_and_add B T s ;; tw_ct_eq B l r) = Ok true.
Proof.
  intros T s V Hs. apply (tw_rep_of B) in V. pose proof (variable_base_ok B L _ _ _ V Hs) as K1. pose proof (double_and_add_ok B L _ _ _ V Hs) as K2.
  split; [apply tw_ex_rep; exact K1|]. split; [apply tw_ex_rep; exact K2|]. apply okp_eq. eapply okp_bind; [exact K1|]. intros l Hl.
  eapply okp_bind; [exact K2|]. intros r Hr. cbv beta in *. rewrite (tw_ct_eq_ok B L _ _ _ _ Hl Hr). apply okp_ret. apply peqb_refl.
Qed.
Theorem lookup_exact : forall T k, tw_valid B T -> (0 <= k <= 8)%Z ->
  exists t N R, lookup_from B T = Ok t /\ lookup_select B t k = Ok N /\ pn_to_extended B N = Ok R /\ tw_valid B R /\
    tw_affine B R = pmul tw_a tw_d k (tw_affine B T).
Proof.
  intros T k V Hk. apply (tw_rep_of B) in V. destruct (lookup_from_ok B L _ _ V) as (t & Et & Ht).
  destruct (lookup_select_ok B L _ _ k Ht Hk) as (N & EN & HN). destruct (pn_to_extended_ok B L _ _ HN) as (R & ER & HR).
  exists t, N, R. split; [exact Et|]. split; [exact EN|]. split; [exact ER|]. exact (tw_of_rep _ _ HR).
Qed.
Theorem recoding_exact : forall s, is_scalar s ->
  exists d, to_radix_16 s = Ok d /\ length d = 113%nat /\ Forall (fun x => -8 <= x < 8)%Z (firstn 112 d) /\
    (nth 112 d 0 = 0 \/ nth 112 d 0 = 1)%Z /\ fold_right (fun x acc => x + 16 * acc)%Z 0%Z d = sval s.
Proof.
  intros s Hs. destruct (to_radix_16_ok s Hs) as (d & E & Len & Fd & (k & Ek & Hk) & V). exists d. split; [exact E|]. split; [exact Len|].
  split; [exact Fd|]. split.
  - assert (Lf : length (firstn 112 d) = 112%nat) by (rewrite firstn_length, Len; reflexivity).
    assert (N : nth 112 d 0%Z = k).
    { rewrite <- (firstn_skipn 112 d), Ek, app_nth2, Lf, Nat.sub_diag by (rewrite Lf; apply le_n). reflexivity. }
    rewrite N. lia.
  - rewrite <- V. clear. induction d as [|x d IH]; [reflexivity|]. cbn [fold_right eval]. rewrite IH. reflexivity.
Qed.

(** ** C35 *)
Theorem mod_four_law : forall P s, ed_valid B P -> is_scalar s ->
  exists R, ed_scalar_mod_four B P s = Ok R /\ ed_valid B R /\ ed_affine B R = pmul ed_a ed_d (sval s mod 4) (ed_affine B P).
Proof. intros P s V Hs. apply (rep_of B) in V. apply (ex_rep B). apply (ed_mod_four_ok B L); assumption. Qed.

(** ** C55 *)
Theorem double_base_law : forall a A b, is_scalar a -> tw_valid B A -> is_scalar b ->
  exists R, double_base_scalar_mul B a A b = Ok R /\ tw_valid B R /\
    tw_affine B R = padd tw_a tw_d (pmul tw_a tw_d (sval a) (tw_affine B A)) (pmul tw_a tw_d (sval b) D).
Proof.
  intros a A b Ha V Hb. apply (tw_rep_of B) in V. apply tw_ex_rep. unfold double_base_scalar_mul.
  eapply okp_bind; [exact (double_and_add_ok B L _ _ _ V Ha)|]. intros x Hx.
  eapply okp_bind; [exact (double_and_add_ok B L _ _ _ tw_generator_rep Hb)|]. intros y Hy. cbv beta in *.
  exact (tw_add_ok B L _ _ _ _ Hx Hy).
Qed.

(** ** C56 *)
Lemma dbl_coords_neq : forall Q, on_tw Q -> pdbl_coords Q <> Q.
Proof.
  intros [x y] O E. unfold pdbl_coords in E. cbn [fst snd] in E.
  assert (X : x = 0). { apply (f_equal fst) in E. cbn [fst] in E. transitivity (of_Z 2 * x - x); [ring|rewrite E; ring]. }
  assert (Y : y = 0). { apply (f_equal snd) in E. cbn [snd] in E. transitivity (of_Z 2 * y - y); [ring|rewrite E; ring]. }
  unfold on_tw, on_curve in O. rewrite X, Y in O. apply F_1_neq_0. transitivity (1 + tw_d * (0 * 0) * (0 * 0)); [ring|]. rewrite <- O. ring.
Qed.
Theorem affine_niels_law : forall P A, xt_valid B P -> twa_valid B A ->
  exists N R E, twa_to_affine_niels B A = Ok N /\
    xt_add_affine_niels B P N = Ok R /\
    xt_affine B R = pdbl_coords (padd tw_a tw_d (xt_affine B P) (twa_affine B A)) /\
    xt_affine B R <> padd tw_a tw_d (xt_affine B P) (twa_affine B A) /\
    an_to_extended B N = Ok E /\
    tw_affine B E = pdbl_coords (twa_affine B A) /\ tw_affine B E <> twa_affine B A.
Proof.
  intros P A VP ((Tx & Ty) & HA). assert (HP : xt_rep B P (xt_affine B P)) by (apply xt_rep_iff; auto). clear VP.
  set (Q := xt_affine B P) in *. clearbody Q. destruct HP as ((TX & TY & TZ & T1 & T2) & HQ & NZ & EX & EY & ET).
  change (even_tw (twa_affine B A)) in HA. pose proof (even_den _ _ HQ HA) as DN. pose proof (even_add _ _ HQ HA) as HS.
  assert (K : okp (twa_to_affine_niels B A) (fun N => is_val B (anYpX N) (fv B (twAy A) + fv B (twAx A)) /\
     is_val B (anYmX N) (fv B (twAy A) - fv B (twAx A)) /\ is_val B (anTd N) (fv B (twAx A) * fv B (twAy A) * tw_d))).
  { unfold twa_to_affine_niels. fsteps. apply okp_ret. cbn [anYpX anYmX anTd]. unfold is_val. fvals. fconsts. auto 10. }
  destruct K as (N & EN & [U1 W1] & [U2 W2] & [U3 W3]). exists N.
  assert (K : okp (xt_add_affine_niels B P N) (fun R => xt_affine B R = pdbl_coords (padd tw_a tw_d Q (twa_affine B A)))).
  { unfold xt_add_affine_niels. fsteps. apply okp_ret. unfold xt_affine. cbn [xtX xtY xtZ]. unfold twa_affine in *. destruct Q as [x1 y1].
    unfold den_ok in DN. destruct DN as [D1 D2]. rewrite padd_unf. unfold pdbl_coords. cbn [fst snd] in *. fvals. set (z := fv B (xtZ P)) in *.
    set (x2 := fv B (twAx A)) in *. set (y2 := fv B (twAy A)) in *. clearbody z x2 y2.
    replace (x2 * y2 * tw_d * fv B (xtT1 P) * fv B (xtT2 P)) with (x2 * y2 * tw_d * (fv B (xtT1 P) * fv B (xtT2 P))) by ring. rewrite ET.
    assert (G1 : z + x2 * y2 * tw_d * (x1 * y1 * z) = z * (1 + tw_d * x1 * x2 * y1 * y2)) by ring.
    assert (G2 : z - x2 * y2 * tw_d * (x1 * y1 * z) = z * (1 - tw_d * x1 * x2 * y1 * y2)) by ring. rewrite G1, G2.
    unfold tw_a. apply pt_eq; field; auto. }
  destruct K as (R & ER & HR). exists R.
  assert (K : okp (an_to_extended B N) (fun E => tw_affine B E = pdbl_coords (twa_affine B A))).
  { unfold an_to_extended. fsteps. apply okp_ret. unfold tw_affine, pdbl_coords, twa_affine. cbn [twX twY twZ fst snd]. fvals. fconsts.
    set (x2 := fv B (twAx A)) in *. set (y2 := fv B (twAy A)) in *. clearbody x2 y2. pose proof F_1_neq_0. apply pt_eq; field; auto. }
  destruct K as (E & EE & HE). exists E. split; [exact EN|]. split; [exact ER|]. split; [exact HR|]. rewrite HR.
  split; [apply dbl_coords_neq; exact (proj1 HS)|]. split; [exact EE|]. split; [exact HE|]. rewrite HE. apply dbl_coords_neq. exact (proj1 HA).
Qed.
Theorem affine_niels_coords : forall P A, xt_valid B P -> twa_valid B A -> let x := fv B (twAx A) in let y := fv B (twAy A) in
  exists N R E, twa_to_affine_niels B A = Ok N /\ xt_add_affine_niels B P N = Ok R /\ an_to_extended B N = Ok E /\
    fv B (anYpX N) = y + x /\ fv B (anYmX N) = y - x /\ fv B (anTd N) = x * y * tw_d /\
    fv B (xtZ R) <> 0 /\ fv B (xtT1 R) * fv B (xtT2 R) * fv B (xtZ R) = fv B (xtX R) * fv B (xtY R) /\
    fv B (twX E) = of_Z 2 * x /\ fv B (twY E) = of_Z 2 * y /\ fv B (twZ E) = 1 /\ fv B (twT E) = y * y - x * x.
Proof.
  intros P A VP ((Tx & Ty) & HA) x y. assert (HP : xt_rep B P (xt_affine B P)) by (apply xt_rep_iff; auto). clear VP.
  set (Q := xt_affine B P) in *. clearbody Q. destruct HP as ((TX & TY & TZ & T1 & T2) & HQ & NZ & EX & EY & ET).
  change (even_tw (twa_affine B A)) in HA. pose proof (even_den _ _ HQ HA) as DN.
  assert (K : okp (twa_to_affine_niels B A) (fun N => is_val B (anYpX N) (y + x) /\ is_val B (anYmX N) (y - x) /\ is_val B (anTd N) (x * y * tw_d))).
  { unfold twa_to_affine_niels, x, y. fsteps. apply okp_ret. cbn [anYpX anYmX anTd]. unfold is_val. fvals. fconsts. auto 10. }
  destruct K as (N & EN & [U1 W1] & [U2 W2] & [U3 W3]). exists N.
  assert (K : okp (xt_add_affine_niels B P N) (fun R => fv B (xtZ R) <> 0 /\ fv B (xtT1 R) * fv B (xtT2 R) * fv B (xtZ R) = fv B (xtX R) * fv B (xtY R))).
  { unfold xt_add_affine_niels. fsteps. apply okp_ret. cbn [xtX xtY xtZ xtT1 xtT2]. fvals. split; [|ring].
    unfold twa_affine in DN. destruct Q as [x1 y1]. unfold den_ok in DN. destruct DN as [D1 D2]. cbn [fst snd] in *. fold x y in D1, D2. set (z := fv B (xtZ P)) in *. clearbody z x y.
    replace (x * y * tw_d * fv B (xtT1 P) * fv B (xtT2 P)) with (x * y * tw_d * (fv B (xtT1 P) * fv B (xtT2 P))) by ring. rewrite ET.
    assert (G1 : z + x * y * tw_d * (x1 * y1 * z) = z * (1 + tw_d * x1 * x * y1 * y)) by ring.
    assert (G2 : z - x * y * tw_d * (x1 * y1 * z) = z * (1 - tw_d * x1 * x * y1 * y)) by ring. rewrite G1, G2.
    repeat apply fmul_nonzero; assumption. }
  destruct K as (R & ER & NZR & HR). exists R.
  assert (K : okp (an_to_extended B N) (fun E => fv B (twX E) = of_Z 2 * x /\ fv B (twY E) = of_Z 2 * y /\ fv B (twZ E) = 1 /\ fv B (twT E) = y * y - x * x)).
  { unfold an_to_extended. fsteps. apply okp_ret. cbn [twX twY twZ twT]. fvals. fconsts. clearbody x y. repeat split; ring. }
  destruct K as (E & EE & HE). exists E. auto 12.
Qed.
End TwMain.
