(** The Edwards point code computes the group law, scalar multiples, encodings and decodings of affine points. *)
Require Import ZArith List Bool Lia Ring Field.
From Verif Require Import Base BaseProofs SpecParams SpecField SpecCurve FieldTheory FieldBackend FieldModel BackendLaws FieldProofs Wp
  ScalarModel ScalarProofs ScalarProofs2 EdwardsTheory CurveTheory TwistedModel PointSpec TwistedProofs ScalarMulModel ScalarMulProofs
  EdwardsModel FieldMain EdSigns SpecEncoding.
Import ListNotations.
Open Scope F_scope.
Open Scope res_scope.
Local Opaque fadd fsub fmul fopp fdiv finv fpow of_Z.

(** ** Bytes *)
Lemma bytes_last : forall n b, bytes (S n) b -> removelast b = firstn n b /\ last b 0%Z = nth n b 0%Z /\
  bytes n (firstn n b) /\ (0 <= nth n b 0 < 256)%Z /\ b = firstn n b ++ [nth n b 0%Z].
Proof.
  intros n b [Len H].
  assert (E : b = firstn n b ++ [nth n b 0%Z]).
  { rewrite <- (firstn_skipn n b) at 1. f_equal. assert (Ls : length (skipn n b) = 1%nat) by (rewrite skipn_length; lia).
    destruct (skipn n b) as [|z [|? ?]] eqn:Q; try discriminate. f_equal.
    rewrite <- (firstn_skipn n b), Q, app_nth2 by (rewrite firstn_length; lia). rewrite firstn_length.
    replace (n - Nat.min n (length b))%nat with 0%nat by lia. reflexivity. }
  assert (Lf : length (firstn n b) = n) by (rewrite firstn_length; lia).
  split; [rewrite E at 1; apply removelast_last|]. split; [rewrite E at 1; apply last_last|].
  split; [apply (array_firstn 8 (S n)); [lia|split; assumption]|]. split; [|exact E].
  rewrite Forall_forall in H. apply H. apply nth_In. lia.
Qed.
Lemma byte_top : forall z, (0 <= z < 256)%Z -> (shr z 7 =? 1)%Z = (128 <=? z)%Z.
Proof.
  intros z H. rewrite shr_div by lia. change (2 ^ 7)%Z with 128%Z.
  destruct (Z.leb_spec 128 z).
  - apply Z.eqb_eq. symmetry. apply (Z.div_unique_pos _ _ _ (z - 128)); lia.
  - apply Z.eqb_neq. rewrite Z.div_small by lia. discriminate.
Qed.
Lemma sval_mod4 : forall s, is_scalar s -> Z.land (hd 0%Z s) 3 = (sval s mod 4)%Z.
Proof.
  intros s [HL HF]. destruct s as [|x s]; [discriminate|]. cbn [hd]. unfold sval. rewrite eval_cons.
  change 3%Z with (2 ^ 2 - 1)%Z. rewrite land_mask by lia. change (2 ^ 2)%Z with 4%Z.
  replace (x + 2 ^ 32 * eval 32 s)%Z with (x + (2 ^ 30 * eval 32 s) * 4)%Z by (change (2 ^ 32)%Z with (2 ^ 30 * 4)%Z; ring).
  rewrite Z.mod_add by lia. reflexivity.
Qed.
Lemma le_bytes_bytes : forall n v, bytes n (le_bytes n v).
Proof. intros. apply digits_array. lia. Qed.
Lemma le_val_canon : forall x, le_val (le_bytes 56 (fval x)) = fval x.
Proof. intro x. apply le_val_le_bytes. pose proof (fval_range x). unfold p in *. lia. Qed.
Lemma of_Z_fval : forall x, of_Z (fval x) = x.
Proof. intro x. apply F_eq. rewrite fval_of_Z. apply Z.mod_small. apply fval_range. Qed.

Section Edwards.
Variable B : backend.
Hypothesis L : laws B.
Local Notation fv := (fv B).
Local Notation tight := (fe_tight B).
Local Notation padd_e := (padd ed_a ed_d).
Local Notation "n • P" := (pmul ed_a ed_d n P) (at level 40).

(** P is a valid representation of the affine point Q. *)
Definition ed_rep (P : EdPoint B) (Q : point) : Prop :=
  (tight (edX P) /\ tight (edY P) /\ tight (edZ P) /\ tight (edT P)) /\ on_ed Q /\
  fv (edZ P) <> 0 /\ fv (edX P) = fst Q * fv (edZ P) /\ fv (edY P) = snd Q * fv (edZ P) /\
  fv (edT P) = fst Q * snd Q * fv (edZ P).
Lemma ed_rep_iff : forall P Q, ed_rep P Q <-> ed_valid B P /\ ed_affine B P = Q.
Proof.
  intros P Q. unfold ed_rep, ed_valid, on_ed, ed_affine. split.
  - intros (T & HC & N & EX & EY & ET). destruct Q as [x y]. cbn [fst snd] in *.
    assert (X : fv (edX P) / fv (edZ P) = x) by (apply frac_eq; assumption).
    assert (Y : fv (edY P) / fv (edZ P) = y) by (apply frac_eq; assumption).
    rewrite X, Y. repeat split; try tauto. apply (proj2 (ext_T _ _ _ _ N)). rewrite X, Y. exact ET.
  - intros [(T & N & ET & HC) <-]. cbn [fst snd] in *. repeat split; try tauto; try (apply frac; exact N).
    exact (proj1 (ext_T _ _ _ _ N) ET).
Qed.
Lemma ed_rep_valid : forall P, ed_valid B P -> ed_rep P (ed_affine B P).
Proof. intros P H. apply ed_rep_iff. auto. Qed.
Lemma ed_rep_on : forall P Q, ed_rep P Q -> on_ed Q. Proof. intros P Q H. apply H. Qed.

Lemma ed_identity_rep : ed_rep (ed_identity B) pzero.
Proof.
  unfold ed_rep, ed_identity, pzero. cbn. rewrite (fv0 B L), (fv1 B L). pose proof (tight0 B L). pose proof (tight1 B L).
  split; [auto 10|]. split; [apply on_curve_zero|]. split; [exact F_1_neq_0|]. repeat split; ring.
Qed.
Lemma ed_generator_rep : ed_rep (ed_generator B) G.
Proof.
  unfold ed_rep, ed_generator, G. cbn [edX edY edZ edT fst snd].
  destruct (l_bx B L) as [T1 V1], (l_by B L) as [T2 V2], (l_bz B L) as [T3 V3], (l_bt B L) as [T4 V4]. rewrite V1, V2, V3, V4.
  split; [auto 10|]. split; [exact G_on_curve|]. split; [exact F_1_neq_0|]. generalize Gx Gy. intros. repeat split; ring.
Qed.

Lemma ed_add_ok : forall P Q P' Q', ed_rep P Q -> ed_rep P' Q' -> okp (ed_add B P P') (fun R => ed_rep R (padd_e Q Q')).
Proof.
  intros P Q P' Q' ((TX & TY & TZ & TT) & HQ & NZ & EX & EY & ET) ((TX' & TY' & TZ' & TT') & HQ' & NZ' & EX' & EY' & ET').
  unfold ed_add. fsteps. apply okp_ret. unfold ed_rep. cbn [edX edY edZ edT]. split; [repeat split; assumption|].
  split; [apply (eg_add _ _ _ ed_group); assumption|].
  destruct (add_fin ed_a ed_d Q Q' (fv r6) (fv r7) (fv r10) (fv r9) (fv (edZ P) * fv (edZ P'))) as (A1 & A2 & A3 & A4).
  - apply (eg_den _ _ _ ed_group); assumption.
  - apply fmul_nonzero; assumption.
  - fvals. ring.
  - fvals. unfold ed_a. ring.
  - fvals. fconsts. ring.
  - fvals. fconsts. ring.
  - assert (E17 : fv r17 = fv r7) by (rewrite Vr17, Vr7; reflexivity).
    assert (E18 : fv r18 = fv r10) by (rewrite Vr18, Vr10; reflexivity).
    assert (E12 : fv r12 = fv r9) by (rewrite Vr12, Vr9; reflexivity).
    assert (E15 : fv r15 = fv r6) by (rewrite Vr15, Vr6, Vr13, Vr14, Vr4, Vr5; reflexivity).
    rewrite Vr19, E17, E18, Vr8, Vr11, Vr16, E12, E15. split; [exact A1|]. split; [exact A2|]. split.
    + rewrite <- A3. ring.
    + rewrite <- A4. ring.
Qed.
Lemma ed_double_ok : forall P Q, ed_rep P Q -> okp (ed_double B P) (fun R => ed_rep R (padd_e Q Q)).
Proof. intros P Q H. apply ed_add_ok; exact H. Qed.
Lemma ed_negate_ok : forall P Q, ed_rep P Q -> okp (ed_negate B P) (fun R => ed_rep R (pneg Q)).
Proof.
  intros P Q ((TX & TY & TZ & TT) & HQ & NZ & EX & EY & ET). unfold ed_negate. fsteps. apply okp_ret.
  unfold ed_rep. cbn [edX edY edZ edT]. split; [repeat split; assumption|]. split; [apply on_curve_neg; exact HQ|].
  split; [exact NZ|]. destruct Q as [x y]. cbn [pneg fst snd] in *. fvals. repeat split; ring.
Qed.
Lemma on_ed_torque : forall Q, on_ed Q -> on_ed (padd_e Q (0, - (1))).
Proof.
  intros [x y] H. rewrite padd_N. unfold on_ed, on_curve in *. replace (- x * - x) with (x * x) by ring.
  replace (- y * - y) with (y * y) by ring. exact H.
Qed.
Lemma ed_torque_ok : forall P Q, ed_rep P Q -> okp (ed_torque B P) (fun R => ed_rep R (padd_e Q (0, - (1)))).
Proof.
  intros P Q ((TX & TY & TZ & TT) & HQ & NZ & EX & EY & ET). unfold ed_torque. fsteps. apply okp_ret.
  unfold ed_rep. cbn [edX edY edZ edT]. split; [repeat split; assumption|]. split; [apply on_ed_torque; exact HQ|].
  split; [exact NZ|]. destruct Q as [x y]. rewrite padd_N. cbn [fst snd] in *. fvals. repeat split; ring.
Qed.
Lemma ed_sub_ok : forall P Q P' Q', ed_rep P Q -> ed_rep P' Q' -> okp (ed_sub B P P') (fun R => ed_rep R (padd_e Q (pneg Q'))).
Proof.
  intros P Q P' Q' H H'. unfold ed_sub. eapply okp_bind; [apply ed_negate_ok; exact H'|]. intros N HN. apply ed_add_ok; assumption.
Qed.
Definition psum (l : list point) : point := fold_left padd_e l pzero.
Lemma ed_sum_loop_ok : forall l ql, Forall2 ed_rep l ql -> forall P Q, ed_rep P Q ->
  okp (ed_sum_loop B l P) (fun R => ed_rep R (fold_left padd_e ql Q)).
Proof.
  induction 1 as [|P1 Q1 l ql H1 _ IH]; intros P Q H.
  - apply okp_ret. exact H.
  - cbn [ed_sum_loop fold_left]. eapply okp_bind; [apply ed_add_ok; eassumption|]. intros R HR. apply IH. exact HR.
Qed.
Lemma ed_sum_ok : forall l ql, Forall2 ed_rep l ql -> okp (ed_sum B l) (fun R => ed_rep R (psum ql)).
Proof. intros l ql H. apply ed_sum_loop_ok; [exact H|apply ed_identity_rep]. Qed.
Lemma ed_select_ok : forall P P' Q Q' (c : bool), ed_rep P Q -> ed_rep P' Q' -> ed_select B P P' c = Ok (if c then P' else P).
Proof.
  intros [a1 b1 c1 d1] [a2 b2 c2 d2] Q Q' c ((? & ? & ? & ?) & _) ((? & ? & ? & ?) & _). unfold ed_select. cbn [edX edY edZ edT] in *.
  rewrite !(l_select B L) by assumption. cbn [bind]. destruct c; reflexivity.
Qed.
Lemma ed_ct_eq_ok : forall P Q P' Q', ed_rep P Q -> ed_rep P' Q' -> ed_ct_eq B P P' = Ok (peqb Q Q').
Proof.
  intros P Q P' Q' ((TX & TY & TZ & TT) & HQ & NZ & EX & EY & ET) ((TX' & TY' & TZ' & TT') & HQ' & NZ' & EX' & EY' & ET').
  assert (K : okp (ed_ct_eq B P P') (fun b => b = peqb Q Q')).
  { unfold ed_ct_eq. fsteps. apply okp_ret. fvals. rewrite !eqb_cross by assumption. reflexivity. }
  destruct K as (b & -> & ->). reflexivity.
Qed.
Lemma ed_to_affine_ok : forall P Q, ed_rep P Q ->
  okp (ed_to_affine B P) (fun R => is_val B (edAx R) (fst Q) /\ is_val B (edAy R) (snd Q)).
Proof.
  intros P Q ((TX & TY & TZ & TT) & HQ & NZ & EX & EY & ET). unfold ed_to_affine. fsteps. apply okp_ret. cbn [edAx edAy].
  split; (split; [assumption|]); fvals; field; exact NZ.
Qed.
Lemma eda_to_extended_ok : forall x y X Y, is_val B x X -> is_val B y Y -> on_ed (X, Y) ->
  okp (eda_to_extended B (mkEdA x y)) (fun R => ed_rep R (X, Y)).
Proof.
  intros x y X Y [Tx Vx] [Ty Vy] H. unfold eda_to_extended. cbn [edAx edAy]. fsteps. apply okp_ret. unfold ed_rep. cbn [edX edY edZ edT fst snd].
  pose proof (tight1 B L). split; [auto|]. split; [exact H|]. rewrite (fv1 B L). split; [exact F_1_neq_0|]. fvals. repeat split; ring.
Qed.

(** ** Encoding and decoding *)
Lemma ed_compress_ok : forall P Q, ed_rep P Q -> ed_compress B P = Ok (ed_encode Q).
Proof.
  intros P Q H. assert (K : okp (ed_compress B P) (fun b => b = ed_encode Q)).
  { unfold ed_compress. eapply okp_bind; [apply ed_to_affine_ok; exact H|]. intros A [[Tx Vx] [Ty Vy]]. fsteps. apply okp_ret.
    unfold ed_encode. rewrite Vx, Vy. destruct (fodd (fst Q)); reflexivity. }
  destruct K as (b & -> & ->). reflexivity.
Qed.
Lemma sqrt_ratio_val : forall u v, tight u -> tight v -> fv v <> 0 ->
  okp (fe_sqrt_ratio B u v) (fun rb => tight (fst rb) /\ (snd rb = true <-> is_square (fv u / fv v)) /\
    (snd rb = true -> fv (fst rb) * fv (fst rb) = fv u / fv v)).
Proof.
  intros u v Hu Hv N. eapply okp_weaken; [apply (sqrt_ratio_ok B L); assumption|]. cbv beta. intros [r b] [[T V] Eb]. cbn [fst snd] in *.
  rewrite V, Eb. destruct (ratio_square (fv u) (fv v) N) as [I R]. split; [exact T|]. split; [exact I|].
  intro Q. apply I in Q. apply R in Q. symmetry. apply fdiv_val; [exact N|]. rewrite <- Q at 1. ring.
Qed.
Theorem ed_decompress_ok : forall b, bytes 57 b ->
  let y := of_Z (le_val (firstn 56 b)) in
  (exists P x, ed_decompress B b = Ok (Some P) /\ ed_rep P (x, y) /\ (x <> 0 -> fodd x = (128 <=? nth 56 b 0%Z)%Z)) \/
  (ed_decompress B b = Ok None /\ forall x, ~ on_ed (x, y)).
Proof.
  intros b Hb y. destruct (bytes_last 56 b Hb) as (E1 & E2 & B56 & R & _).
  assert (K : okp (ed_decompress B b) (fun o => match o with
    | Some P => exists x, ed_rep P (x, y) /\ (x <> 0 -> fodd x = (128 <=? nth 56 b 0%Z)%Z)
    | None => forall x, ~ on_ed (x, y) end)).
  { unfold ed_decompress. rewrite E1, E2, byte_top by exact R.
    eapply okp_bind; [apply (l_from B L); exact B56|]. intros yv [Ty Vy]. fold y in Vy.
    fstep yy. fstep dyy. fstep nu. fstep de.
    assert (Vde' : fv de = 1 - ed_d * (y * y)) by (rewrite Vde; fconsts; fvals; fconsts; reflexivity).
    assert (Vnu' : fv nu = 1 - y * y) by (rewrite Vnu; fconsts; fvals; reflexivity).
    eapply okp_bind; [apply sqrt_ratio_val; try assumption; rewrite Vde'; apply ed_den_nz|]. intros [x isr] (Tx & I & Sq). cbn [fst snd] in *.
    rewrite Vde', Vnu' in *. destruct isr; cbn [negb].
    - specialize (Sq eq_refl). rewrite (l_isneg B L) by exact Tx. cbn [bind].
      eapply okp_bind; [apply (l_cneg B L); exact Tx|]. intros x' [Tx' Vx'].
      assert (Sq' : fv x' * fv x' = (1 - y * y) / (1 - ed_d * (y * y))).
      { rewrite <- Sq, Vx'. destruct (xorb _ _); ring. }
      eapply okp_bind; [apply (eda_to_extended_ok x' yv (fv x') y); [split; auto|split; auto|apply on_ed_solved; exact Sq']|].
      intros P HP. apply okp_ret. exists (fv x'). split; [exact HP|]. intro Nx.
      set (s := (128 <=? nth 56 b 0%Z)%Z) in *. rewrite Vx' in *. destruct s, (fodd (fv x)) eqn:Fx; cbn [xorb] in *; try exact Fx.
      + rewrite fodd_opp, Fx; [reflexivity|]. intro Z. apply Nx. rewrite Z. ring.
      + rewrite fodd_opp, Fx; [reflexivity|]. intro Z. apply Nx. rewrite Z. ring.
    - apply okp_ret. intros x0 H. assert (false = true); [|discriminate]. apply I. apply on_ed_exists. exists x0. exact H. }
  destruct K as ([P|] & E & K).
  - left. destruct K as (x & HP & HS). exists P, x. auto.
  - right. auto.
Qed.

(** ** Maps between the curves, scalar multiplication *)
Lemma ed_to_twisted_ok : forall P Q, ed_rep P Q -> okp (ed_to_twisted B P) (fun R => tw_rep B R (phi Q)).
Proof.
  intros P Q H. unfold ed_to_twisted. eapply okp_bind; [apply ed_to_affine_ok; exact H|]. intros A [Vx Vy].
  eapply okp_bind; [apply (isogeny_ok B L _ _ _ 1 (fst Q) (snd Q)); [apply (l_loose B L); apply (tight1 B L)|apply (fv1 B L)|exact Vx|exact Vy]|].
  intros [[nx ny] t] ([Tx Ex] & [Ty Ey] & [Tt Et]). apply okp_ret. unfold tw_rep. cbn [twX twY twZ twT].
  pose proof (tight1 B L). split; [auto|]. split; [apply phi_even; exact (ed_rep_on _ _ H)|]. rewrite (fv1 B L).
  split; [exact F_1_neq_0|]. rewrite Et, Ex, Ey. clear - Q. destruct Q as [x y]. unfold phi. cbn [fst snd].
  replace (1 * (x * x)) with (x * x) by ring. repeat split; ring.
Qed.
Lemma tw_to_untwisted_ok : forall P Q, tw_rep B P Q -> okp (tw_to_untwisted B P) (fun R => ed_rep R (phihat Q)).
Proof.
  intros P Q H. unfold tw_to_untwisted. eapply okp_bind; [apply (tw_to_affine_ok B L); exact H|]. intros A [Vx Vy].
  eapply okp_bind; [apply (isogeny_ok B L _ _ _ (- (1)) (fst Q) (snd Q)); [exact (proj1 (l_minus_one B L))|exact (proj2 (l_minus_one B L))|exact Vx|exact Vy]|].
  intros [[nx ny] t] ([Tx Ex] & [Ty Ey] & [Tt Et]). apply okp_ret. unfold ed_rep. cbn [edX edY edZ edT].
  pose proof (tight1 B L). split; [auto|]. split; [apply phihat_on; exact (tw_rep_even B _ _ H)|]. rewrite (fv1 B L).
  split; [exact F_1_neq_0|]. rewrite Et, Ex, Ey. clear - Q. destruct Q as [x y]. unfold phihat. cbn [fst snd].
  assert (E1 : y * y - - (1) * (x * x) = y * y + x * x) by ring. assert (E2 : y * y + - (1) * (x * x) = y * y - x * x) by ring.
  rewrite E1, E2. repeat split; ring.
Qed.
Lemma ed_mod_four_ok : forall P Q s, ed_rep P Q -> is_scalar s ->
  okp (ed_scalar_mod_four B P s) (fun R => ed_rep R ((sval s mod 4) • Q)).
Proof.
  intros P Q s H Hs. unfold ed_scalar_mod_four. eapply okp_bind; [apply ed_double_ok; exact H|]. intros P2 H2.
  eapply okp_bind; [exact (ed_add_ok _ _ _ _ H2 H)|]. intros P3 H3. cbv beta in H2, H3.
  assert (E : Z.land (hd 0%Z s) 3 = (sval s mod 4)%Z).
  { apply sval_mod4. exact Hs. }
  rewrite E. pose proof (Z.mod_pos_bound (sval s) 4 ltac:(lia)) as Rg. set (k := (sval s mod 4)%Z) in *. clearbody k.
  rewrite (ed_select_ok _ _ pzero pzero) by apply ed_identity_rep. cbn [bind].
  pose proof ed_identity_rep as H0.
  assert (C : (k = 0 \/ k = 1 \/ k = 2 \/ k = 3)%Z) by lia. destruct C as [->|[->|[->| ->]]]; cbn [Z.eqb Pos.eqb];
    repeat (erewrite ed_select_ok by eassumption; cbn [bind]); (eexists; split; [reflexivity|]).
  - exact H0.
  - rewrite pmul_1. exact H.
  - rewrite pmul_2. exact H2.
  - change 3%Z with (2 + 1)%Z. rewrite (pmul_add _ _ _ ed_group), pmul_1, pmul_2 by (lia || exact (ed_rep_on _ _ H)). exact H3.
Qed.
Theorem ed_scalar_mul_ok : forall P Q s, ed_rep P Q -> is_scalar s -> okp (ed_scalar_mul B P s) (fun R => ed_rep R (sval s • Q)).
Proof.
  intros P Q s H Hs. pose proof (ed_rep_on _ _ H) as HQ. pose proof (scalar_range s Hs) as Rg. unfold ed_scalar_mul.
  eapply okp_bind; [apply ed_to_twisted_ok; exact H|]. intros tw Htw. destruct (scalar_div_by_four_ok s Hs) as [Hd Vd].
  eapply okp_bind; [exact (variable_base_ok B L _ _ _ Htw Hd)|]. intros v Hv.
  eapply okp_bind; [apply tw_to_untwisted_ok; exact Hv|]. intros u Hu.
  eapply okp_bind; [apply ed_mod_four_ok; eassumption|]. intros r Hr.
  assert (D0 : (0 <= sval s / 4)%Z) by (apply Z.div_pos; lia). pose proof (Z.mod_pos_bound (sval s) 4 ltac:(lia)) as M0.
  assert (E : phihat (pmul tw_a tw_d (sval (scalar_div_by_four s)) (phi Q)) = (4 * (sval s / 4)) • Q).
  { rewrite Vd. rewrite <- phi_mul by assumption. rewrite phihat_phi by (apply (pmul_S _ _ _ ed_group); exact HQ).
    rewrite (pmul_mul _ _ _ ed_group) by (lia || exact HQ). reflexivity. }
  cbv beta in Hu, Hr. rewrite E in Hu. pose proof (ed_add_ok _ _ _ _ Hu Hr) as K. rewrite <- (pmul_add _ _ _ ed_group) in K by (lia || exact HQ).
  rewrite <- Z.div_mod in K by lia. exact K.
Qed.

(** The Montgomery u-coordinate y^2/x^2 (0 when x = 0). *)
Lemma ed_to_montgomery_ok : forall P Q, ed_rep P Q ->
  ed_to_montgomery B P = Ok (le_bytes 56 (fval (snd Q * snd Q * finv (fst Q * fst Q)))).
Proof.
  intros P Q H. assert (K : okp (ed_to_montgomery B P) (fun b => b = le_bytes 56 (fval (snd Q * snd Q * finv (fst Q * fst Q))))).
  { unfold ed_to_montgomery. eapply okp_bind; [apply ed_to_affine_ok; exact H|]. intros A [[Tx Vx] [Ty Vy]]. fsteps.
    rewrite (l_to B L) by assumption. eexists. split; [reflexivity|]. apply (f_equal (fun z => le_bytes 56 (fval z))).
    fvals. fconsts. pose proof (ed_rep_on _ _ H) as HQ. clear - HQ. destruct Q as [x y]. cbn [fst snd].
    pose proof (ed_den_nz y) as N. apply on_ed_solved in HQ.
    assert (E : 1 - y * y = x * x * (1 - ed_d * (y * y))) by (rewrite HQ; field; exact N). rewrite E.
    destruct (F_eq_dec x 0) as [->|Nx].
    - assert (Z0 : 0 * 0 * (1 - ed_d * (y * y)) = (0 : F)) by ring. assert (Z1 : 0 * 0 = (0 : F)) by ring. rewrite Z0, Z1, finv_0. ring.
    - field. split; assumption. }
  destruct K as (b & -> & ->). reflexivity.
Qed.

Lemma ed_is_on_curve_ok : forall P, (tight (edX P) /\ tight (edY P) /\ tight (edZ P) /\ tight (edT P)) -> fv (edZ P) <> 0 ->
  okp (ed_is_on_curve B P) (fun b => b = true <-> ed_valid B P).
Proof.
  intros P (TX & TY & TZ & TT) NZ. unfold ed_is_on_curve. fsteps. unfold ed_valid, ed_affine.
  pose proof (on_ed_proj (fv (edX P)) (fv (edY P)) (fv (edT P)) (fv (edZ P)) NZ) as K.
  fvals. fconsts. destruct (feqb (fv (edX P) * fv (edY P)) (fv (edZ P) * fv (edT P))) eqn:E1.
  - apply feqb_eq in E1. rewrite (ct_eq_ok B L) by assumption. eexists. split; [reflexivity|].
    fvals. fconsts. rewrite feqb_eq. assert (HT : fv (edT P) * fv (edZ P) = fv (edX P) * fv (edY P)) by (rewrite E1; ring).
    rewrite (K HT). tauto.
  - eexists. split; [reflexivity|]. split; [discriminate|]. intros (_ & _ & HT & _). exfalso.
    assert (E2 : fv (edX P) * fv (edY P) = fv (edZ P) * fv (edT P)) by (rewrite <- HT; ring). apply feqb_eq in E2. congruence.
Qed.
End Edwards.
