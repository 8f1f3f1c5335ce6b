(** What traced runs do: the ways they take, what they return, and that nothing else depends on secrets. *)
Require Import ZArith List Bool Lia.
From Verif Require Import Base BaseProofs SpecParams SpecField SpecEncoding SpecDecaf FieldTheory FieldBackend FieldU32Model Backends BackendLaws ScalarModel TwistedModel ScalarMulModel
  EdwardsModel MontgomeryModel DecafModel ApiExpr FieldMain ScalarProofs ScalarMain EdwardsProofs DecafProofs DecafFacts DecafMain
  EdwardsExpr ApiRun Steps StepU32 StepScalar StepCurve StepPlain StepRelWords StepRelCurve TraceSpec TraceLogic TraceLogicWords.
Import ListNotations.
Open Scope Z_scope.

Lemma follows_eq : forall E A A' (R : A -> A' -> Prop) d d' (x : run (tracing E) A) y, follows d R x y -> d = d' -> follows d' R x y.
Proof. intros E A A' R d d' x y H <-. exact H. Qed.
Lemma canonical_eqb : forall b, bytes 56 b -> list_eqb (le_bytes 56 (le_val b mod p)) b = negb (p <=? le_val b).
Proof.
  intros b Hb. pose proof (le_val_nonneg b Hb) as P0. destruct (Z.leb_spec p (le_val b)) as [G|G]; cbn [negb].
  - destruct (list_eqb _ b) eqn:E; [|reflexivity]. apply list_eqb_eq in E. apply (f_equal le_val) in E. pose proof (Z.mod_pos_bound (le_val b) p ltac:(unfold p; lia)) as M.
    rewrite le_val_le_bytes in E by (unfold p in *; lia). lia.
  - apply list_eqb_eq. rewrite Z.mod_small by lia. exact (array_digits_eval 8 56 b ltac:(lia) Hb).
Qed.

(** ** The ways taken by programs *)
Section Follow.
Variable E : Type.
Variable B : backend.
Variable S : shipped B.
Let L := shipped_laws B S.
Variable O : backend.
Variable K : machine (tracing E) O.
Variable Rf : fe O -> fe B -> Prop.
Variable Rdig : digit K -> Z -> Prop.
Variable C : mcompat _ _ (quiet E) O B K (plain_machine B) Rf Rdig.
Variable HB : forall c, m_branch K c = goes c.
Variable HC : forall b, bytes 57 b -> follows (scalar_branches b) (Ropt eq) (m_sc_canonical K b) (scalar_from_canonical_bytes b).
Local Notation pq f := (f _ _ (quiet E) O B K (plain_machine B) Rf Rdig C).
Lemma f_branch : forall c, follows [c] eq (m_branch K c) (Ok c).
Proof. intro c. rewrite HB. apply f_goes. reflexivity. Qed.
Lemma bytes_Rby : forall n b, bytes n b -> Rby _ _ (quiet E) n b b.
Proof. intros n b (H & _). split; [reflexivity|split; exact H]. Qed.
Lemma f_ed_decompress : forall b, bytes 57 b -> follows (edwards_branches B b) (Ropt (Red O B Rf)) (ed_decompressS (tracing E) O K b) (ed_decompress B b).
Proof.
  intros b Hb. destruct (api_no_panic B S _ (AEdDecompress b) Hb) as (o & Eo). cbn [api_run] in Eo. unfold edwards_branches. rewrite <- e_ed_decompress in *. 
  eapply follows_eq.
  - unfold ed_decompressS. apply (f_bind [] (fun q => [negb (snd (snd q))] ++ []) _ (Ropt (Red O B Rf)) _ _ _ _ (pq p_ed_pre b b (bytes_Rby 57 b Hb))).
    intros (y & x & r) (y' & x' & r') (Hy & Hx & Hr) Ep. cbn [fst snd] in *. change (r = r') in Hr. subst r'.
    apply (f_bind [negb r] (fun _ => []) eq (Ropt (Red O B Rf)) _ _ _ _ (f_branch (negb r))). intros c ? <- _. destruct c; [split; [reflexivity|exact I]|].
    apply (l_bind (quiet E) (Red O B Rf)); [apply (pq p_ed_post); [exact (bytes_Rby 57 b Hb)|exact Hb|exact Hb|exact Hy|exact Hx]|]. intros P P' HP. split; [reflexivity|exact HP].
  - revert Eo. unfold ed_decompressS. cbn [andthen panics]. destruct (ed_preS panics B (plain_machine B) b) as [(y & x & r)|]; [|intro Eo; discriminate Eo]. cbn [bind fst snd app m_branch plain_machine].
    destruct r; cbn [negb]; [|reflexivity]. destruct (ed_postS panics B (plain_machine B) b y x); [reflexivity|intro Eo; discriminate Eo].
Qed.
Lemma f_dc_decompress : forall b, bytes 56 b -> follows (decaf_branches B b) (Ropt (Rtw O B Rf)) (dc_decompressS (tracing E) O K b) (dc_decompress B b).
Proof.
  intros b Hb. destruct (api_no_panic B S _ (ADcDecompress b) Hb) as (o & Eo). cbn [api_run] in Eo. unfold decaf_branches, dc_verdict. rewrite <- e_dc_decompress in *.
  destruct (l_from B L b Hb) as (s & Es & Ts & Vs). pose proof (l_to B L s Ts) as Et. pose proof (l_isneg B L s Ts) as En. rewrite Vs in Et, En. unfold fodd in En. rewrite fval_of_Z in *.
  assert (Ep : dc_preS panics B (plain_machine B) b = Ok (s, negb (p <=? le_val b))).
  { unfold dc_preS. cbn [andthen panics ret]. change (m_from_bytes (plain_machine B)) with (fe_from_bytes B). rewrite Es. cbn [bind].
    change (m_to_bytes (plain_machine B)) with (fe_to_bytes B). rewrite Et. cbn [bind m_bytes_eq plain_machine]. change (m_is_negative (plain_machine B)) with (fe_is_negative B). rewrite En. cbn [bind].
    rewrite canonical_eqb by exact Hb. reflexivity. }
  unfold dc_decompressS in *. cbn [andthen panics] in Eo |- *. rewrite Ep in *. cbn [bind] in *.
  pose proof (pq p_dc_pre b b (bytes_Rby 56 b Hb) Hb Hb) as Fp. rewrite Ep in Fp.
  match goal with |- follows ?d _ (andthen _ ?f) _ => apply (f_bind [] (fun q => d) _ (Ropt (Rtw O B Rf)) _ _ f (fun q => _) Fp) end.
  intros (z & c) (z' & c') (Hz & Hc) Eq. cbn [fst snd] in *. change (c = c') in Hc. subst c'. injection Eq as <- <-. rewrite negb_involutive in *.
  cbn [m_branch plain_machine andthen panics bind] in *.
  destruct (Z.leb_spec p (le_val b)) as [G|G].
  { apply (f_bind [true] (fun _ => []) eq (Ropt (Rtw O B Rf)) _ _ _ (fun _ => Ok None) (f_branch true)). intros ? ? -> Ec. injection Ec as <-. split; [reflexivity|exact I]. }
  change (m_is_negative (plain_machine B)) with (fe_is_negative B) in *. rewrite En in *. rewrite Z.mod_small in * by (split; [exact (le_val_nonneg b Hb)|exact G]). cbn [bind] in *.
  pose proof (c_isneg _ _ _ _ _ _ _ _ _ C z s Hz) as Fn. change (m_is_negative (plain_machine B)) with (fe_is_negative B) in Fn. rewrite En in Fn.
  assert (FN : follows [Z.odd (le_val b)] eq (andthen (m_is_negative K z) (fun n => m_branch K n)) (Ok (Z.odd (le_val b)))).
  { apply (f_bind [] (fun n => [n]) eq eq _ _ _ (fun n => Ok n) Fn). intros n ? -> _. apply f_branch. }
  destruct (Z.odd (le_val b)) eqn:Od.
  { apply (f_bind [false] (fun _ => [true] ++ []) eq (Ropt (Rtw O B Rf)) _ _ _ (fun _ => Ok None) (f_branch false)). intros c ? -> Ec. injection Ec as <-. cbn [negb].
    apply (f_bind [true] (fun _ => []) eq (Ropt (Rtw O B Rf)) _ _ _ (fun _ => Ok None) FN). intros ? ? -> Ec. injection Ec as <-. split; [reflexivity|exact I]. }
  pose proof (pq p_dc_mid z s Hz) as Fm. destruct (dc_midS panics B (plain_machine B) s) as [((u1 & u2 & v) & i & k)|]; [|discriminate Eo]. cbn [bind] in *.
  apply (fun h => follows_eq _ _ _ _ ([false] ++ [false] ++ [] ++ [negb k] ++ []) _ _ _ h).
  - match goal with |- follows _ _ (andthen _ ?f) ?y => apply (f_bind [false] (fun _ => [false] ++ [] ++ [negb k] ++ []) eq (Ropt (Rtw O B Rf)) _ (Ok false) f (fun _ => y) (f_branch false)) end.
    intros c ? -> Ec. injection Ec as <-.
    match goal with |- follows _ _ (andthen _ ?f) ?y => apply (f_bind [false] (fun _ => [] ++ [negb k] ++ []) eq (Ropt (Rtw O B Rf)) _ (Ok false) f (fun _ => y) FN) end.
    intros c ? -> Ec. injection Ec as <-.
    match goal with |- follows _ _ (andthen _ ?f) ?y => apply (f_bind [] (fun _ => [negb k] ++ []) _ (Ropt (Rtw O B Rf)) _ _ f (fun _ => y) Fm) end.
    intros ((w1 & w2 & w) & j & l) q ((H1 & H2 & H3) & H4 & H5) Eq. injection Eq as <-. cbn [fst snd] in *. change (l = k) in H5. subst l.
    match goal with |- follows _ _ (andthen _ ?f) ?y => apply (f_bind [negb k] (fun _ => []) eq (Ropt (Rtw O B Rf)) _ (Ok (negb k)) f (fun _ => y) (f_branch (negb k))) end.
    intros c ? -> Ec. injection Ec as <-. destruct k; cbn [negb] in *; [|split; [reflexivity|exact I]].
    apply (l_bind (quiet E) (Rtw O B Rf)); [apply (pq p_dc_post); assumption|]. intros P P' HP. split; [reflexivity|exact HP].
  - destruct k; cbn [negb app] in *; [|reflexivity]. destruct (dc_postS panics B (plain_machine B) s u1 u2 v i); [reflexivity|discriminate Eo].
Qed.

Local Notation RV := (Rval _ _ (quiet E) O B Rf).
Local Notation run1 e := (api_runS (tracing E) O K e).
Local Notation run2 e := (api_runS panics B (plain_machine B) e).
Lemma after_nil : forall A (r : res (option A)), after r (fun _ => []) = [].
Proof. intros A [[a|]|]; reflexivity. Qed.
Lemma f_obind0 : forall A A' D D' d (R : A -> A' -> Prop) (T : D -> D' -> Prop) m m' f f', follows d (Ropt R) m m' ->
  (forall a a', R a a' -> rl (quiet E) (Ropt T) (f a) (f' a')) -> follows d (Ropt T) (obindS (tracing E) m f) (obindS panics m' f').
Proof.
  intros A A' D D' d R T m m' f f' H G. eapply follows_eq; [exact (f_obind d (fun _ => []) R T m m' f f' H (fun a a' Ra _ => G a a' Ra))|]. rewrite after_nil. apply app_nil_r.
Qed.
Lemma f_obind2 : forall A A' D D' (d : list bool) (d2 : A' -> list bool) (R : A -> A' -> Prop) (T : D -> D' -> Prop) m m' f f', follows d (Ropt R) m m' ->
  (forall a a', R a a' -> m' = Ok (Some a') -> follows (d2 a') (Ropt T) (f a) (f' a')) -> follows (d ++ after m' d2) (Ropt T) (obindS (tracing E) m f) (obindS panics m' f').
Proof. intros A A' D D' d d2 R T m m' f f' H G. exact (f_obind d d2 R T m m' f f' H G). Qed.
Lemma q_osome : forall A A' (R : A -> A' -> Prop) m m', rl (quiet E) R m m' -> rl (quiet E) (Ropt R) (osomeS (tracing E) m) (osomeS panics m').
Proof. intros. apply (p_osome _ _ (quiet E)). assumption. Qed.
Ltac data := first [assumption | reflexivity | solve [apply bytes_Rby; assumption] | solve [match goal with H : is_scalar ?s |- _ => exact (conj eq_refl (conj (proj1 H) (proj1 H))) end]].
Ltac ret_done := apply (l_ret (quiet E)); cbn [Ropt Rval];
  first [assumption | reflexivity | apply (pq p_ed_identity) | apply (pq p_ed_generator) | apply (pq p_eda_identity) | apply (pq p_tw_identity) | apply (pq p_tw_generator)
    | apply (pq p_xt_identity) | apply (pq p_pm_identity) | apply (pq p_tw_to_extensible); assumption | constructor; assumption | constructor].
Ltac call := lazymatch goal with |- rl _ _ ?m _ => lazymatch m with
  | dc_addS _ _ _ _ _ => apply (pq p_dc_add)
  | dc_compressS _ _ _ _ => apply (pq p_dc_compress)
  | dc_equalsS _ _ _ _ _ => apply (pq p_dc_equals)
  | dc_mulS _ _ _ _ _ => apply (pq p_double_and_add)
  | dc_negS _ _ _ _ => apply (pq p_tw_negate)
  | dc_subS _ _ _ _ _ => apply (pq p_dc_sub)
  | ed_addS _ _ _ _ _ => apply (pq p_ed_add)
  | ed_compressS _ _ _ _ => apply (pq p_ed_compress)
  | ed_ct_eqS _ _ _ _ _ => apply (pq p_ed_ct_eq)
  | ed_doubleS _ _ _ _ => apply (pq p_ed_double)
  | ed_is_torsion_freeS _ _ _ _ => apply (pq p_torsion_free)
  | ed_negateS _ _ _ _ => apply (pq p_ed_negate)
  | ed_scalar_mod_fourS _ _ _ _ _ => apply (pq p_ed_mod_four)
  | ed_scalar_mulS _ _ _ _ _ => apply (pq p_ed_scalar_mul)
  | ed_selectS _ _ _ _ _ _ => apply (pq p_ed_select)
  | ed_subS _ _ _ _ _ => apply (pq p_ed_sub)
  | ed_sumS _ _ _ _ => apply (pq p_ed_sum)
  | ed_to_affineS _ _ _ _ => apply (pq p_ed_to_affine)
  | ed_to_montgomeryS _ _ _ _ => apply (pq p_ed_to_montgomery)
  | ed_to_twistedS _ _ _ _ => apply (pq p_ed_to_twisted)
  | ed_torqueS _ _ _ _ => apply (pq p_ed_torque)
  | eda_to_extendedS _ _ _ _ => apply (pq p_eda_to_extended)
  | mp_mulS _ _ _ _ _ => apply (pq p_mp_mul)
  | mp_to_projectiveS _ _ _ _ => apply (pq p_mp_to_projective)
  | pm_selectS _ _ _ _ _ _ => apply (pq p_pm_select)
  | pm_to_affineS _ _ _ _ => apply (pq p_pm_to_affine)
  | pn_cond_negateS _ _ _ _ _ => apply (pq p_pn_cond_negate)
  | pn_eqS _ _ _ _ _ => apply (pq p_pn_eq)
  | pn_identityS _ _ _ => apply (pq p_pn_identity)
  | pn_selectS _ _ _ _ _ _ => apply (pq p_pn_select)
  | pn_to_extendedS _ _ _ _ => apply (pq p_pn_to_extended)
  | rs_equalsS _ _ _ _ _ => apply (pq p_rs_equals)
  | tw_ct_eqS _ _ _ _ _ => apply (pq p_tw_ct_eq)
  | tw_negateS _ _ _ _ => apply (pq p_tw_negate)
  | tw_selectS _ _ _ _ _ _ => apply (pq p_tw_select)
  | tw_to_untwistedS _ _ _ _ => apply (pq p_tw_to_untwisted)
  | tw_torqueS _ _ _ _ => apply (pq p_tw_torque)
  | xt_add_extendedS _ _ _ _ _ => apply (pq p_xt_add_extended)
  | xt_add_extensibleS _ _ _ _ _ => apply (pq p_xt_add_xt)
  | xt_add_projective_nielsS _ _ _ _ _ => apply (pq p_xt_add_pn)
  | xt_ct_eqS _ _ _ _ _ => apply (pq p_xt_ct_eq)
  | xt_doubleS _ _ _ _ => apply (pq p_xt_double)
  | xt_sub_extendedS _ _ _ _ _ => apply (pq p_xt_sub_extended)
  | xt_to_extendedS _ _ _ _ => apply (pq p_xt_to_extended)
  | xt_to_projective_nielsS _ _ _ _ => apply (pq p_xt_to_pn)
  | m_sc_add _ _ _ => apply (c_sc_add _ _ _ _ _ _ _ _ _ C)
  | m_sc_sub _ _ _ => apply (c_sc_sub _ _ _ _ _ _ _ _ _ C)
  | m_sc_mul _ _ _ => apply (c_sc_mul _ _ _ _ _ _ _ _ _ C)
  | m_sc_invert _ _ => apply (c_sc_invert _ _ _ _ _ _ _ _ _ C)
  | m_sc_halve _ _ => apply (c_sc_halve _ _ _ _ _ _ _ _ _ C)
  | m_sc_wide _ _ => apply (c_sc_wide _ _ _ _ _ _ _ _ _ C)
  end end.
Lemma f_api : forall s (e : api s), api_ok e -> follows (decisions B e) (Ropt (RV s)) (run1 e) (run2 e).
Proof.
  induction e; cbn [api_ok]; intro Hok; repeat match goal with H : _ /\ _ |- _ => destruct H end;
    repeat match goal with IH : api_ok ?e -> _, H : api_ok ?e |- _ => specialize (IH H) end; cbn [decisions api_runS].
  all: try solve [ret_done].
  all: lazymatch goal with |- follows (_ ++ after (api_run B ?x) _) _ _ _ => rewrite <- (e_api_run B _ x) | _ => idtac end.
  all: lazymatch goal with H : forall v : dval _, _ |- _ => idtac
    | |- follows (_ ++ _) _ _ _ => eapply (fun d2 R => f_obind2 _ _ _ _ _ (fun _ => d2) R); [eassumption|intros ? ? ? _] | _ => idtac end.
  all: lazymatch goal with H : forall v : dval _, _ |- _ => idtac | |- follows _ _ (obindS _ _ _) _ => eapply f_obind0; [eassumption|intros ? ? ?] | _ => idtac end; cbn [Rval] in *.
  all: try solve [ret_done].
  all: try (apply q_osome; call; data).
  - apply (f_obind2 _ _ _ _ _ (fun v => decisions B (k v)) (@eq (dval d))); [exact IHe|]. intros v ? <- Ev. apply H, H1. rewrite e_api_run in Ev. exact (api_typed B S d e H0 v Ev).
  - eapply follows_eq; [apply (f_bind (decisions B e) (fun _ => []) _ (Ropt (@eq bool)) _ _ _ _ IHe)|].
    + intros [v|] [v'|] Hv _; cbn [Ropt] in Hv; try contradiction; split; reflexivity.
    + destruct (run2 e); apply app_nil_r.
  - apply HC. exact Hok.
  - rewrite e_ed_decompress. apply f_ed_decompress. exact Hok.
  - rewrite e_dc_decompress. apply f_dc_decompress. exact Hok.
Qed.
End Follow.
