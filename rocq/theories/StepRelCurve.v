(** Running the code of StepCurve.v on two machines that preserve a relation: one lemma per function, and the interpreter of
    API programs.  Used as StepRelWords.v is. *)
Require Import ZArith List Bool Lia.
From Verif Require Import Base FieldBackend ScalarModel TwistedModel ScalarMulModel EdwardsModel MontgomeryModel DecafModel ApiExpr Steps StepCurve StepRelWords.
Import ListNotations.
Open Scope Z_scope.

Section CurveRel.
Variables M1 M2 : steps.
Variable L : logic M1 M2.
Variables B1 B2 : backend.
Variable K1 : machine M1 B1.
Variable K2 : machine M2 B2.
Variable Rf : fe B1 -> fe B2 -> Prop.
Variable Rdig : digit K1 -> digit K2 -> Prop.
Notation rel R m m' := (rl L R m m').
(** Byte strings of length n, scalars. *)
Definition Rby (n : nat) (b b' : list Z) : Prop := Sec L b b' /\ length b = n /\ length b' = n.
Notation Rsc := (Rby 14).
Record mcompat : Prop := {
  c_zero : Rf (fe_zero B1) (fe_zero B2);
  c_one : Rf (fe_one B1) (fe_one B2);
  c_minus_one : Rf (fe_minus_one B1) (fe_minus_one B2);
  c_neg4d : Rf (NEG_FOUR_TIMES_TWISTED_D B1) (NEG_FOUR_TIMES_TWISTED_D B2);
  c_d : Rf (EDWARDS_D B1) (EDWARDS_D B2);
  c_negd : Rf (NEG_EDWARDS_D B1) (NEG_EDWARDS_D B2);
  c_twd : Rf (TWISTED_D B1) (TWISTED_D B2);
  c_2twd : Rf (TWO_TIMES_TWISTED_D B1) (TWO_TIMES_TWISTED_D B2);
  c_factor : Rf (DECAF_FACTOR B1) (DECAF_FACTOR B2);
  c_a24 : Rf (A_PLUS_TWO_OVER_FOUR B1) (A_PLUS_TWO_OVER_FOUR B2);
  c_bx : Rf (BASE_X B1) (BASE_X B2); c_by : Rf (BASE_Y B1) (BASE_Y B2);
  c_bz : Rf (BASE_Z B1) (BASE_Z B2); c_bt : Rf (BASE_T B1) (BASE_T B2);
  c_tx : Rf (TWBASE_X B1) (TWBASE_X B2); c_ty : Rf (TWBASE_Y B1) (TWBASE_Y B2);
  c_tz : Rf (TWBASE_Z B1) (TWBASE_Z B2); c_tt : Rf (TWBASE_T B1) (TWBASE_T B2);
  c_add : forall a a' b b', Rf a a' -> Rf b b' -> rel Rf (m_add K1 a b) (m_add K2 a' b');
  c_sub : forall a a' b b', Rf a a' -> Rf b b' -> rel Rf (m_sub K1 a b) (m_sub K2 a' b');
  c_mul : forall a a' b b', Rf a a' -> Rf b b' -> rel Rf (m_mul K1 a b) (m_mul K2 a' b');
  c_square : forall a a', Rf a a' -> rel Rf (m_square K1 a) (m_square K2 a');
  c_negate : forall a a', Rf a a' -> rel Rf (m_negate K1 a) (m_negate K2 a');
  c_strong : forall a a', Rf a a' -> rel Rf (m_strong_reduce K1 a) (m_strong_reduce K2 a');
  c_select : forall a a' b b' c c', Rf a a' -> Rf b b' -> Sec L c c' -> rel Rf (m_select K1 a b c) (m_select K2 a' b' c');
  c_cneg : forall a a' c c', Rf a a' -> Sec L c c' -> rel Rf (m_cond_negate K1 a c) (m_cond_negate K2 a' c');
  c_isneg : forall a a', Rf a a' -> rel (Sec L) (m_is_negative K1 a) (m_is_negative K2 a');
  c_from : forall b b', Rby 56 b b' -> rel Rf (m_from_bytes K1 b) (m_from_bytes K2 b');
  c_to : forall a a', Rf a a' -> rel (Sec L) (m_to_bytes K1 a) (m_to_bytes K2 a');
  c_sign : forall b b', Rby 57 b b' -> bytes 57 b -> bytes 57 b' -> rel (Sec L) (m_sign K1 b) (m_sign K2 b');
  c_sign_byte : forall c c', Sec L c c' -> rel (Sec L) (m_sign_byte K1 c) (m_sign_byte K2 c');
  c_sc_add : forall s s' t t', Rsc s s' -> Rsc t t' -> rel (Sec L) (m_sc_add K1 s t) (m_sc_add K2 s' t');
  c_sc_sub : forall s s' t t', Rsc s s' -> Rsc t t' -> rel (Sec L) (m_sc_sub K1 s t) (m_sc_sub K2 s' t');
  c_sc_mul : forall s s' t t', Rsc s s' -> Rsc t t' -> rel (Sec L) (m_sc_mul K1 s t) (m_sc_mul K2 s' t');
  c_sc_invert : forall s s', Rsc s s' -> rel (Sec L) (m_sc_invert K1 s) (m_sc_invert K2 s');
  c_sc_halve : forall s s', Rsc s s' -> rel (Sec L) (m_sc_halve K1 s) (m_sc_halve K2 s');
  c_sc_wide : forall b b', Rby 114 b b' -> rel (Sec L) (m_sc_wide K1 b) (m_sc_wide K2 b');
  c_div4 : forall s s', Rsc s s' -> rel Rsc (m_div4 K1 s) (m_div4 K2 s');
  c_bits : forall s s', Rsc s s' -> rel (Forall2 (Sec L)) (m_bits K1 s) (m_bits K2 s');
  c_radix16 : forall s s', Rsc s s' -> rel (Forall2 Rdig) (m_radix16 K1 s) (m_radix16 K2 s');
  c_mod_four : forall s s', Rsc s s' -> rel Rdig (m_mod_four K1 s) (m_mod_four K2 s');
  c_digit_abs : forall d d', Rdig d d' -> rel (Rprod Rdig Rdig) (m_digit_abs K1 d) (m_digit_abs K2 d');
  c_digit_choice : forall d d', Rdig d d' -> (exists x a, gives1 L (m_digit_abs K1 x) (a, d)) -> rel (Sec L) (m_digit_choice K1 d) (m_digit_choice K2 d');
  c_digit_ct_eq : forall d d' n, Rdig d d' -> 0 <= n < 2 ^ 32 -> (exists x s, gives1 L (m_digit_abs K1 x) (d, s)) -> rel (Sec L) (m_digit_ct_eq K1 d n) (m_digit_ct_eq K2 d' n);
  c_digit_eq : forall d d' n, Rdig d d' -> rel (Sec L) (m_digit_eq K1 d n) (m_digit_eq K2 d' n);
  c_ct_eq : forall a a' b b', Rf a a' -> Rf b b' -> rel (Sec L) (fe_ct_eqS M1 B1 K1 a b) (fe_ct_eqS M2 B2 K2 a' b');
  c_canonical : forall a a' b b', Rf a a' -> Rby 56 b b' -> bytes 56 b -> bytes 56 b' ->
    rel (Sec L) (andthen (m_to_bytes K1 a) (fun x => m_bytes_eq K1 x b)) (andthen (m_to_bytes K2 a') (fun x => m_bytes_eq K2 x b'))
}.
Variable C : mcompat.

(** Points: coordinate by coordinate. *)
Definition Red (P : EdPoint B1) (Q : EdPoint B2) : Prop := Rf (edX P) (edX Q) /\ Rf (edY P) (edY Q) /\ Rf (edZ P) (edZ Q) /\ Rf (edT P) (edT Q).
Definition Reda (P : EdAffine B1) (Q : EdAffine B2) : Prop := Rf (edAx P) (edAx Q) /\ Rf (edAy P) (edAy Q).
Definition Rtw (P : TwPoint B1) (Q : TwPoint B2) : Prop := Rf (twX P) (twX Q) /\ Rf (twY P) (twY Q) /\ Rf (twZ P) (twZ Q) /\ Rf (twT P) (twT Q).
Definition Rtwa (P : TwAffine B1) (Q : TwAffine B2) : Prop := Rf (twAx P) (twAx Q) /\ Rf (twAy P) (twAy Q).
Definition Rxt (P : XtPoint B1) (Q : XtPoint B2) : Prop :=
  Rf (xtX P) (xtX Q) /\ Rf (xtY P) (xtY Q) /\ Rf (xtZ P) (xtZ Q) /\ Rf (xtT1 P) (xtT1 Q) /\ Rf (xtT2 P) (xtT2 Q).
Definition Rpn (P : PNiels B1) (Q : PNiels B2) : Prop := Rf (pnYpX P) (pnYpX Q) /\ Rf (pnYmX P) (pnYmX Q) /\ Rf (pnTd P) (pnTd Q) /\ Rf (pnZ P) (pnZ Q).
Definition Rpm (P : PMPoint B1) (Q : PMPoint B2) : Prop := Rf (pmU P) (pmU Q) /\ Rf (pmW P) (pmW Q).

Hint Resolve c_zero c_one c_minus_one c_neg4d c_d c_negd c_twd c_2twd c_factor c_a24 c_bx c_by c_bz c_bt c_tx c_ty c_tz c_tt
  c_add c_sub c_mul c_square c_negate c_strong c_select c_cneg c_isneg c_from c_to c_sign c_sign_byte c_div4 c_bits c_radix16 c_mod_four
  c_digit_abs c_digit_eq c_canonical : rel.
Hint Resolve C : rel.
Ltac rets := apply (l_ret L); unfold Red, Reda, Rtw, Rtwa, Rxt, Rpn, Rpm, Rprod in *; cbn [edX edY edZ edT edAx edAy twX twY twZ twT twAx twAy
  xtX xtY xtZ xtT1 xtT2 pnYpX pnYmX pnTd pnZ pmU pmW fst snd] in *; intuition eauto 3 with rel.
Ltac parts := repeat match goal with
  | H : Red _ _ |- _ => destruct H as (? & ? & ? & ?)
  | H : Reda _ _ |- _ => destruct H as (? & ?)
  | H : Rtw _ _ |- _ => destruct H as (? & ? & ? & ?)
  | H : Rtwa _ _ |- _ => destruct H as (? & ?)
  | H : Rxt _ _ |- _ => destruct H as (? & ? & ? & ? & ?)
  | H : Rpn _ _ |- _ => destruct H as (? & ? & ? & ?)
  | H : Rpm _ _ |- _ => destruct H as (? & ?)
  end.
Ltac rb := eapply (l_bind L); [solve [eauto 4 with rel]|intros ? ? ?; cbv beta].
Ltac rp := match goal with H : Rprod _ _ ?p ?q |- _ => destruct p, q, H as (? & ?); cbn [fst snd] in * end.
Ltac rgo := repeat first [rp | rb]; try solve [eauto 4 with rel]; try solve [rets].

(** ** field/mod.rs *)
Lemma p_ct_eq : forall a a' b b', Rf a a' -> Rf b b' -> rel (Sec L) (fe_ct_eqS M1 B1 K1 a b) (fe_ct_eqS M2 B2 K2 a' b').
Proof.
  exact (c_ct_eq C).
Qed.
Lemma p_square_loop : forall n a a', Rf a a' -> rel Rf (square_loopS M1 B1 K1 n a) (square_loopS M2 B2 K2 n a').
Proof. induction n as [|n IH]; intros a a' H; cbn [square_loopS]; [apply (l_ret L); exact H|]. rb. apply IH. assumption. Qed.
Lemma p_square_n : forall n a a', Rf a a' -> rel Rf (square_nS M1 B1 K1 a n) (square_nS M2 B2 K2 a' n).
Proof. intros n a a' H. unfold square_nS. rb. destruct n; [apply (l_fail L)|]. apply p_square_loop. assumption. Qed.
Hint Resolve p_ct_eq p_square_n : rel.
Local Opaque square_nS fe_ct_eqS.
Lemma p_invert : forall a a', Rf a a' -> rel Rf (fe_invertS M1 B1 K1 a) (fe_invertS M2 B2 K2 a').
Proof. intros a a' H. unfold fe_invertS. cbv zeta. rgo. Qed.
Lemma p_isr : forall a a', Rf a a' -> rel (Rprod Rf (Sec L)) (fe_inverse_square_rootS M1 B1 K1 a) (fe_inverse_square_rootS M2 B2 K2 a').
Proof. intros a a' H. unfold fe_inverse_square_rootS. rgo. Qed.
Hint Resolve p_invert p_isr : rel.
Local Opaque fe_invertS fe_inverse_square_rootS.
Lemma p_sqrt_ratio : forall a a' b b', Rf a a' -> Rf b b' -> rel (Rprod Rf (Sec L)) (fe_sqrt_ratioS M1 B1 K1 a b) (fe_sqrt_ratioS M2 B2 K2 a' b').
Proof.
  intros a a' b b' H K. unfold fe_sqrt_ratioS. rb. rb. rp. rb. rb. apply (l_ret L). split; [assumption|]. cbn [snd]. apply (s_map2 L); assumption.
Qed.
Hint Resolve p_sqrt_ratio : rel.
Local Opaque fe_sqrt_ratioS.

(** ** twedwards *)
Lemma p_cond_swap : forall a a' b b' c c', Rf a a' -> Rf b b' -> Sec L c c' -> rel (Rprod Rf Rf) (fe_cond_swapS M1 B1 K1 a b c) (fe_cond_swapS M2 B2 K2 a' b' c').
Proof. intros. unfold fe_cond_swapS. rgo. Qed.
Lemma p_xt_identity : Rxt (xt_identity B1) (xt_identity B2).
Proof. unfold Rxt, xt_identity; cbn; intuition eauto 3 with rel. Qed.
Lemma p_xt_double : forall P P', Rxt P P' -> rel Rxt (xt_doubleS M1 B1 K1 P) (xt_doubleS M2 B2 K2 P').
Proof. intros P P' H. parts. unfold xt_doubleS. rgo. Qed.
Lemma p_xt_add_extended : forall P P' Q Q', Rxt P P' -> Rtw Q Q' -> rel Rxt (xt_add_extendedS M1 B1 K1 P Q) (xt_add_extendedS M2 B2 K2 P' Q').
Proof. intros. parts. unfold xt_add_extendedS. rgo. Qed.
Lemma p_xt_sub_extended : forall P P' Q Q', Rxt P P' -> Rtw Q Q' -> rel Rxt (xt_sub_extendedS M1 B1 K1 P Q) (xt_sub_extendedS M2 B2 K2 P' Q').
Proof. intros. parts. unfold xt_sub_extendedS. rgo. Qed.
Lemma p_xt_add_pn : forall P P' Q Q', Rxt P P' -> Rpn Q Q' -> rel Rxt (xt_add_projective_nielsS M1 B1 K1 P Q) (xt_add_projective_nielsS M2 B2 K2 P' Q').
Proof. intros. parts. unfold xt_add_projective_nielsS. rgo. Qed.
Lemma p_xt_to_extended : forall P P', Rxt P P' -> rel Rtw (xt_to_extendedS M1 B1 K1 P) (xt_to_extendedS M2 B2 K2 P').
Proof. intros. parts. unfold xt_to_extendedS. rgo. Qed.
Hint Resolve p_cond_swap p_xt_identity p_xt_double p_xt_add_extended p_xt_sub_extended p_xt_add_pn p_xt_to_extended : rel.
Local Opaque fe_cond_swapS xt_identity xt_doubleS xt_add_extendedS xt_sub_extendedS xt_add_projective_nielsS xt_to_extendedS.
Lemma p_xt_add_xt : forall P P' Q Q', Rxt P P' -> Rxt Q Q' -> rel Rxt (xt_add_extensibleS M1 B1 K1 P Q) (xt_add_extensibleS M2 B2 K2 P' Q').
Proof. intros. unfold xt_add_extensibleS. rgo. Qed.
Lemma p_xt_to_pn : forall P P', Rxt P P' -> rel Rpn (xt_to_projective_nielsS M1 B1 K1 P) (xt_to_projective_nielsS M2 B2 K2 P').
Proof. intros. parts. unfold xt_to_projective_nielsS. rgo. Qed.
Lemma p_xt_ct_eq : forall P P' Q Q', Rxt P P' -> Rxt Q Q' -> rel (Sec L) (xt_ct_eqS M1 B1 K1 P Q) (xt_ct_eqS M2 B2 K2 P' Q').
Proof. intros. parts. unfold xt_ct_eqS. rgo. apply (l_ret L). apply (s_map2 L); assumption. Qed.
Hint Resolve p_xt_add_xt p_xt_to_pn p_xt_ct_eq : rel.
Local Opaque xt_add_extensibleS xt_to_projective_nielsS xt_ct_eqS.
Lemma p_pn_select : forall P P' Q Q' c c', Rpn P P' -> Rpn Q Q' -> Sec L c c' -> rel Rpn (pn_selectS M1 B1 K1 P Q c) (pn_selectS M2 B2 K2 P' Q' c').
Proof. intros. parts. unfold pn_selectS. rgo. Qed.
Lemma p_pn_cond_negate : forall P P' c c', Rpn P P' -> Sec L c c' -> rel Rpn (pn_cond_negateS M1 B1 K1 P c) (pn_cond_negateS M2 B2 K2 P' c').
Proof. intros. parts. unfold pn_cond_negateS. rgo. Qed.
Lemma p_pn_identity : rel Rpn (pn_identityS M1 B1 K1) (pn_identityS M2 B2 K2).
Proof. unfold pn_identityS. eauto with rel. Qed.
Lemma p_pn_to_extended : forall P P', Rpn P P' -> rel Rtw (pn_to_extendedS M1 B1 K1 P) (pn_to_extendedS M2 B2 K2 P').
Proof. intros. parts. unfold pn_to_extendedS. rgo. Qed.
Lemma p_tw_ct_eq : forall P P' Q Q', Rtw P P' -> Rtw Q Q' -> rel (Sec L) (tw_ct_eqS M1 B1 K1 P Q) (tw_ct_eqS M2 B2 K2 P' Q').
Proof. intros. parts. unfold tw_ct_eqS. rgo. apply (l_ret L). apply (s_map2 L); assumption. Qed.
Hint Resolve p_pn_select p_pn_cond_negate p_pn_identity p_pn_to_extended p_tw_ct_eq : rel.
Local Opaque pn_selectS pn_cond_negateS pn_identityS pn_to_extendedS tw_ct_eqS.
Lemma p_pn_eq : forall P P' Q Q', Rpn P P' -> Rpn Q Q' -> rel (Sec L) (pn_eqS M1 B1 K1 P Q) (pn_eqS M2 B2 K2 P' Q').
Proof. intros. unfold pn_eqS. rgo. Qed.
Lemma p_tw_select : forall P P' Q Q' c c', Rtw P P' -> Rtw Q Q' -> Sec L c c' -> rel Rtw (tw_selectS M1 B1 K1 P Q c) (tw_selectS M2 B2 K2 P' Q' c').
Proof. intros. parts. unfold tw_selectS. rgo. Qed.
Lemma p_tw_identity : Rtw (tw_identity B1) (tw_identity B2). Proof. unfold Rtw, tw_identity; cbn; intuition eauto 3 with rel. Qed.
Lemma p_tw_generator : Rtw (tw_generator B1) (tw_generator B2). Proof. unfold Rtw, tw_generator; cbn; intuition eauto 3 with rel. Qed.
Lemma p_tw_to_extensible : forall P P', Rtw P P' -> Rxt (tw_to_extensible B1 P) (tw_to_extensible B2 P').
Proof. intros. parts. unfold Rxt, tw_to_extensible; cbn; intuition eauto 3 with rel. Qed.
Hint Resolve p_pn_eq p_tw_select p_tw_identity p_tw_generator p_tw_to_extensible : rel.
Local Opaque pn_eqS tw_selectS tw_identity tw_generator tw_to_extensible.
Lemma p_tw_double : forall P P', Rtw P P' -> rel Rtw (tw_doubleS M1 B1 K1 P) (tw_doubleS M2 B2 K2 P').
Proof. intros. unfold tw_doubleS. rgo. Qed.
Lemma p_tw_add : forall P P' Q Q', Rtw P P' -> Rtw Q Q' -> rel Rtw (tw_addS M1 B1 K1 P Q) (tw_addS M2 B2 K2 P' Q').
Proof. intros. unfold tw_addS. rgo. Qed.
Lemma p_tw_to_affine : forall P P', Rtw P P' -> rel Rtwa (tw_to_affineS M1 B1 K1 P) (tw_to_affineS M2 B2 K2 P').
Proof. intros. parts. unfold tw_to_affineS. rgo. Qed.
Lemma p_isogeny : forall a a' x x' y y', Rf a a' -> Rf x x' -> Rf y y' ->
  rel (Rprod (Rprod Rf Rf) Rf) (edwards_isogenyS M1 B1 K1 a x y) (edwards_isogenyS M2 B2 K2 a' x' y').
Proof. intros. unfold edwards_isogenyS. rgo. Qed.
Lemma p_tw_negate : forall P P', Rtw P P' -> rel Rtw (tw_negateS M1 B1 K1 P) (tw_negateS M2 B2 K2 P').
Proof. intros. parts. unfold tw_negateS. rgo. Qed.
Lemma p_tw_torque : forall P P', Rtw P P' -> rel Rtw (tw_torqueS M1 B1 K1 P) (tw_torqueS M2 B2 K2 P').
Proof. intros. parts. unfold tw_torqueS. rgo. Qed.
Hint Resolve p_tw_double p_tw_add p_tw_to_affine p_isogeny p_tw_negate p_tw_torque : rel.
Local Opaque tw_doubleS tw_addS tw_to_affineS edwards_isogenyS tw_negateS tw_torqueS.
Lemma p_tw_to_untwisted : forall P P', Rtw P P' -> rel Red (tw_to_untwistedS M1 B1 K1 P) (tw_to_untwistedS M2 B2 K2 P').
Proof. intros. unfold tw_to_untwistedS. rb. parts. rgo. Qed.
Hint Resolve p_tw_to_untwisted : rel.
Local Opaque tw_to_untwistedS.

(** ** scalar_mul *)
Lemma p_daa_loop : forall P P' bits bits' R R', Rtw P P' -> Forall2 (Sec L) bits bits' -> Rtw R R' ->
  rel Rtw (daa_loopS M1 B1 K1 P bits R) (daa_loopS M2 B2 K2 P' bits' R').
Proof.
  intros P P' bits bits' R R' HP H. revert R R'. induction H as [|c c' bits bits' Hc H IH]; intros R R' HR; cbn [daa_loopS]; [apply (l_ret L); exact HR|].
  rb. rb. rb. apply IH. assumption.
Qed.
Lemma p_table_loop : forall n P P' N N', Rxt P P' -> Rpn N N' -> rel (fun t t' => Forall2 Rpn t t' /\ length t = S n) (table_loopS M1 B1 K1 n P N) (table_loopS M2 B2 K2 n P' N').
Proof.
  induction n as [|n IH]; intros P P' N N' HP HN; cbn [table_loopS].
  - apply (l_ret L). split; [constructor; [exact HN|constructor]|reflexivity].
  - rb. rb. eapply (l_bind L); [apply IH; eassumption|]. intros ? ? (? & E). apply (l_ret L). split; [constructor; assumption|cbn [length]; rewrite E; reflexivity].
Qed.
Lemma p_lookup_from : forall P P', Rtw P P' -> rel (fun t t' => Forall2 Rpn t t' /\ length t = 8%nat) (lookup_fromS M1 B1 K1 P) (lookup_fromS M2 B2 K2 P').
Proof. intros P P' H. unfold lookup_fromS. cbv zeta. rb. apply p_table_loop; [eauto with rel|assumption]. Qed.
Lemma F2_rev : forall A A' (R : A -> A' -> Prop) l l', Forall2 R l l' -> Forall2 R (rev l) (rev l').
Proof. intros A A' R l l'. induction 1; cbn [rev]; [constructor|]. apply Forall2_app; [assumption|]. repeat constructor. assumption. Qed.
Lemma p_double_and_add : forall P P' s s', Rtw P P' -> Rsc s s' -> rel Rtw (double_and_addS M1 B1 K1 P s) (double_and_addS M2 B2 K2 P' s').
Proof. intros. unfold double_and_addS. rb. apply p_daa_loop; [assumption|apply F2_rev; assumption|eauto with rel]. Qed.
Lemma p_double_base : forall P P' s s' t t', Rtw P P' -> Rsc s s' -> Rsc t t' ->
  rel Rtw (double_base_scalar_mulS M1 B1 K1 s P t) (double_base_scalar_mulS M2 B2 K2 s' P' t').
Proof.
  intros. unfold double_base_scalar_mulS. eapply (l_bind L); [apply p_double_and_add; eassumption|]. intros.
  eapply (l_bind L); [apply p_double_and_add; [apply p_tw_generator|eassumption]|]. intros. eauto with rel.
Qed.
Lemma p_select_loop : forall t t' i x x' R R', Forall2 Rpn t t' -> 0 <= i -> i + Z.of_nat (length t) <= 2 ^ 32 -> Rdig x x' -> (exists y s, gives1 L (m_digit_abs K1 y) (x, s)) ->
  Rpn R R' -> rel Rpn (select_loopS M1 B1 K1 t i x R) (select_loopS M2 B2 K2 t' i x' R').
Proof.
  intros t t' i x x' R R' H Hi Hn Hx Hk. revert i Hi Hn R R'. induction H as [|e e' t t' He H IH]; intros i Hi Hn R R' HR; cbn [select_loopS]; [apply (l_ret L); exact HR|].
  cbn [length] in Hn. eapply (l_bind L); [apply (c_digit_ct_eq C); [exact Hx|lia|exact Hk]|]. intros ? ? ?. rb. apply IH; [lia|lia|assumption].
Qed.
Lemma p_lookup_select : forall t t' x x', Forall2 Rpn t t' -> length t = 8%nat -> Rdig x x' -> (exists y s, gives1 L (m_digit_abs K1 y) (x, s)) ->
  rel Rpn (lookup_selectS M1 B1 K1 t x) (lookup_selectS M2 B2 K2 t' x').
Proof. intros t t' x x' H Hl Hx Hk. unfold lookup_selectS. rb. apply p_select_loop; try assumption; [lia|]. rewrite Hl. lia. Qed.
Hint Resolve p_lookup_from : rel.
Local Opaque lookup_fromS lookup_selectS.
Lemma p_vb_loop : forall t t' ds ds' R R', Forall2 Rpn t t' -> length t = 8%nat -> Forall2 Rdig ds ds' -> Rxt R R' -> rel Rxt (vb_loopS M1 B1 K1 t ds R) (vb_loopS M2 B2 K2 t' ds' R').
Proof.
  intros t t' ds ds' R R' Ht Hl H. revert R R'. induction H as [|d d' ds ds' Hd H IH]; intros R R' HR; cbn [vb_loopS]; [apply (l_ret L); exact HR|].
  rb. rb. rb. rb. eapply (l_bind L); [apply (l_know L), (c_digit_abs C); exact Hd|]. intros [v sg] [v' sg'] ((Ha & Hs) & G & _). cbn [fst snd] in Ha, Hs.
  eapply (l_bind L); [apply p_lookup_select; [exact Ht|exact Hl|exact Ha|exists d, sg; exact G]|]. intros ? ? ?.
  eapply (l_bind L); [apply (c_digit_choice C); [exact Hs|exists d, v; exact G]|]. intros ? ? ?. rb. rb. apply IH. assumption.
Qed.
Lemma p_variable_base : forall P P' s s', Rtw P P' -> Rsc s s' -> rel Rtw (variable_baseS M1 B1 K1 P s) (variable_baseS M2 B2 K2 P' s').
Proof.
  intros. unfold variable_baseS. rb. eapply (l_bind L); [apply p_lookup_from; eassumption|]. intros ? ? (? & ?).
  eapply (l_bind L); [apply p_vb_loop; [eassumption|assumption|apply F2_rev; eassumption|eauto with rel]|]. intros. eauto with rel.
Qed.
Hint Resolve p_double_and_add p_variable_base : rel.
Local Opaque double_and_addS variable_baseS.

(** ** edwards *)
Lemma p_ed_select : forall P P' Q Q' c c', Red P P' -> Red Q Q' -> Sec L c c' -> rel Red (ed_selectS M1 B1 K1 P Q c) (ed_selectS M2 B2 K2 P' Q' c').
Proof. intros. parts. unfold ed_selectS. rgo. Qed.
Lemma p_eda_identity : Reda (eda_identity B1) (eda_identity B2). Proof. unfold Reda, eda_identity; cbn; intuition eauto 3 with rel. Qed.
Lemma p_eda_to_extended : forall P P', Reda P P' -> rel Red (eda_to_extendedS M1 B1 K1 P) (eda_to_extendedS M2 B2 K2 P').
Proof. intros. parts. unfold eda_to_extendedS. rgo. Qed.
Lemma p_ed_ct_eq : forall P P' Q Q', Red P P' -> Red Q Q' -> rel (Sec L) (ed_ct_eqS M1 B1 K1 P Q) (ed_ct_eqS M2 B2 K2 P' Q').
Proof. intros. parts. unfold ed_ct_eqS. rgo. apply (l_ret L). apply (s_map2 L); assumption. Qed.
Lemma p_ed_identity : Red (ed_identity B1) (ed_identity B2). Proof. unfold Red, ed_identity; cbn; intuition eauto 3 with rel. Qed.
Lemma p_ed_generator : Red (ed_generator B1) (ed_generator B2). Proof. unfold Red, ed_generator; cbn; intuition eauto 3 with rel. Qed.
Lemma p_ed_to_affine : forall P P', Red P P' -> rel Reda (ed_to_affineS M1 B1 K1 P) (ed_to_affineS M2 B2 K2 P').
Proof. intros. parts. unfold ed_to_affineS. rgo. Qed.
Hint Resolve p_ed_select p_eda_identity p_eda_to_extended p_ed_ct_eq p_ed_identity p_ed_generator p_ed_to_affine : rel.
Local Opaque ed_selectS eda_identity eda_to_extendedS ed_ct_eqS ed_identity ed_generator ed_to_affineS.
Lemma p_ed_to_montgomery : forall P P', Red P P' -> rel (Sec L) (ed_to_montgomeryS M1 B1 K1 P) (ed_to_montgomeryS M2 B2 K2 P').
Proof. intros. unfold ed_to_montgomeryS. rb. parts. rgo. Qed.
Lemma p_ed_add : forall P P' Q Q', Red P P' -> Red Q Q' -> rel Red (ed_addS M1 B1 K1 P Q) (ed_addS M2 B2 K2 P' Q').
Proof. intros. parts. unfold ed_addS. rgo. Qed.
Hint Resolve p_ed_add : rel.
Local Opaque ed_addS.
Lemma p_ed_double : forall P P', Red P P' -> rel Red (ed_doubleS M1 B1 K1 P) (ed_doubleS M2 B2 K2 P'). Proof. intros. unfold ed_doubleS. eauto with rel. Qed.
Hint Resolve p_ed_double : rel.
Local Opaque ed_doubleS.
Lemma p_ed_mod_four : forall P P' s s', Red P P' -> Rsc s s' -> rel Red (ed_scalar_mod_fourS M1 B1 K1 P s) (ed_scalar_mod_fourS M2 B2 K2 P' s').
Proof. intros. unfold ed_scalar_mod_fourS. cbv zeta. do 10 rb. eauto with rel. Qed.
Lemma p_ed_to_twisted : forall P P', Red P P' -> rel Rtw (ed_to_twistedS M1 B1 K1 P) (ed_to_twistedS M2 B2 K2 P').
Proof. intros. unfold ed_to_twistedS. rb. parts. rgo. Qed.
Hint Resolve p_ed_mod_four p_ed_to_twisted : rel.
Local Opaque ed_scalar_mod_fourS ed_to_twistedS variable_baseS.
Lemma p_ed_scalar_mul : forall P P' s s', Red P P' -> Rsc s s' -> rel Red (ed_scalar_mulS M1 B1 K1 P s) (ed_scalar_mulS M2 B2 K2 P' s').
Proof. intros. unfold ed_scalar_mulS. rb. rb. rb. rb. rb. eauto with rel. Qed.
Lemma p_torsion_free : forall P P', Red P P' -> rel (Sec L) (ed_is_torsion_freeS M1 B1 K1 P) (ed_is_torsion_freeS M2 B2 K2 P').
Proof.
  intros. unfold ed_is_torsion_freeS. eapply (l_bind L); [apply p_ed_scalar_mul; [eassumption|]|intros; eauto with rel].
  split; [apply (s_refl L)|split; reflexivity].
Qed.
Lemma p_ed_compress : forall P P', Red P P' -> rel (Sec L) (ed_compressS M1 B1 K1 P) (ed_compressS M2 B2 K2 P').
Proof.
  intros P P' H. unfold ed_compressS. rb. parts. rb. rb. rb. apply (l_ret L). apply (s_map2 L (fun y s => y ++ [s])); assumption.
Qed.
Lemma p_ed_negate : forall P P', Red P P' -> rel Red (ed_negateS M1 B1 K1 P) (ed_negateS M2 B2 K2 P'). Proof. intros. parts. unfold ed_negateS. rgo. Qed.
Lemma p_ed_torque : forall P P', Red P P' -> rel Red (ed_torqueS M1 B1 K1 P) (ed_torqueS M2 B2 K2 P'). Proof. intros. parts. unfold ed_torqueS. rgo. Qed.
Hint Resolve p_ed_negate p_ed_torque : rel.
Local Opaque ed_negateS ed_torqueS.
Lemma p_ed_sub : forall P P' Q Q', Red P P' -> Red Q Q' -> rel Red (ed_subS M1 B1 K1 P Q) (ed_subS M2 B2 K2 P' Q'). Proof. intros. unfold ed_subS. rgo. Qed.
Lemma p_ed_sum_loop : forall l l' A A', Forall2 Red l l' -> Red A A' -> rel Red (ed_sum_loopS M1 B1 K1 l A) (ed_sum_loopS M2 B2 K2 l' A').
Proof. intros l l' A A' H. revert A A'. induction H as [|P P' l l' HP H IH]; intros A A' HA; cbn [ed_sum_loopS]; [apply (l_ret L); exact HA|]. rb. apply IH. assumption. Qed.
Lemma p_ed_sum : forall l l', Forall2 Red l l' -> rel Red (ed_sumS M1 B1 K1 l) (ed_sumS M2 B2 K2 l').
Proof. intros l l' H. unfold ed_sumS. apply p_ed_sum_loop; [exact H|eauto with rel]. Qed.

(** ** montgomery *)
Lemma p_pm_select : forall P P' Q Q' c c', Rpm P P' -> Rpm Q Q' -> Sec L c c' -> rel Rpm (pm_selectS M1 B1 K1 P Q c) (pm_selectS M2 B2 K2 P' Q' c').
Proof. intros. parts. unfold pm_selectS. rgo. Qed.
Hint Resolve p_pm_select : rel.
Local Opaque pm_selectS.
Lemma p_pm_cond_swap : forall P P' Q Q' c c', Rpm P P' -> Rpm Q Q' -> Sec L c c' -> rel (Rprod Rpm Rpm) (pm_cond_swapS M1 B1 K1 P Q c) (pm_cond_swapS M2 B2 K2 P' Q' c').
Proof. intros. unfold pm_cond_swapS. rgo. Qed.
Lemma p_diff_add : forall P P' Q Q' u u', Rpm P P' -> Rpm Q Q' -> Rf u u' ->
  rel (Rprod Rpm Rpm) (differential_add_and_doubleS M1 B1 K1 P Q u) (differential_add_and_doubleS M2 B2 K2 P' Q' u').
Proof. intros. parts. unfold differential_add_and_doubleS. rgo. Qed.
Lemma p_pm_identity : Rpm (pm_identity B1) (pm_identity B2). Proof. unfold Rpm, pm_identity; cbn; intuition eauto 3 with rel. Qed.
Lemma p_pm_to_affine : forall P P', Rpm P P' -> rel (Sec L) (pm_to_affineS M1 B1 K1 P) (pm_to_affineS M2 B2 K2 P').
Proof. intros. parts. unfold pm_to_affineS. rgo. Qed.
Lemma p_mp_to_projective : forall b b', Rby 56 b b' -> rel Rpm (mp_to_projectiveS M1 B1 K1 b) (mp_to_projectiveS M2 B2 K2 b').
Proof. intros. unfold mp_to_projectiveS. rgo. Qed.
Hint Resolve p_pm_cond_swap p_diff_add p_pm_identity p_pm_to_affine : rel.
Local Opaque pm_cond_swapS differential_add_and_doubleS pm_identity pm_to_affineS.
Lemma p_ladder_loop : forall u u' bits bits' c c' P P' Q Q', Rf u u' -> Forall2 (Sec L) bits bits' -> Sec L c c' -> Rpm P P' -> Rpm Q Q' ->
  rel Rpm (ladder_loopS M1 B1 K1 u bits c P Q) (ladder_loopS M2 B2 K2 u' bits' c' P' Q').
Proof.
  intros u u' bits bits' c c' P P' Q Q' Hu H. revert c c' P P' Q Q'. induction H as [|b b' bits bits' Hb H IH]; intros c c' P P' Q Q' Hc HP HQ; cbn [ladder_loopS]; [apply (l_ret L); exact HP|].
  cbv zeta. eapply (l_bind L); [apply p_pm_cond_swap; [exact HP|exact HQ|exact (s_map2 L xorb _ _ _ _ Hc Hb)]|]. intros ? ? ?. rp.
  rb. rp. apply IH; assumption.
Qed.
Lemma p_mp_mul : forall b b' s s', Rby 56 b b' -> Rsc s s' -> rel (Sec L) (mp_mulS M1 B1 K1 b s) (mp_mulS M2 B2 K2 b' s').
Proof.
  intros. unfold mp_mulS. rb. rb. eapply (l_bind L); [|intros ? ? ?; eauto with rel].
  apply p_ladder_loop; [assumption|apply F2_rev; assumption|apply (s_refl L)|eauto with rel|]. split; cbn [pmU pmW]; eauto with rel.
Qed.

(** ** decaf *)
Lemma p_dc_equals : forall P P' Q Q', Rtw P P' -> Rtw Q Q' -> rel (Sec L) (dc_equalsS M1 B1 K1 P Q) (dc_equalsS M2 B2 K2 P' Q').
Proof. intros. parts. unfold dc_equalsS. rgo. Qed.
Lemma p_dc_sub : forall P P' Q Q', Rtw P P' -> Rtw Q Q' -> rel Rtw (dc_subS M1 B1 K1 P Q) (dc_subS M2 B2 K2 P' Q').
Proof. intros. unfold dc_subS. rgo. Qed.
Lemma p_dc_add : forall P P' Q Q', Rtw P P' -> Rtw Q Q' -> rel Rtw (dc_addS M1 B1 K1 P Q) (dc_addS M2 B2 K2 P' Q').
Proof. intros. unfold dc_addS. rgo. Qed.
Lemma p_dc_compress : forall P P', Rtw P P' -> rel (Sec L) (dc_compressS M1 B1 K1 P) (dc_compressS M2 B2 K2 P').
Proof. intros. parts. unfold dc_compressS. cbv zeta. rgo. Qed.

Lemma p_rs_equals : forall P P' Q Q', Rtw P P' -> Rtw Q Q' -> rel (Sec L) (rs_equalsS M1 B1 K1 P Q) (rs_equalsS M2 B2 K2 P' Q').
Proof. intros. parts. unfold rs_equalsS. rgo. Qed.

(** ** Decompression: the pieces between branches *)
Lemma removelast_len : forall (b : list Z) n, length b = S n -> length (removelast b) = n.
Proof.
  intros b n H. destruct b as [|x b] using rev_ind; [discriminate|]. rewrite app_length in H. cbn [length] in H. rewrite removelast_last. lia.
Qed.
Lemma Rby_removelast : forall b b', Rby 57 b b' -> Rby 56 (removelast b) (removelast b').
Proof. intros b b' (H & E & E'). split; [exact (s_map L (@removelast Z) _ _ H)|]. split; apply removelast_len; assumption. Qed.
Lemma p_ed_pre : forall b b', Rby 57 b b' -> rel (Rprod Rf (Rprod Rf (Sec L))) (ed_preS M1 B1 K1 b) (ed_preS M2 B2 K2 b').
Proof.
  intros b b' Hb. unfold ed_preS. eapply (l_bind L); [apply (c_from C), Rby_removelast; exact Hb|]. intros ? ? ?.
  rb. rb. rb. rb. rb. apply (l_ret L). split; assumption.
Qed.
Lemma p_ed_post : forall b b' y y' x x', Rby 57 b b' -> bytes 57 b -> bytes 57 b' -> Rf y y' -> Rf x x' -> rel Red (ed_postS M1 B1 K1 b y x) (ed_postS M2 B2 K2 b' y' x').
Proof.
  intros. unfold ed_postS. rb. rb. eapply (l_bind L); [apply (c_cneg C); [eassumption|apply (s_map2 L xorb); eassumption]|]. intros ? ? ?.
  apply p_eda_to_extended. split; cbn [edAx edAy]; assumption.
Qed.
Lemma p_dc_pre : forall b b', Rby 56 b b' -> bytes 56 b -> bytes 56 b' -> rel (Rprod Rf (Sec L)) (dc_preS M1 B1 K1 b) (dc_preS M2 B2 K2 b').
Proof. intros b b' Hb Ob Ob'. unfold dc_preS. rb. rb. rb. apply (l_ret L). split; assumption. Qed.
Lemma p_dc_mid : forall s s', Rf s s' -> rel (Rprod (Rprod Rf (Rprod Rf Rf)) (Rprod Rf (Sec L))) (dc_midS M1 B1 K1 s) (dc_midS M2 B2 K2 s').
Proof. intros s s' H. unfold dc_midS. rb. rb. rb. rb. rb. rb. rb. rb. apply (l_ret L). repeat split; cbn [fst snd]; try assumption; apply H7. Qed.
Lemma p_dc_post : forall s s' u1 u1' u2 u2' v v' i i', Rf s s' -> Rf u1 u1' -> Rf u2 u2' -> Rf v v' -> Rf i i' ->
  rel Rtw (dc_postS M1 B1 K1 s u1 u2 v i) (dc_postS M2 B2 K2 s' u1' u2' v' i').
Proof. intros. unfold dc_postS. cbv zeta. rgo. Qed.

(** ** Everything, if branches may be compared *)
Section Branches.
Variable HB : forall c c', Sec L c c' -> rel eq (m_branch K1 c) (m_branch K2 c').
Lemma p_ed_decompress : forall b b', Rby 57 b b' -> bytes 57 b -> bytes 57 b' -> rel (Ropt Red) (ed_decompressS M1 B1 K1 b) (ed_decompressS M2 B2 K2 b').
Proof.
  intros b b' Hb Ob Ob'. unfold ed_decompressS. eapply (l_bind L); [apply p_ed_pre; exact Hb|]. intros (y & x & r) (y' & x' & r') (Hy & Hx & Hr). cbn [fst snd] in *.
  eapply (l_bind L); [apply HB; exact (s_map L negb _ _ Hr)|]. intros c ? <-. destruct c; [apply (l_ret L); exact I|].
  eapply (l_bind L); [apply p_ed_post; eassumption|]. intros. apply (l_ret L). assumption.
Qed.
Lemma p_dc_decompress : forall b b', Rby 56 b b' -> bytes 56 b -> bytes 56 b' -> rel (Ropt Rtw) (dc_decompressS M1 B1 K1 b) (dc_decompressS M2 B2 K2 b').
Proof.
  intros b b' Hb Ob Ob'. unfold dc_decompressS. eapply (l_bind L); [apply p_dc_pre; eassumption|]. intros (s & c) (s' & c') (Hs & Hc). cbn [fst snd] in *.
  eapply (l_bind L); [apply HB; exact (s_map L negb _ _ Hc)|]. intros d ? <-.
  eapply (l_bind L eq). { destruct d; [apply (l_ret L); reflexivity|]. eapply (l_bind L); [apply (c_isneg C); exact Hs|]. intros. apply HB. assumption. }
  intros r ? <-. destruct r; [apply (l_ret L); exact I|].
  eapply (l_bind L); [apply p_dc_mid; exact Hs|]. intros ((u1 & u2 & v) & i & k) ((u1' & u2' & v') & i' & k') ((H1 & H2 & H3) & H4 & H5). cbn [fst snd] in *.
  eapply (l_bind L); [apply HB; exact (s_map L negb _ _ H5)|]. intros e ? <-. destruct e; [apply (l_ret L); exact I|].
  eapply (l_bind L); [apply p_dc_post; eassumption|]. intros. apply (l_ret L). assumption.
Qed.
End Branches.

(** ** Programs *)
(** Two programs that make the same calls on related data; equal parts need not be looked into if [Same]. *)
Section Programs.
Variable Same : Prop.
Variable Rd : forall A : Type, A -> A -> Prop.
Inductive skel : forall s, api s -> api s -> Prop :=
| K_same s (e : api s) : Same -> skel s e e
| K_Ret d v v' : Rd _ v v' -> skel _ (ARet d v) (ARet d v')
| K_bind d s x x' k k' : skel _ x x' -> (forall v v', Rd _ v v' -> dok d v -> dok d v' -> skel s (k v) (k' v')) -> skel s (ABind d s x k) (ABind d s x' k')
| K_IsSome s x x' : skel _ x x' -> skel _ (AIsSome s x) (AIsSome s x')
| K_ScAdd a a' b b' : Rd _ a a' -> Rd _ b b' -> skel _ (AScAdd a b) (AScAdd a' b')
| K_ScSub a a' b b' : Rd _ a a' -> Rd _ b b' -> skel _ (AScSub a b) (AScSub a' b')
| K_ScMul a a' b b' : Rd _ a a' -> Rd _ b b' -> skel _ (AScMul a b) (AScMul a' b')
| K_ScInvert a a' : Rd _ a a' -> skel _ (AScInvert a) (AScInvert a')
| K_ScHalve a a' : Rd _ a a' -> skel _ (AScHalve a) (AScHalve a')
| K_ScCanonical b b' : Rd _ b b' -> skel _ (AScCanonical b) (AScCanonical b')
| K_ScWide b b' : Rd _ b b' -> skel _ (AScWide b) (AScWide b')
| K_EdIdentity : skel _ AEdIdentity AEdIdentity
| K_EdGenerator : skel _ AEdGenerator AEdGenerator
| K_EdDecompress b b' : Rd _ b b' -> skel _ (AEdDecompress b) (AEdDecompress b')
| K_EdAdd x x' y y' : skel _ x x' -> skel _ y y' -> skel _ (AEdAdd x y) (AEdAdd x' y')
| K_EdSub x x' y y' : skel _ x x' -> skel _ y y' -> skel _ (AEdSub x y) (AEdSub x' y')
| K_EdNeg x x' : skel _ x x' -> skel _ (AEdNeg x) (AEdNeg x')
| K_EdDouble x x' : skel _ x x' -> skel _ (AEdDouble x) (AEdDouble x')
| K_EdTorque x x' : skel _ x x' -> skel _ (AEdTorque x) (AEdTorque x')
| K_EdMul x x' s s' : skel _ x x' -> Rd _ s s' -> skel _ (AEdMul x s) (AEdMul x' s')
| K_EdModFour x x' s s' : skel _ x x' -> Rd _ s s' -> skel _ (AEdModFour x s) (AEdModFour x' s')
| K_EdSelect x x' y y' c c' : skel _ x x' -> skel _ y y' -> Rd _ c c' -> skel _ (AEdSelect x y c) (AEdSelect x' y' c')
| K_Nil : skel _ ANil ANil
| K_Cons x x' l l' : skel _ x x' -> skel _ l l' -> skel _ (ACons x l) (ACons x' l')
| K_EdSum l l' : skel _ l l' -> skel _ (AEdSum l) (AEdSum l')
| K_EdUntwist x x' : skel _ x x' -> skel _ (AEdUntwist x) (AEdUntwist x')
| K_EdOfAffine x x' : skel _ x x' -> skel _ (AEdOfAffine x) (AEdOfAffine x')
| K_EdAffineIdentity : skel _ AEdAffineIdentity AEdAffineIdentity
| K_EdToAffine x x' : skel _ x x' -> skel _ (AEdToAffine x) (AEdToAffine x')
| K_EdCompress x x' : skel _ x x' -> skel _ (AEdCompress x) (AEdCompress x')
| K_EdEq x x' y y' : skel _ x x' -> skel _ y y' -> skel _ (AEdEq x y) (AEdEq x' y')
| K_EdTorsionFree x x' : skel _ x x' -> skel _ (AEdTorsionFree x) (AEdTorsionFree x')
| K_EdToMontgomery x x' : skel _ x x' -> skel _ (AEdToMontgomery x) (AEdToMontgomery x')
| K_TwIdentity : skel _ ATwIdentity ATwIdentity
| K_TwGenerator : skel _ ATwGenerator ATwGenerator
| K_Twist x x' : skel _ x x' -> skel _ (ATwist x) (ATwist x')
| K_TwNeg x x' : skel _ x x' -> skel _ (ATwNeg x) (ATwNeg x')
| K_TwTorque x x' : skel _ x x' -> skel _ (ATwTorque x) (ATwTorque x')
| K_TwSelect x x' y y' c c' : skel _ x x' -> skel _ y y' -> Rd _ c c' -> skel _ (ATwSelect x y c) (ATwSelect x' y' c')
| K_TwOfXt x x' : skel _ x x' -> skel _ (ATwOfXt x) (ATwOfXt x')
| K_TwOfPn x x' : skel _ x x' -> skel _ (ATwOfPn x) (ATwOfPn x')
| K_TwEq x x' y y' : skel _ x x' -> skel _ y y' -> skel _ (ATwEq x y) (ATwEq x' y')
| K_XtIdentity : skel _ AXtIdentity AXtIdentity
| K_XtOfTw x x' : skel _ x x' -> skel _ (AXtOfTw x) (AXtOfTw x')
| K_XtDouble x x' : skel _ x x' -> skel _ (AXtDouble x) (AXtDouble x')
| K_XtAddXt x x' y y' : skel _ x x' -> skel _ y y' -> skel _ (AXtAddXt x y) (AXtAddXt x' y')
| K_XtAddTw x x' y y' : skel _ x x' -> skel _ y y' -> skel _ (AXtAddTw x y) (AXtAddTw x' y')
| K_XtSubTw x x' y y' : skel _ x x' -> skel _ y y' -> skel _ (AXtSubTw x y) (AXtSubTw x' y')
| K_XtAddPn x x' y y' : skel _ x x' -> skel _ y y' -> skel _ (AXtAddPn x y) (AXtAddPn x' y')
| K_XtEq x x' y y' : skel _ x x' -> skel _ y y' -> skel _ (AXtEq x y) (AXtEq x' y')
| K_PnIdentity : skel _ APnIdentity APnIdentity
| K_PnOfXt x x' : skel _ x x' -> skel _ (APnOfXt x) (APnOfXt x')
| K_PnSelect x x' y y' c c' : skel _ x x' -> skel _ y y' -> Rd _ c c' -> skel _ (APnSelect x y c) (APnSelect x' y' c')
| K_PnNegate x x' c c' : skel _ x x' -> Rd _ c c' -> skel _ (APnNegate x c) (APnNegate x' c')
| K_PnEq x x' y y' : skel _ x x' -> skel _ y y' -> skel _ (APnEq x y) (APnEq x' y')
| K_MpMul b b' s s' : Rd _ b b' -> Rd _ s s' -> skel _ (AMpMul b s) (AMpMul b' s')
| K_PmOf b b' : Rd _ b b' -> skel _ (APmOf b) (APmOf b')
| K_PmIdentity : skel _ APmIdentity APmIdentity
| K_PmSelect x x' y y' c c' : skel _ x x' -> skel _ y y' -> Rd _ c c' -> skel _ (APmSelect x y c) (APmSelect x' y' c')
| K_PmToAffine x x' : skel _ x x' -> skel _ (APmToAffine x) (APmToAffine x')
| K_DcIdentity : skel _ ADcIdentity ADcIdentity
| K_DcGenerator : skel _ ADcGenerator ADcGenerator
| K_DcDecompress b b' : Rd _ b b' -> skel _ (ADcDecompress b) (ADcDecompress b')
| K_DcAdd x x' y y' : skel _ x x' -> skel _ y y' -> skel _ (ADcAdd x y) (ADcAdd x' y')
| K_DcSub x x' y y' : skel _ x x' -> skel _ y y' -> skel _ (ADcSub x y) (ADcSub x' y')
| K_DcNeg x x' : skel _ x x' -> skel _ (ADcNeg x) (ADcNeg x')
| K_DcMul x x' s s' : skel _ x x' -> Rd _ s s' -> skel _ (ADcMul x s) (ADcMul x' s')
| K_DcCompress x x' : skel _ x x' -> skel _ (ADcCompress x) (ADcCompress x')
| K_DcEq x x' y y' : skel _ x x' -> skel _ y y' -> skel _ (ADcEq x y) (ADcEq x' y')
| K_RsIdentity : skel _ ARsIdentity ARsIdentity
| K_RsEq x x' y y' : skel _ x x' -> skel _ y y' -> skel _ (ARsEq x y) (ARsEq x' y').
End Programs.
Definition Rval (s : sort) : val B1 s -> val B2 s -> Prop :=
  match s with
  | TData d => fun v v' => Sec L v v'
  | TEd => Red | TEdAffine => Reda | TEdList => Forall2 Red | TTw => Rtw | TXt => Rxt | TPn => Rpn | TPm => Rpm | TDc => Rtw | TRs => Rtw
  end.
Section Run.
Variable HB : forall c c', Sec L c c' -> rel eq (m_branch K1 c) (m_branch K2 c').
Variable HC : forall b b', Sec L b b' -> bytes 57 b -> bytes 57 b' -> rel (Ropt (Sec L)) (m_sc_canonical K1 b) (m_sc_canonical K2 b').
Variable Same : Prop.
Variable HS : Same -> forall s (e : api s), api_ok e -> rel (Ropt (Rval s)) (api_runS M1 B1 K1 e) (api_runS M2 B2 K2 e).
(** What calls return are values of their types. *)
Variable HV : forall d (x x' : api (TData d)) v v', api_ok x -> api_ok x' -> gives1 L (api_runS M1 B1 K1 x) (Some v) -> gives2 L (api_runS M2 B2 K2 x') (Some v') ->
  Sec L v v' -> dok d v /\ dok d v'.
Lemma p_obind : forall A A' E E' (R : A -> A' -> Prop) (S : E -> E' -> Prop) m m' f f', rel (Ropt R) m m' -> (forall a a', R a a' -> rel (Ropt S) (f a) (f' a')) ->
  rel (Ropt S) (obindS M1 m f) (obindS M2 m' f').
Proof.
  intros A A' E E' R S m m' f f' H K. unfold obindS. eapply (l_bind L); [exact H|]. intros [a|] [a'|] Ha; cbn [Ropt] in Ha; try contradiction; [apply K; exact Ha|apply (l_ret L); exact I].
Qed.
Lemma p_osome : forall A A' (R : A -> A' -> Prop) m m', rel R m m' -> rel (Ropt R) (osomeS M1 m) (osomeS M2 m').
Proof. intros. unfold osomeS. eapply (l_bind L); [eassumption|]. intros. apply (l_ret L). assumption. Qed.
Lemma Rby_of : forall n b b', Sec L b b' -> bytes n b -> bytes n b' -> Rby n b b'.
Proof. intros n b b' H (E & _) (E' & _). split; [exact H|split; assumption]. Qed.
Lemma Rsc_of : forall b b', Sec L b b' -> is_scalar b -> is_scalar b' -> Rsc b b'.
Proof. intros b b' H (E & _) (E' & _). split; [exact H|split; assumption]. Qed.
Ltac data := first [solve [apply Rby_of; assumption] | solve [apply Rsc_of; assumption]].
Lemma p_api : forall s (e e' : api s), skel Same (fun A => Sec L (A := A)) s e e' -> api_ok e -> api_ok e' -> rel (Ropt (Rval s)) (api_runS M1 B1 K1 e) (api_runS M2 B2 K2 e').
Proof.
  induction 1; cbn [api_ok api_runS]; intros Hok Hok'.
  all: repeat match goal with H : _ /\ _ |- _ => destruct H end.
  all: repeat match goal with IH : api_ok ?e -> api_ok ?e' -> _, H : api_ok ?e, H' : api_ok ?e' |- _ => specialize (IH H H') end.
  all: lazymatch goal with H : forall v v' : dval _, _ |- _ => idtac | _ => try (eapply p_obind; [eassumption|intros ? ? ?]; [idtac]); try (eapply p_obind; [eassumption|intros ? ? ?]; [idtac]) end; cbn [Rval] in *.
  all: try solve [apply (l_ret L); cbn [Ropt Rval]; first [assumption | apply p_ed_identity | apply p_ed_generator | apply p_eda_identity | apply p_tw_identity | apply p_tw_generator
    | apply p_xt_identity | apply p_pm_identity | apply p_tw_to_extensible; assumption | constructor; assumption | constructor]].
  all: try solve [apply p_osome; first [apply (c_sc_add C) | apply (c_sc_sub C) | apply (c_sc_mul C) | apply (c_sc_invert C) | apply (c_sc_halve C) | apply (c_sc_wide C)
    | apply p_ed_add | apply p_ed_sub | apply p_ed_negate | apply p_ed_double | apply p_ed_torque | apply p_ed_scalar_mul | apply p_ed_mod_four | apply p_ed_select
    | apply p_ed_sum | apply p_tw_to_untwisted | apply p_eda_to_extended | apply p_ed_to_affine | apply p_ed_compress | apply p_ed_ct_eq | apply p_torsion_free
    | apply p_ed_to_montgomery | apply p_ed_to_twisted | apply p_tw_negate | apply p_tw_torque | apply p_tw_select | apply p_xt_to_extended | apply p_pn_to_extended
    | apply p_tw_ct_eq | apply p_xt_double | apply p_xt_add_xt | apply p_xt_add_extended | apply p_xt_sub_extended | apply p_xt_add_pn | apply p_xt_ct_eq | apply p_pn_identity
    | apply p_xt_to_pn | apply p_pn_select | apply p_pn_cond_negate | apply p_pn_eq | apply p_mp_mul | apply p_mp_to_projective | apply p_pm_select | apply p_pm_to_affine
    | apply p_dc_add | apply p_dc_sub | apply p_double_and_add | apply p_dc_compress | apply p_dc_equals | apply p_rs_equals]; first [assumption | data]].
  all: idtac.
  - apply (HS H). assumption.
  - unfold obindS. match goal with IH : rel _ (api_runS M1 B1 K1 x) (api_runS M2 B2 K2 x') |- _ => apply (l_know L) in IH; eapply (l_bind L); [exact IH|] end.
    intros [v|] [v'|] (Hv & G1 & G2); cbn [Ropt Rval] in Hv; try contradiction; [|apply (l_ret L); exact I].
    destruct (HV d x x' v v') as (D & D'); try assumption. match goal with IH : forall v v', _ -> dok d v -> _ |- _ => apply IH; auto end.
  - eapply (l_bind L); [eassumption|]. intros [v|] [v'|] Hv; cbn [Ropt] in Hv; try contradiction; apply (l_ret L), (s_refl L).
  - apply HC; assumption.
  - apply p_ed_decompress; [exact HB|data|assumption|assumption].
  - apply p_dc_decompress; [exact HB|data|assumption|assumption].
Qed.
End Run.
End CurveRel.
Lemma const_bytes : forall k n, 0 <= k < 2 ^ 8 -> bytes n (repeat k n).
Proof. intros k n H. split; [apply repeat_length|]. induction n; constructor; assumption. Qed.
Lemma zero_bytes : forall n, bytes n (repeat 0 n).
Proof. intro n. apply const_bytes. split; [discriminate|reflexivity]. Qed.
