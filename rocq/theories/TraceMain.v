(** The theorems about traced programs, from the two logics. *)
Require Import ZArith List Bool Lia.
From Verif Require Import Base BaseProofs SpecParams FieldBackend FieldU32Model Backends ScalarModel TwistedModel ScalarMulModel EdwardsModel MontgomeryModel DecafModel ApiExpr ApiRun ScalarProofs ScalarProofs2
  Steps StepU32 StepScalar StepCurve StepPlain StepRelWords StepRelCurve TraceSpec TraceLogic TraceLogicWords TraceScalar TraceFacts.
Import ListNotations.
Open Scope Z_scope.

Lemma same_skel : forall (Rd : forall A, A -> A -> Prop), (forall A a a', Rd A a a') -> forall D s (e e' : api s), same_calls D s e e' -> skel True Rd s e e'.
Proof. intros Rd H D s e e' G. induction G; try solve [constructor; auto; exact I]. Qed.

Section Both.
Variable E : Type.
Variable B : backend.
Variable S : shipped B.
Variable O : backend.
Variable K : machine (tracing E) O.
Variable Rf : fe O -> fe B -> Prop.
Variable Rdig : digit K -> Z -> Prop.
Variable C : mcompat _ _ (quiet E) O B K (plain_machine B) Rf Rdig.
Variable HB : forall c, m_branch K c = goes c.
Variable HC : forall b, bytes 57 b -> follows (scalar_branches b) (Ropt eq) (m_sc_canonical K b) (scalar_from_canonical_bytes b).
Variable R2 : fe O -> fe O -> Prop.
Variable R2_refl : forall a, R2 a a.
Variable Rd2 : digit K -> digit K -> Prop.
Variable C2 : mcompat _ _ (two E) O O K K R2 Rd2.
Variable HC2 : forall b b', bytes 57 b -> bytes 57 b' -> rl (two E) (Ropt (Sec (two E))) (m_sc_canonical K b) (m_sc_canonical K b').
Local Notation run1 e := (api_runS (tracing E) O K e).
Lemma both_run : forall s (e : api s), api_ok e -> follows (decisions B e) (Ropt (Rval _ _ (quiet E) O B Rf s)) (run1 e) (api_run B e).
Proof. intros s e He. rewrite <- e_api_run. exact (f_api E B S O K Rf Rdig C HB HC s e He). Qed.
Lemma both_typed : forall d (x : api (TData d)) v, api_ok x -> snd (run1 x) = Ok (Some v) -> dok d v.
Proof.
  intros d x v Hx Ev. pose proof (follows_ok (both_run _ x Hx) Ev) as G. destruct (api_run B x) as [[w|]|] eqn:Ew; cbn [agrees Ropt Rval] in G; try contradiction.
  change (v = w) in G. subst w. exact (api_typed B S d x Hx v Ew).
Qed.
Lemma R2_val : forall s (v : val O s), Rval _ _ (two E) O O R2 s v v.
Proof. intros [] v; cbn [Rval]; repeat split; try apply R2_refl; try exact I. apply F2_refl. intro P. repeat split; apply R2_refl. Qed.
Lemma both_same : forall s (e e' : api s), same_calls any s e e' -> api_ok e -> api_ok e' -> rl (two E) (Ropt (Rval _ _ (two E) O O R2 s)) (run1 e) (run1 e').
Proof.
  intros s e e' H He He'. refine (p_api _ _ (two E) O O K K R2 Rd2 C2 _ _ True _ _ s e e' (same_skel _ (fun _ _ _ => I) any s e e' H) He He').
  - intros c c' _. rewrite !HB. apply two_goes.
  - intros b b' _ Hb Hb'. apply HC2; assumption.
  - intros _ s0 e0 H0. apply two_same. intros [v|]; [apply R2_val|exact I].
  - intros d x x' v v' Hx Hx' G1 G2 _. split; [exact (both_typed d x v Hx G1)|exact (both_typed d x' v' Hx' G2)].
Qed.
Lemma both_returns : forall s (e : api s), api_ok e -> exists o, snd (run1 e) = Ok o.
Proof.
  intros s e He. destruct (both_run s e He) as (_ & H). destruct (api_no_panic B S s e He) as (o & Eo). rewrite Eo in H. destruct (snd (run1 e)) as [v|]; [exists v; reflexivity|contradiction].
Qed.
(** Programs with the same calls: their traces differ only if their decisions do. *)
Lemma both_traces : forall s (e e' : api s), api_ok e -> api_ok e' -> same_calls any s e e' ->
  (fst (run1 e) = fst (run1 e') <-> decisions B e = decisions B e') /\
  (decisions B e = decisions B e' -> exists o o', snd (run1 e) = Ok o /\ snd (run1 e') = Ok o' /\ Ropt (Rval _ _ (two E) O O R2 s) o o').
Proof.
  intros s e e' He He' H. pose proof (proj1 (both_run s e He)) as D. pose proof (proj1 (both_run s e' He')) as D'.
  destruct (both_returns s e He) as (o & Eo). destruct (both_returns s e' He') as (o' & Eo').
  assert (G : decisions B e = decisions B e' -> fst (run1 e) = fst (run1 e') /\ Ropt (Rval _ _ (two E) O O R2 s) o o').
  { intro Hd. apply (both_same s e e' H He He' o o' Eo Eo' [] []). rewrite !app_nil_r, D, D'. exact Hd. }
  split; [split|].
  - intro T. rewrite <- D, <- D', T. reflexivity.
  - intro Hd. apply G. exact Hd.
  - intro Hd. exists o, o'. split; [exact Eo|]. split; [exact Eo'|]. apply G. exact Hd.
Qed.
Lemma any_calls : forall D s (e e' : api s), same_calls D s e e' -> same_calls any s e e'.
Proof. intros D s e e' H. induction H; constructor; auto; exact I. Qed.
Lemma both_some : forall s (e e' : api s) o o', api_ok e -> api_ok e' -> same_calls any s e e' -> decisions B e = decisions B e' -> api_run B e = Ok o -> api_run B e' = Ok o' ->
  match o, o' with Some _, Some _ | None, None => True | _, _ => False end.
Proof.
  intros s e e' o o' He He' H Hd Eo Eo'. destruct (proj2 (both_traces s e e' He He' H) Hd) as (q & q' & Eq & Eq' & G).
  pose proof (follows_ok (both_run s e He) Eq) as F. pose proof (follows_ok (both_run s e' He') Eq') as F'. rewrite Eo in F. rewrite Eo' in F'. cbn [agrees] in *.
  destruct q, q', o, o'; cbn [Ropt] in *; try contradiction; exact I.
Qed.
(** Strings on which the decoders take the same branches. *)
Lemma both_decisions : forall s (e e' : api s), same_calls (alike B) s e e' -> api_ok e -> api_ok e' -> decisions B e = decisions B e'.
Proof.
  intros s e e' H. induction H; cbn [api_ok decisions]; intros Hok Hok'; repeat match goal with H : _ /\ _ |- _ => destruct H end; try reflexivity;
    repeat match goal with IH : api_ok ?e -> api_ok ?e' -> _, G : api_ok ?e, G' : api_ok ?e' |- _ => specialize (IH G G') end; try assumption.
  all: match goal with G : api_ok ?x, G' : api_ok ?x', HS : same_calls _ _ ?x ?x', IH : decisions B ?x = decisions B ?x' |- decisions B ?x ++ _ = decisions B ?x' ++ _ =>
    rewrite IH; apply f_equal; destruct (api_no_panic B S _ x G) as (o & Eo); destruct (api_no_panic B S _ x' G') as (o' & Eo');
    pose proof (both_some _ x x' o o' G G' (any_calls _ _ _ _ HS) IH Eo Eo') as T; rewrite Eo, Eo'; destruct o, o'; cbn [after]; try contradiction; try reflexivity; try assumption end.
  match goal with IH : forall v v', dok d v -> _, T : forall v, dok d v -> api_ok (k v), T' : forall v, dok d v -> api_ok (k' v) |- decisions B (k ?v) = decisions B (k' ?v') =>
    pose proof (api_typed B S d x ltac:(assumption) v Eo); pose proof (api_typed B S d x' ltac:(assumption) v' Eo'); apply IH; auto end.
Qed.
End Both.

(** ** Field operations as steps *)
Lemma field_canonical : forall B b, follows (scalar_branches b) (Ropt eq) (m_sc_canonical (field_machine B) b) (scalar_from_canonical_bytes b).
Proof. intros B b. split; [apply branches_goes|]. apply agrees_refl. intros [v|]; [reflexivity|exact I]. Qed.
Lemma field_canonical_two : forall B b b', bytes 57 b -> bytes 57 b' ->
  rl (two operation) (Ropt (Sec (two operation))) (m_sc_canonical (field_machine B) b) (m_sc_canonical (field_machine B) b').
Proof.
  intros B b b' Hb Hb' o o' Eo Eo' u u' Eu. cbn [field_machine m_sc_canonical fst snd] in *. rewrite !branches_goes in Eu. revert Eu.
  assert (V : forall b o, bytes 57 b -> scalar_from_canonical_bytes b = Ok o -> o = None /\ ell <= le_val b \/ (exists v, o = Some v) /\ le_val b < ell).
  { clear. intros b o Hb E. destruct (from_canonical_ok b Hb) as [A R]. destruct (Z_lt_le_dec (le_val b) ell) as [G|G].
    - right. destruct (A G) as (v & E' & _). rewrite E in E'. injection E' as ->. split; [exists v; reflexivity|exact G].
    - left. rewrite (R G) in E. injection E as <-. split; [reflexivity|exact G]. }
  pose proof ell_lt as HL. assert (H8 : 2 ^ 446 < 2 ^ 448) by reflexivity.
  unfold scalar_branches. generalize dependent (2 ^ 448). intros q H8. generalize dependent (2 ^ 446). intros r HL H8.
  destruct (V b o Hb Eo) as [(-> & G)|((v & ->) & G)], (V b' o' Hb' Eo') as [(-> & G')|((v' & ->) & G')];
    destruct (Z.leb_spec q (le_val b)), (Z.leb_spec q (le_val b')); try (exfalso; lia);
    destruct (Z.leb_spec r (le_val b)), (Z.leb_spec r (le_val b')); try (exfalso; lia);
    destruct (Z.ltb_spec (le_val b) ell), (Z.ltb_spec (le_val b') ell); try (exfalso; lia); intro Eu;
    first [discriminate Eu | split; [reflexivity|exact I]].
Qed.
Lemma coords_of : forall E (O : backend) (R : fe O -> fe O -> Prop) s (v w : val O s), Rval _ _ (two E) O O R s v w -> Forall2 R (coords s v) (coords s w).
Proof.
  intros E O R s v w. destruct s; cbn [Rval coords]; unfold Red, Reda, Rtw, Rxt, Rpn, Rpm.
  4: intro H; induction H as [|P Q l l' (E1 & E2 & E3 & E4) H IH]; [constructor|]; cbn [flat_map]; apply Forall2_app; [repeat constructor; assumption|exact IH].
  all: intuition (repeat constructor; assumption).
Qed.
Section Field.
Variable B : backend.
Lemma shapes_of : forall s (v w : val (tagged B) s), Rval _ _ (two operation) (tagged B) (tagged B) Rshape s v w -> field_shapes v = field_shapes w.
Proof. intros s v w H. pose proof (coords_of operation (tagged B) Rshape s v w H) as G. unfold field_shapes. induction G as [|x y l l' E _ IH]; [reflexivity|]. cbn [map]. rewrite IH, E. reflexivity. Qed.
Lemma values_of : forall s (v : val (tagged B) s) (w : val B s), Rval _ _ (quiet operation) (tagged B) B Rplain s v w -> field_values v = w.
Proof.
  intros s v w. unfold field_values. destruct s; cbn [Rval map_val]; unfold Red, Reda, Rtw, Rxt, Rpn, Rpm, Rplain.
  - intro H. exact H.
  - destruct w. cbn. intros (<- & <- & <- & <-). reflexivity.
  - destruct w. cbn. intros (<- & <-). reflexivity.
  - intro H. induction H as [|P Q l l' (E1 & E2 & E3 & E4) H IH]; [reflexivity|]. cbn [map]. rewrite IH, E1, E2, E3, E4. destruct Q. reflexivity.
  - destruct w. cbn. intros (<- & <- & <- & <-). reflexivity.
  - destruct w. cbn. intros (<- & <- & <- & <- & <-). reflexivity.
  - destruct w. cbn. intros (<- & <- & <- & <-). reflexivity.
  - destruct w. cbn. intros (<- & <-). reflexivity.
  - destruct w. cbn. intros (<- & <- & <- & <-). reflexivity.
  - destruct w. cbn. intros (<- & <- & <- & <-). reflexivity.
Qed.
Variable S : shipped B.
Local Notation inst f := (f operation B S (tagged B) (field_machine B) Rplain eq (field_quiet B) (fun c => eq_refl) (fun b _ => field_canonical B b)).
Local Notation inst2 f := (inst f Rshape (fun a => eq_refl) (fun _ _ => True) (field_two B B) (field_canonical_two B)).
Theorem field_branches : forall s (e : api s), api_ok e -> branches (fst (field_run B e)) = decisions B e.
Proof. intros s e He. exact (proj1 (inst both_run s e He)). Qed.
Theorem field_result : forall s (e : api s), api_ok e -> exists o, snd (field_run B e) = Ok o /\ api_run B e = Ok (option_map field_values o).
Proof.
  intros s e He. destruct (inst both_returns s e He) as (o & Eo). exists o. split; [exact Eo|]. pose proof (follows_ok (inst both_run s e He) Eo) as F.
  destruct (api_run B e) as [[w|]|]; destruct o as [v|]; cbn [agrees Ropt] in F; try contradiction; [|reflexivity]. cbn [option_map]. rewrite (values_of s v w F). reflexivity.
Qed.
Theorem field_traces : forall s (e e' : api s), api_ok e -> api_ok e' -> same_calls any s e e' ->
  (fst (field_run B e) = fst (field_run B e') <-> decisions B e = decisions B e') /\
  (decisions B e = decisions B e' -> exists o o', snd (field_run B e) = Ok o /\ snd (field_run B e') = Ok o' /\ option_map field_shapes o = option_map field_shapes o').
Proof.
  intros s e e' He He' H. destruct (inst2 both_traces s e e' He He' H) as (T & G). split; [exact T|]. intro Hd. destruct (G Hd) as (o & o' & Eo & Eo' & R). exists o, o'. split; [exact Eo|]. split; [exact Eo'|].
  destruct o as [v|], o' as [w|]; cbn [Ropt] in R; try contradiction; [|reflexivity]. cbn [option_map]. rewrite (shapes_of s v w R). reflexivity.
Qed.
Theorem field_decisions : forall s (e e' : api s), api_ok e -> api_ok e' -> same_calls (alike B) s e e' -> decisions B e = decisions B e'.
Proof. intros s e e' He He' H. exact (inst2 both_decisions s e e' H He He'). Qed.
Theorem field_alike : forall s (e e' : api s), api_ok e -> api_ok e' -> same_calls (alike B) s e e' ->
  exists t o o', field_run B e = (t, Ok o) /\ field_run B e' = (t, Ok o') /\ option_map field_shapes o = option_map field_shapes o'.
Proof.
  intros s e e' He He' H. pose proof (field_decisions s e e' He He' H) as Hd. destruct (field_traces s e e' He He' (any_calls _ _ _ _ H)) as (T & G).
  destruct (G Hd) as (o & o' & Eo & Eo' & R). exists (fst (field_run B e)), o, o'. split; [rewrite <- Eo; apply surjective_pairing|]. split; [|exact R].
  rewrite (proj2 T Hd), <- Eo'. apply surjective_pairing.
Qed.
End Field.

(** ** Words as steps *)
Lemma word_shapes_of : forall s (v w : val words s), Rval _ _ (two word_op) words words Rwords s v w -> word_shapes v = word_shapes w.
Proof. intros s v w H. pose proof (coords_of word_op words Rwords s v w H) as G. unfold word_shapes. induction G as [|x y l l' E _ IH]; [reflexivity|]. cbn [map]. rewrite IH, (map_snd_shape _ _ E). reflexivity. Qed.
Lemma word_values_of : forall s (v : val words s) (w : val u32_backend s), Rval _ _ (quiet word_op) words u32_backend Rlimbs s v w -> word_values v = w.
Proof.
  intros s v w. unfold word_values. destruct s; cbn [Rval map_val]; unfold Red, Reda, Rtw, Rxt, Rpn, Rpm, Rlimbs.
  - intro H. exact H.
  - destruct w. cbn. intros (E1 & E2 & E3 & E4). rewrite (map_fst_plain _ _ E1), (map_fst_plain _ _ E2), (map_fst_plain _ _ E3), (map_fst_plain _ _ E4). reflexivity.
  - destruct w. cbn. intros (E1 & E2). rewrite (map_fst_plain _ _ E1), (map_fst_plain _ _ E2). reflexivity.
  - intro H. induction H as [|P Q l l' (E1 & E2 & E3 & E4) H IH]; [reflexivity|]. cbn [map]. rewrite IH, (map_fst_plain _ _ E1), (map_fst_plain _ _ E2), (map_fst_plain _ _ E3), (map_fst_plain _ _ E4).
    destruct Q. reflexivity.
  - destruct w. cbn. intros (E1 & E2 & E3 & E4). rewrite (map_fst_plain _ _ E1), (map_fst_plain _ _ E2), (map_fst_plain _ _ E3), (map_fst_plain _ _ E4). reflexivity.
  - destruct w. cbn. intros (E1 & E2 & E3 & E4 & E5). rewrite (map_fst_plain _ _ E1), (map_fst_plain _ _ E2), (map_fst_plain _ _ E3), (map_fst_plain _ _ E4), (map_fst_plain _ _ E5). reflexivity.
  - destruct w. cbn. intros (E1 & E2 & E3 & E4). rewrite (map_fst_plain _ _ E1), (map_fst_plain _ _ E2), (map_fst_plain _ _ E3), (map_fst_plain _ _ E4). reflexivity.
  - destruct w. cbn. intros (E1 & E2). rewrite (map_fst_plain _ _ E1), (map_fst_plain _ _ E2). reflexivity.
  - destruct w. cbn. intros (E1 & E2 & E3 & E4). rewrite (map_fst_plain _ _ E1), (map_fst_plain _ _ E2), (map_fst_plain _ _ E3), (map_fst_plain _ _ E4). reflexivity.
  - destruct w. cbn. intros (E1 & E2 & E3 & E4). rewrite (map_fst_plain _ _ E1), (map_fst_plain _ _ E2), (map_fst_plain _ _ E3), (map_fst_plain _ _ E4). reflexivity.
Qed.
Section Words.
Local Notation B := u32_backend.
Local Notation inst f := (f word_op B shipped_u32 words words_machine Rlimbs Wplain words_quiet (fun c => eq_refl) words_canonical).
Lemma Rwords_refl : forall a, Rwords a a. Proof. intro a. apply F2_refl. reflexivity. Qed.
Local Notation inst2 f := (inst f Rwords Rwords_refl Wshape words_two (fun b b' _ _ => canonical_two b b')).
Theorem word_branches : forall s (e : api s), api_ok e -> branches (fst (word_run e)) = decisions B e.
Proof. intros s e He. exact (proj1 (inst both_run s e He)). Qed.
Theorem word_result : forall s (e : api s), api_ok e -> exists o, snd (word_run e) = Ok o /\ api_run B e = Ok (option_map word_values o).
Proof.
  intros s e He. destruct (inst both_returns s e He) as (o & Eo). exists o. split; [exact Eo|]. pose proof (follows_ok (inst both_run s e He) Eo) as F.
  destruct (api_run B e) as [[w|]|]; destruct o as [v|]; cbn [agrees Ropt] in F; try contradiction; [|reflexivity]. cbn [option_map]. rewrite (word_values_of s v w F). reflexivity.
Qed.
Theorem word_traces : forall s (e e' : api s), api_ok e -> api_ok e' -> same_calls any s e e' ->
  (fst (word_run e) = fst (word_run e') <-> decisions B e = decisions B e') /\
  (decisions B e = decisions B e' -> exists o o', snd (word_run e) = Ok o /\ snd (word_run e') = Ok o' /\ option_map word_shapes o = option_map word_shapes o').
Proof.
  intros s e e' He He' H. destruct (inst2 both_traces s e e' He He' H) as (T & G). split; [exact T|]. intro Hd. destruct (G Hd) as (o & o' & Eo & Eo' & R). exists o, o'. split; [exact Eo|]. split; [exact Eo'|].
  destruct o as [v|], o' as [w|]; cbn [Ropt] in R; try contradiction; [|reflexivity]. cbn [option_map]. rewrite (word_shapes_of s v w R). reflexivity.
Qed.
Theorem word_alike : forall s (e e' : api s), api_ok e -> api_ok e' -> same_calls (alike B) s e e' ->
  exists t o o', word_run e = (t, Ok o) /\ word_run e' = (t, Ok o') /\ option_map word_shapes o = option_map word_shapes o'.
Proof.
  intros s e e' He He' H. pose proof (field_decisions B shipped_u32 s e e' He He' H) as Hd. destruct (word_traces s e e' He He' (any_calls _ _ _ _ H)) as (T & G).
  destruct (G Hd) as (o & o' & Eo & Eo' & R). exists (fst (word_run e)), o, o'. split; [rewrite <- Eo; apply surjective_pairing|]. split; [|exact R].
  rewrite (proj2 T Hd), <- Eo'. apply surjective_pairing.
Qed.
End Words.

(** ** Functions that take secrets, on any coordinates *)
Lemma same_steps_of : forall E A (x y : run (tracing E) A) C (sh : A -> C) (R : A -> A -> Prop) (A' : Type) (Q Q' : A -> A' -> Prop) z z',
  rl (quiet E) Q x z -> rl (quiet E) Q' y z' -> rl (two E) R x y -> (forall a a', R a a' -> sh a = sh a') -> same_steps sh x y.
Proof.
  intros E A x y C sh R A' Q Q' z z' (Bx & _) (By & _) H G. split; [exact Bx|]. split; [exact By|]. intros r r' Er Er'.
  destruct (H r r' Er Er' [] []) as (T & K); [rewrite Bx, By; reflexivity|]. split; [exact T|]. apply G. exact K.
Qed.
Definition hd_eq {A} {x y : A} {l l'} (H : x :: l = y :: l') : x = y := match H in _ = r return x = hd x r with eq_refl => eq_refl end.
Definition tl_eq {A} {x y : A} {l l'} (H : x :: l = y :: l') : l = l' := match H in _ = r return l = tl r with eq_refl => eq_refl end.
Section FieldFunctions.
Variable B : backend.
Notation T := (tracing operation).
Notation O := (tagged B).
Notation K := (field_machine B).
Notation p2 f := (f _ _ (two operation) O O K K Rshape (fun _ _ => True) (field_two B B)).
Notation pq f := (f _ _ (quiet operation) O B K (plain_machine B) Rplain eq (field_quiet B)).
Lemma Red_of : forall P Q : EdPoint O, field_shapes (s := TEd) P = field_shapes (s := TEd) Q -> Red O O Rshape P Q.
Proof. intros P Q H. unfold field_shapes in H. cbn [coords map] in H. exact (conj (hd_eq H) (conj (hd_eq (tl_eq H)) (conj (hd_eq (tl_eq (tl_eq H))) (hd_eq (tl_eq (tl_eq (tl_eq H))))))). Qed.
Lemma Rtw_of : forall P Q : TwPoint O, field_shapes (s := TTw) P = field_shapes (s := TTw) Q -> Rtw O O Rshape P Q.
Proof. intros P Q H. unfold field_shapes in H. cbn [coords map] in H. exact (conj (hd_eq H) (conj (hd_eq (tl_eq H)) (conj (hd_eq (tl_eq (tl_eq H))) (hd_eq (tl_eq (tl_eq (tl_eq H))))))). Qed.
Lemma Red_q : forall P : EdPoint O, Red O B Rplain P (field_values (s := TEd) P). Proof. intro P. repeat split. Qed.
Lemma Rtw_q : forall P : TwPoint O, Rtw O B Rplain P (field_values (s := TTw) P). Proof. intro P. repeat split. Qed.
Lemma sc2 : forall t t', is_scalar t -> is_scalar t' -> Rby _ _ (two operation) 14 t t'. Proof. intros t t' (H & _) (H' & _). exact (conj I (conj H H')). Qed.
Lemma scq : forall t, is_scalar t -> Rby _ _ (quiet operation) 14 t t. Proof. intros t (H & _). exact (conj eq_refl (conj H H)). Qed.
Theorem field_ed_mul : forall (P P' : EdPoint O) t t', field_shapes (s := TEd) P = field_shapes (s := TEd) P' -> is_scalar t -> is_scalar t' ->
  same_steps (field_shapes (s := TEd)) (ed_scalar_mulS T O K P t) (ed_scalar_mulS T O K P' t').
Proof.
  intros P P' t t' H Ht Ht'. exact (same_steps_of _ _ _ _ _ _ _ _ _ _ _ _ (pq p_ed_scalar_mul P _ t t (Red_q P) (scq t Ht)) (pq p_ed_scalar_mul P' _ t' t' (Red_q P') (scq t' Ht'))
    (p2 p_ed_scalar_mul P P' t t' (Red_of P P' H) (sc2 t t' Ht Ht')) (shapes_of B TEd)).
Qed.
Theorem field_window_mul : forall (P P' : TwPoint O) t t', field_shapes (s := TTw) P = field_shapes (s := TTw) P' -> is_scalar t -> is_scalar t' ->
  same_steps (field_shapes (s := TTw)) (variable_baseS T O K P t) (variable_baseS T O K P' t').
Proof.
  intros P P' t t' H Ht Ht'. exact (same_steps_of _ _ _ _ _ _ _ _ _ _ _ _ (pq p_variable_base P _ t t (Rtw_q P) (scq t Ht)) (pq p_variable_base P' _ t' t' (Rtw_q P') (scq t' Ht'))
    (p2 p_variable_base P P' t t' (Rtw_of P P' H) (sc2 t t' Ht Ht')) (shapes_of B TTw)).
Qed.
Theorem field_dc_mul : forall (P P' : TwPoint O) t t', field_shapes (s := TDc) P = field_shapes (s := TDc) P' -> is_scalar t -> is_scalar t' ->
  same_steps (field_shapes (s := TDc)) (dc_mulS T O K P t) (dc_mulS T O K P' t').
Proof.
  intros P P' t t' H Ht Ht'. exact (same_steps_of _ _ _ _ _ _ _ _ _ _ _ _ (pq p_double_and_add P _ t t (Rtw_q P) (scq t Ht)) (pq p_double_and_add P' _ t' t' (Rtw_q P') (scq t' Ht'))
    (p2 p_double_and_add P P' t t' (Rtw_of P P' H) (sc2 t t' Ht Ht')) (shapes_of B TDc)).
Qed.
Theorem field_double_base : forall (P P' : TwPoint O) t t' u u', field_shapes (s := TTw) P = field_shapes (s := TTw) P' -> is_scalar t -> is_scalar t' -> is_scalar u -> is_scalar u' ->
  same_steps (field_shapes (s := TTw)) (double_base_scalar_mulS T O K t P u) (double_base_scalar_mulS T O K t' P' u').
Proof.
  intros P P' t t' u u' H Ht Ht' Hu Hu'. exact (same_steps_of _ _ _ _ _ _ _ _ _ _ _ _ (pq p_double_base P _ t t u u (Rtw_q P) (scq t Ht) (scq u Hu)) (pq p_double_base P' _ t' t' u' u' (Rtw_q P') (scq t' Ht') (scq u' Hu'))
    (p2 p_double_base P P' t t' u u' (Rtw_of P P' H) (sc2 t t' Ht Ht') (sc2 u u' Hu Hu')) (shapes_of B TTw)).
Qed.
Theorem field_ladder : forall b b' t t', bytes 56 b -> bytes 56 b' -> is_scalar t -> is_scalar t' -> same_steps (fun _ => tt) (mp_mulS T O K b t) (mp_mulS T O K b' t').
Proof.
  intros b b' t t' Hb Hb' Ht Ht'. exact (same_steps_of _ _ _ _ _ (fun _ => tt) _ _ _ _ _ _ (pq p_mp_mul b b t t (conj eq_refl (conj (proj1 Hb) (proj1 Hb))) (scq t Ht)) (pq p_mp_mul b' b' t' t' (conj eq_refl (conj (proj1 Hb') (proj1 Hb'))) (scq t' Ht'))
    (p2 p_mp_mul b b' t t' (conj I (conj (proj1 Hb) (proj1 Hb'))) (sc2 t t' Ht Ht')) (fun _ _ _ => eq_refl)).
Qed.
End FieldFunctions.
