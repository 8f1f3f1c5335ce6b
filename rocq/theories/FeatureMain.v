(** Proofs for C84 (statements are repeated in PropsFeatures.v). *)
Require Import List Bool String.
From Verif Require Import Base FieldBackend FieldFiatModel Backends FeatureModel SpecFeatures ApiExpr ApiRun.
Import ListNotations.
Open Scope string_scope.

Lemma on_In : forall rs f, on rs f = true <-> In f (features rs).
Proof.
  intros rs f. unfold on. rewrite existsb_exists. split.
  - intros (g & I & E). apply internal_feature_dec_bl in E. subst. exact I.
  - intro I. exists f. split; [exact I|]. apply internal_feature_dec_lb. reflexivity.
Qed.

Lemma asked_In : forall rs f, In f (asked rs) <->
  (exists r, In r rs /\ In f (named r)) \/ (f = F_default /\ exists r, In r rs /\ default_features r = true).
Proof.
  intros rs f. unfold asked. rewrite in_flat_map. split.
  - intros (r & I & J). destruct (default_features r) eqn:E; [destruct J as [<-|J]|]; eauto 6.
  - intros [(r & I & J)|(-> & r & I & J)]; exists r; (split; [exact I|]).
    + destruct (default_features r); [right|]; exact J.
    + rewrite J. left. reflexivity.
Qed.

Lemma once_In : forall l f, In f (once l) <-> In f l \/ exists g, In g l /\ In f (implies g).
Proof. intros l f. unfold once. rewrite in_app_iff, in_flat_map. reflexivity. Qed.

(** A third step adds nothing. *)
Lemma closed : forall rs f g, In f (features rs) -> In g (implies f) -> In g (features rs).
Proof.
  intros rs f g H K. unfold features in *. apply once_In in H as [H|(h & H & L)].
  - apply once_In. right. exists f. split; assumption.
  - assert (H2 : In h (asked rs) \/ implies f = []).
    { apply once_In in H as [H|(k & H & M)]; [left; exact H|right].
      destruct k; cbn in M; try tauto; destruct M as [<-|[]]; cbn in L; try tauto; destruct L as [<-|[]]; reflexivity. }
    destruct H2 as [H2|E]; [|rewrite E in K; destruct K].
    apply once_In. right. exists f. split; [|exact K]. apply once_In. right. exists h. split; assumption.
Qed.

Lemma on_enabled : forall rs f, on rs f = true <-> enabled rs f.
Proof.
  intros rs f. rewrite on_In. split.
  - assert (A : forall f, In f (asked rs) -> enabled rs f).
    { intros g H. apply asked_In in H as [(r & I & J)|(-> & r & I & J)].
      - exact (enabled_named rs r g I J).
      - exact (enabled_default rs r I J). }
    assert (O : forall l, (forall f, In f l -> enabled rs f) -> forall f, In f (once l) -> enabled rs f).
    { intros l Hl g H. apply once_In in H as [H|(h & H & K)]; [apply Hl; exact H|].
      exact (enabled_implied rs h g (Hl _ H) K). }
    intro H. exact (O _ (O _ A) f H).
  - induction 1 as [r f I J|r I J|f g E IH K].
    + unfold features. apply once_In. left. apply once_In. left. apply asked_In. left. eauto.
    + unfold features. apply once_In. left. apply once_In. left. apply asked_In. right. eauto.
    + exact (closed _ _ _ IH K).
Qed.

Lemma enabled_u32 : forall rs, enabled rs F_u32_backend <-> exists r, In r rs /\ In F_u32_backend (named r).
Proof.
  intro rs. split.
  - intro H. inversion H as [r f I J| |f g E K]; subst; [eauto|]. destruct f; cbn in K; intuition discriminate.
  - intros (r & I & J). exact (enabled_named rs r _ I J).
Qed.

Lemma enabled_fiat : forall rs, enabled rs F_fiat_u64_backend <->
  exists r, In r rs /\ (default_features r = true \/ In F_default (named r) \/ In F_fiat_u64_backend (named r)).
Proof.
  intro rs. split.
  - intro H. inversion H as [r f I J| |f g E K]; subst; [eauto 6|].
    destruct f; cbn in K; try (intuition discriminate).
    inversion E as [r f I J|r I J|f g E2 K2]; subst; [eauto 6|eauto 6|]. destruct f; cbn in K2; intuition discriminate.
  - intros (r & I & [J|[J|J]]).
    + apply (enabled_implied rs F_default); [exact (enabled_default rs r I J)|left; reflexivity].
    + apply (enabled_implied rs F_default); [exact (enabled_named rs r _ I J)|left; reflexivity].
    + exact (enabled_named rs r _ I J).
Qed.

Lemma enabled_leaf : forall rs f, f = F_rand \/ f = F_zeroize -> (enabled rs f <-> exists r, In r rs /\ In f (named r)).
Proof.
  intros rs f Hf. split.
  - intro H. inversion H as [r g I J|r I J Q|g h E K]; subst; [eauto|destruct Hf; discriminate|].
    destruct g; cbn in K; destruct Hf; subst; intuition discriminate.
  - intros (r & I & J). exact (enabled_named rs r _ I J).
Qed.

(** ** What is compiled *)
Section Ext.
Variables o o' : feature -> bool.
Hypothesis E : forall f, o f = o' f.
Lemma ext_all : forall l, forallb o l = forallb o' l.
Proof. induction l; [reflexivity|]. cbn. rewrite E, IHl. reflexivity. Qed.
Lemma ext_active : active_in o = active_in o'.
Proof. unfold active_in. apply filter_ext. intro i. apply ext_all. Qed.
Lemma ext_definitions : forall n, definitions_in o n = definitions_in o' n.
Proof. intro n. unfold definitions_in. rewrite ext_active. reflexivity. Qed.
Lemma ext_resolves : resolves_in o = resolves_in o'.
Proof.
  unfold resolves_in. rewrite ext_active. generalize (active_in o'). induction l as [|i l IH]; [reflexivity|].
  cbn [forallb]. rewrite IH, ext_all. do 2 f_equal. induction (uses i) as [|n u IHu]; [reflexivity|].
  cbn [forallb]. rewrite ext_definitions, IHu. reflexivity.
Qed.
End Ext.

Definition table (b1 b2 b3 b4 b5 b6 b7 : bool) (f : feature) : bool :=
  match f with
  | F_default => b1 | F_fiat_u64_backend => b2 | F_u32_backend => b3 | F_rand => b4
  | F_fiat_crypto => b5 | F_rand_core => b6 | F_zeroize => b7
  end.
Lemma table_of : forall (o : feature -> bool) f,
  o f = table (o F_default) (o F_fiat_u64_backend) (o F_u32_backend) (o F_rand) (o F_fiat_crypto) (o F_rand_core) (o F_zeroize) f.
Proof. intros o f. destruct f; reflexivity. Qed.

Lemma table_resolves : forall b1 b2 b3 b4 b5 b6 b7,
  implb (implb b2 b5 && implb b4 b6) (Bool.eqb (resolves_in (table b1 b2 b3 b4 b5 b6 b7)) (xorb b2 b3)) = true.
Proof. intros [] [] [] [] [] [] []; vm_compute; reflexivity. Qed.
Lemma table_mono : forall b1 b2 b3 b4 b5 b6 b7, implb b2 b5 = true -> implb b4 b6 = true ->
  resolves_in (table b1 b2 b3 b4 b5 b6 b7) = xorb b2 b3.
Proof.
  intros b1 b2 b3 b4 b5 b6 b7 H1 H2. pose proof (table_resolves b1 b2 b3 b4 b5 b6 b7) as T. rewrite H1, H2 in T.
  apply eqb_prop. exact T.
Qed.
Lemma table_has : forall b1 b2 b3 b4 b5 b6 b7,
  Nat.eqb (definitions_in (table b1 b2 b3 b4 b5 b6 b7) "Scalar::random") 1 = b4 /\
  Nat.eqb (definitions_in (table b1 b2 b3 b4 b5 b6 b7) "MontgomeryPoint::zeroize") 1 = b7.
Proof. intros [] [] [] [] [] [] []; split; vm_compute; reflexivity. Qed.

Lemma on_implied : forall rs f g, In g (implies f) -> implb (on rs f) (on rs g) = true.
Proof.
  intros rs f g I. destruct (on rs f) eqn:E; [|reflexivity]. cbn. apply on_enabled. apply on_enabled in E.
  exact (enabled_implied rs f g E I).
Qed.

Lemma resolves_xor : forall rs, resolves rs = xorb (on rs F_fiat_u64_backend) (on rs F_u32_backend).
Proof.
  intro rs. unfold resolves. rewrite (ext_resolves _ _ (table_of (on rs))).
  apply table_mono; apply on_implied; left; reflexivity.
Qed.

Theorem builds : forall rs, resolves rs = true <->
  (enabled rs F_fiat_u64_backend /\ ~ enabled rs F_u32_backend) \/ (enabled rs F_u32_backend /\ ~ enabled rs F_fiat_u64_backend).
Proof.
  intro rs. rewrite resolves_xor, <- !on_enabled.
  destruct (on rs F_fiat_u64_backend), (on rs F_u32_backend); cbn; intuition congruence.
Qed.

Theorem builds_asked : forall rs, resolves rs = true <->
  ((exists r, In r rs /\ In F_u32_backend (named r)) <->
   (forall r, In r rs -> default_features r = false /\ ~ In F_default (named r) /\ ~ In F_fiat_u64_backend (named r))).
Proof.
  intro rs. rewrite builds, enabled_u32, enabled_fiat.
  set (A := exists r, In r rs /\ In F_u32_backend (named r)).
  set (C := exists r, In r rs /\ (default_features r = true \/ In F_default (named r) \/ In F_fiat_u64_backend (named r))).
  assert (N : (forall r, In r rs -> default_features r = false /\ ~ In F_default (named r) /\ ~ In F_fiat_u64_backend (named r)) <-> ~ C).
  { split.
    - intros H (r & I & K). destruct (H r I) as (H1 & H2 & H3). rewrite H1 in K. intuition congruence.
    - intros H r I. split; [|split].
      + destruct (default_features r) eqn:E; [|reflexivity]. exfalso. apply H. exists r. auto.
      + intro K. apply H. exists r. auto.
      + intro K. apply H. exists r. auto. }
  rewrite N.
  assert (DA : A \/ ~ A).
  { destruct (on rs F_u32_backend) eqn:E; [left; apply enabled_u32, on_enabled, E|right].
    intro H. apply (proj2 (enabled_u32 rs)), (proj2 (on_enabled _ _)) in H. congruence. }
  assert (DC : C \/ ~ C).
  { destruct (on rs F_fiat_u64_backend) eqn:E; [left; apply enabled_fiat, on_enabled, E|right].
    intro H. apply (proj2 (enabled_fiat rs)), (proj2 (on_enabled _ _)) in H. congruence. }
  tauto.
Qed.

Theorem optional_items : forall rs,
  (has rs "Scalar::random" = true <-> exists r, In r rs /\ In F_rand (named r)) /\
  (has rs "MontgomeryPoint::zeroize" = true <-> exists r, In r rs /\ In F_zeroize (named r)).
Proof.
  intro rs. unfold has. rewrite !(ext_definitions _ _ (table_of (on rs))).
  destruct (table_has (on rs F_default) (on rs F_fiat_u64_backend) (on rs F_u32_backend) (on rs F_rand) (on rs F_fiat_crypto)
    (on rs F_rand_core) (on rs F_zeroize)) as [-> ->].
  rewrite !on_enabled. split; apply enabled_leaf; auto.
Qed.

Lemma backend_shipped : forall P, fiat_contract P -> forall rs, shipped (backend_of P rs).
Proof. intros P H rs. unfold backend_of. destruct (on rs F_u32_backend); [exact shipped_u32|exact (shipped_fiat P H)]. Qed.

Theorem builds_agree : forall P, fiat_contract P -> forall rs rs', resolves rs = true -> resolves rs' = true ->
  forall d (e : api (TData d)), api_ok e -> exists o, api_run (backend_of P rs) e = Ok o /\ api_run (backend_of P rs') e = Ok o.
Proof. intros P H rs rs' _ _. apply api_backends; apply backend_shipped; exact H. Qed.

Theorem not_additive : exists r r', resolves [r] = true /\ resolves [r'] = true /\ resolves [r; r'] = false /\
  r = {| default_features := true; named := [] |} /\ r' = {| default_features := false; named := [F_u32_backend] |}.
Proof.
  exists {| default_features := true; named := [] |}, {| default_features := false; named := [F_u32_backend] |}.
  repeat split; vm_compute; reflexivity.
Qed.
