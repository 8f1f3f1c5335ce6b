(** Every program over the Edwards API runs without panicking and computes its meaning. *)
Require Import ZArith List Bool Lia Ring Field.
From Verif Require Import Base BaseProofs SpecParams SpecField SpecCurve SpecEncoding FieldTheory FieldBackend BackendLaws Wp
  ScalarModel EdwardsTheory CurveTheory TwistedModel EdwardsModel PointSpec EdSigns EdwardsProofs EdwardsExpr.
Import ListNotations.
Open Scope F_scope.
Open Scope res_scope.
Local Opaque fadd fsub fmul fopp fdiv finv fpow of_Z padd pmul G pzero ed_decode.

(** ** The square root and the decoder of the specification *)
Lemma fsqrt_ok : forall x, is_square x -> fsqrt x * fsqrt x = x.
Proof.
  intros x S. change (fsqrt x) with (fpow x quarter_p). rewrite quarter_root. destruct (F_eq_dec x 0) as [->|N]; [ring|].
  rewrite (proj2 (chi_square x)) by auto. ring.
Qed.
Lemma fsqrt_iff : forall x, feqb (fsqrt x * fsqrt x) x = true <-> is_square x.
Proof. intro x. rewrite feqb_eq. split; [intro E; exists (fsqrt x); exact E|apply fsqrt_ok]. Qed.

Lemma some_pair : forall (A C : Type) (a a' : A) (c c' : C), Some (a, c) = Some (a', c') -> a = a' /\ c = c'.
Proof. intros A C a a' c c' E. injection E. auto. Qed.
Lemma some_none : forall (A : Type) (a : A), Some a = None -> False. Proof. discriminate. Qed.
Local Transparent ed_decode.
Lemma ed_decode_some : forall b x y, ed_decode b = Some (x, y) <->
  on_ed (x, y) /\ y = of_Z (le_val (firstn 56 b)) /\ (x <> 0 -> fodd x = (128 <=? nth 56 b 0%Z)%Z).
Proof.
  intros b x y. unfold ed_decode. set (y0 := of_Z (le_val (firstn 56 b))). set (xx := (1 - y0 * y0) / (1 - ed_d * (y0 * y0))).
  set (s := (128 <=? nth 56 b 0%Z)%Z). destruct (feqb (fsqrt xx * fsqrt xx) xx) eqn:E.
  - apply fsqrt_iff in E. pose proof (fsqrt_ok xx E) as R. set (r := fsqrt xx) in *.
    assert (Or : on_ed (r, y0)) by (apply on_ed_solved; exact R).
    set (r' := if Bool.eqb (fodd r) s then r else - r).
    assert (Or' : on_ed (r', y0)). { unfold r'. destruct (Bool.eqb _ _); [exact Or|]. exact (on_curve_neg _ _ (r, y0) Or). }
    assert (Sr' : r' <> 0 -> fodd r' = s).
    { unfold r'. destruct (Bool.eqb (fodd r) s) eqn:Q; [intros _; apply eqb_prop; exact Q|]. intro N.
      rewrite fodd_opp by (intro Z; apply N; rewrite Z; ring). apply eqb_false_iff in Q. destruct (fodd r), s; auto; contradiction. }
    split.
    + intro X. apply some_pair in X. destruct X as [<- <-]. auto.
    + intros (O & -> & S). apply (f_equal Some). apply pt_eq; [|reflexivity].
      destruct (F_eq_dec x 0) as [Zx|Nx].
      * subst x. destruct (on_ed_same_y _ _ _ Or' O) as [X|X]; rewrite X; [reflexivity|ring].
      * destruct (F_eq_dec r' 0) as [Zr|Nr].
        -- rewrite Zr in *. destruct (on_ed_same_y _ _ _ Or' O) as [X|X]; [exact X|]. exfalso. apply Nx. apply fopp_0_iff. symmetry. exact X.
        -- apply (on_ed_same_sign _ _ y0); [exact Or'|exact O|]. rewrite Sr', S by assumption. reflexivity.
  - split; [discriminate|]. intros (O & -> & _). exfalso. assert (is_square xx) as Q by (apply on_ed_exists; exists x; exact O).
    apply fsqrt_iff in Q. congruence.
Qed.
Lemma ed_decode_none : forall b, ed_decode b = None <-> forall x, ~ on_ed (x, of_Z (le_val (firstn 56 b))).
Proof.
  intro b. unfold ed_decode. set (y0 := of_Z (le_val (firstn 56 b))). set (xx := (1 - y0 * y0) / (1 - ed_d * (y0 * y0))).
  destruct (feqb (fsqrt xx * fsqrt xx) xx) eqn:E.
  - split; [intro X; exfalso; exact (some_none _ _ X)|]. intro H. exfalso. apply fsqrt_iff in E. apply on_ed_exists in E. destruct E as [x E]. exact (H x E).
  - split; [|reflexivity]. intros _ x O. assert (is_square xx) as Q by (apply on_ed_exists; exists x; exact O).
    apply fsqrt_iff in Q. congruence.
Qed.
Local Opaque ed_decode.

Section EdexpInd.
Variable Q : edexp -> Prop.
Hypotheses (h1 : Q EIdentity) (h2 : Q EGenerator) (h3 : forall b, Q (EDecompress b))
  (h4 : forall x y, Q x -> Q y -> Q (EAdd x y)) (h5 : forall x y, Q x -> Q y -> Q (ESub x y))
  (h6 : forall x, Q x -> Q (ENeg x)) (h7 : forall x, Q x -> Q (EDouble x)) (h8 : forall x, Q x -> Q (ETorque x))
  (h9 : forall x s, Q x -> Q (EMul x s)) (h10 : forall l, Forall Q l -> Q (ESum l))
  (h11 : forall x y c, Q x -> Q y -> Q (ESelect x y c)).
Fixpoint edexp_ind' (e : edexp) : Q e :=
  match e with
  | EIdentity => h1 | EGenerator => h2 | EDecompress b => h3 b
  | EAdd x y => h4 x y (edexp_ind' x) (edexp_ind' y) | ESub x y => h5 x y (edexp_ind' x) (edexp_ind' y)
  | ENeg x => h6 x (edexp_ind' x) | EDouble x => h7 x (edexp_ind' x) | ETorque x => h8 x (edexp_ind' x)
  | EMul x s => h9 x s (edexp_ind' x)
  | ESum l => h10 l ((fix go l := match l return Forall Q l with [] => Forall_nil Q | x :: l' => Forall_cons x (edexp_ind' x) (go l') end) l)
  | ESelect x y c => h11 x y c (edexp_ind' x) (edexp_ind' y)
  end.
End EdexpInd.

Section Run.
Variable B : backend.
Hypothesis L : laws B.
Definition orep (o : option (EdPoint B)) (q : option point) : Prop :=
  match o, q with Some P, Some Q => ed_rep B P Q | None, None => True | _, _ => False end.

Lemma obind_ok : forall A C (x : res (option A)) (f : A -> res (option C)) (R : A -> Prop) (q : bool) (Post : option C -> Prop),
  okp x (fun o => match o with Some a => q = true /\ R a | None => q = false end) ->
  (q = false -> Post None) -> (q = true -> forall a, R a -> okp (f a) Post) -> okp (obind x f) Post.
Proof.
  intros A C x f R q Post (o & -> & H) N S. unfold obind. destruct o as [a|].
  - destruct H as [-> H]. apply S; auto.
  - exists None. auto.
Qed.
Lemma obind_rep : forall C x q (f : EdPoint B -> res (option C)) (Post : option C -> Prop), okp x (fun o => orep o q) ->
  (q = None -> Post None) -> (forall Q P, q = Some Q -> ed_rep B P Q -> okp (f P) Post) -> okp (obind x f) Post.
Proof.
  intros C x q f Post (o & -> & H) N S. unfold obind. destruct o as [P|], q as [Q|]; cbn in H; try contradiction.
  - apply (S Q); auto.
  - exists None. auto.
Qed.
Lemma osome_ok : forall x Q, okp x (fun P => ed_rep B P Q) -> okp (osome x) (fun o => orep o (Some Q)).
Proof. intros x Q H. unfold osome. eapply okp_bind; [exact H|]. intros P HP. apply okp_ret. exact HP. Qed.

Ltac un H := apply (obind_rep _ _ _ _ _ H); [let E := fresh in intro E; rewrite E; exact I|];
  let E := fresh "E" in intros ? ? E ?; rewrite E; cbn [omap].
Ltac bin H1 H2 := apply (obind_rep _ _ _ _ _ H1); [let E := fresh in intro E; rewrite E; exact I|];
  let E1 := fresh "E" in intros ? ? E1 ?; rewrite E1;
  apply (obind_rep _ _ _ _ _ H2); [let E := fresh in intro E; rewrite E; exact I|];
  let E2 := fresh "E" in intros ? ? E2 ?; rewrite E2; cbn [omap2].

Definition sum_val : list edexp -> option point :=
  fix sum l := match l with [] => Some pzero | x :: l' => omap2 (padd ed_a ed_d) (edexp_val x) (sum l') end.
Lemma fold_sum : forall ql A, Forall on_ed ql -> on_ed A ->
  fold_left (padd ed_a ed_d) ql A = padd ed_a ed_d A (fold_right (padd ed_a ed_d) pzero ql) /\ on_ed (fold_right (padd ed_a ed_d) pzero ql).
Proof.
  induction ql as [|q ql IH]; intros A H HA; cbn [fold_left fold_right].
  - rewrite padd_0_r. split; [reflexivity|apply on_curve_zero].
  - apply Forall_cons_iff in H. destruct H as [Hq H]. assert (HAq : on_ed (padd ed_a ed_d A q)) by (apply (eg_add _ _ _ ed_group); assumption).
    destruct (IH _ H HAq) as [E O]. rewrite E. split; [apply (g_assoc _ _ _ ed_group); assumption|].
    apply (eg_add _ _ _ ed_group); assumption.
Qed.
Lemma sum_right : forall P ql, Forall2 (ed_rep B) P ql -> psum ql = fold_right (padd ed_a ed_d) pzero ql.
Proof.
  intros P ql H. unfold psum. rewrite (proj1 (fold_sum ql pzero ltac:(induction H; constructor; [eapply ed_rep_on; eassumption|assumption]) (on_curve_zero _ _))).
  apply padd_0_l.
Qed.
Lemma oseq_ok : forall l, Forall (fun e => edexp_ok e -> okp (edexp_run B e) (fun o => orep o (edexp_val e))) l -> edexp_ok (ESum l) ->
  okp (oseq B (edexp_run B) l) (fun o => match o with
    | Some ps => exists ql, Forall2 (ed_rep B) ps ql /\ sum_val l = Some (fold_right (padd ed_a ed_d) pzero ql)
    | None => sum_val l = None end).
Proof.
  induction 1 as [|e l He _ IH]; intro Hok.
  - apply okp_ret. exists []. split; [constructor|reflexivity].
  - destruct Hok as [Oe Ol]. cbn [oseq sum_val]. apply (obind_rep _ _ _ _ _ (He Oe)); [intro E; rewrite E; reflexivity|]. intros Q P E HP. rewrite E.
    fold (oseq B (edexp_run B)) (sum_val). destruct (IH Ol) as ([ps|] & -> & K); cbn [obind].
    + destruct K as (ql & F2 & Es). apply okp_ret. exists (Q :: ql). split; [constructor; assumption|]. rewrite Es. reflexivity.
    + apply okp_ret. rewrite K. reflexivity.
Qed.

Theorem edexp_run_ok : forall e, edexp_ok e -> okp (edexp_run B e) (fun o => orep o (edexp_val e)).
Proof.
  apply (edexp_ind' (fun e => edexp_ok e -> okp (edexp_run B e) (fun o => orep o (edexp_val e)))).
  - intros _. apply okp_ret. apply (ed_identity_rep B L).
  - intros _. apply okp_ret. apply (ed_generator_rep B L).
  - intros b Hb. cbn [edexp_ok edexp_run edexp_val] in *. destruct (ed_decompress_ok B L b Hb) as [(P & x & -> & HP & S)|[-> N]]; apply okp_ret.
    + rewrite (proj2 (ed_decode_some b x (of_Z (le_val (firstn 56 b))))); [exact HP|]. split; [exact (ed_rep_on B _ _ HP)|]. auto.
    + rewrite (proj2 (ed_decode_none b) N). exact I.
  - intros x y Hx Hy [Ox Oy]. cbn [edexp_run edexp_val]. bin (Hx Ox) (Hy Oy). apply osome_ok. apply (ed_add_ok B L); assumption.
  - intros x y Hx Hy [Ox Oy]. cbn [edexp_run edexp_val]. bin (Hx Ox) (Hy Oy). apply osome_ok. apply (ed_sub_ok B L); assumption.
  - intros x Hx Ox. cbn [edexp_run edexp_val]. un (Hx Ox). apply osome_ok. apply (ed_negate_ok B L); assumption.
  - intros x Hx Ox. cbn [edexp_run edexp_val]. un (Hx Ox). apply osome_ok. apply (ed_double_ok B L); assumption.
  - intros x Hx Ox. cbn [edexp_run edexp_val]. un (Hx Ox). apply osome_ok. apply (ed_torque_ok B L); assumption.
  - intros x s Hx [Ox Os]. cbn [edexp_run edexp_val]. un (Hx Ox). apply osome_ok. apply (ed_scalar_mul_ok B L); assumption.
  - intros l Hl Hok. cbn [edexp_run edexp_val]. destruct (oseq_ok l Hl Hok) as ([ps|] & -> & K); cbn [obind].
    + destruct K as (ql & F2 & Es). unfold sum_val in Es. rewrite Es. apply osome_ok. rewrite <- (sum_right _ _ F2).
      apply (ed_sum_ok B L). exact F2.
    + apply okp_ret. unfold sum_val in K. rewrite K. exact I.
  - intros x y c Hx Hy [Ox Oy]. cbn [edexp_run edexp_val]. bin (Hx Ox) (Hy Oy). apply osome_ok.
    rewrite (ed_select_ok B L _ _ _ _ c H H0). apply okp_ret. destruct c; assumption.
Qed.
End Run.
