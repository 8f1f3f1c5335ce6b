(** Every form of an operator runs the same code. *)
Require Import ZArith List Bool Lia.
From Verif Require Import Base SpecParams SpecField SpecCurve SpecEncoding SpecDecaf FieldBackend Backends BackendLaws Wp ScalarModel ScalarProofs TwistedModel EdwardsModel MontgomeryModel DecafModel
  PointSpec TwistedProofs EdwardsProofs EdwardsMain TwistedMain DecafRun EdwardsExpr ApiExpr SpecApi ApiRun ApiMeaning OpModel SpecOps.
Import ListNotations.
Local Opaque ed_add ed_negate ed_scalar_mul scalar_add scalar_sub scalar_mul dc_add dc_sub dc_neg dc_mul mp_mul
  padd pmul pneg encode_u ladder_u words_of ed_affine tw_affine.

Section Ops.
Variable B : backend.
Local Notation operand := (operand B).
Local Notation outcome := (outcome B).

(** ** The code at the end of the forwarding *)
Definition add_code (a b : operand) : outcome :=
  match a, b with
  | VEd P, VEd Q => map_ok B VEd (ed_add B P Q)
  | VDc P, VDc Q => map_ok B VDc (dc_add B P Q)
  | VSc s, VSc t => map_ok B VSc (scalar_add s t)
  | _, _ => NoImpl
  end.
Definition sub_code (a b : operand) : outcome :=
  match a, b with
  | VEd P, VEd Q => map_ok B VEd (ed_sub B P Q)
  | VDc P, VDc Q => map_ok B VDc (dc_sub B P Q)
  | VSc s, VSc t => map_ok B VSc (scalar_sub s t)
  | _, _ => NoImpl
  end.
Definition mul_code (a b : operand) : outcome :=
  match a, b with
  | VEd P, VSc s | VSc s, VEd P => map_ok B VEd (ed_scalar_mul B P s)
  | VDc P, VSc s | VSc s, VDc P => map_ok B VDc (dc_mul B P s)
  | VMt u, VSc s | VSc s, VMt u => map_ok B VMt (mp_mul B u s)
  | VSc s, VSc t => map_ok B VSc (scalar_mul s t)
  | _, _ => NoImpl
  end.
Definition neg_code (a : operand) : outcome :=
  match a with VEd P => map_ok B VEd (ed_negate B P) | VDc P => map_ok B VDc (dc_neg B P) | _ => NoImpl end.
Definition op_code (o : op) : operand -> operand -> outcome :=
  match o with Add | AddAssign => add_code | Sub | SubAssign => sub_code | Mul | MulAssign => mul_code end.
Local Notation "x >> f" := (then_ B x f) (at level 55).
Fixpoint direct (env : list operand) (e : exp) : outcome :=
  match e with
  | Var i => match nth_error env i with Some v => Ran (Ok v) | None => NoImpl end
  | Ref a | Deref a => direct env a
  | Bin o a b => direct env a >> (fun x => direct env b >> (fun y => op_code o x y))
  | Neg a | Call m_neg a | Call m_negate a => direct env a >> neg_code
  | Call2 m_add a b => direct env a >> (fun x => direct env b >> (fun y => add_code x y))
  | Call2 m_sub a b => direct env a >> (fun x => direct env b >> (fun y => sub_code x y))
  | Call2 m_scalar_mul a b => direct env a >> (fun x => direct env b >> (fun y => mul_code x y))
  | Do1 c a => direct env a >> run1 B c
  | Do2 c a b => direct env a >> (fun x => direct env b >> run2 B c x)
  | _ => NoImpl
  end.

Ltac kinds := repeat match goal with
  | v : OpModel.operand B |- _ => destruct v
  | H : kind _ = _ |- _ => first [discriminate H | clear H]
  end.
Lemma impl_code : forall o l r i, find_impl o l r = Some i -> forall x y, kind x = nom_of l -> kind y = nom_of r ->
  forall n, exec B (8 + n) [(if assigns o then Bor (nom_of (lhs i)) else lhs i); rhs i] [x; y] (body i) = op_code o x y.
Proof.
  intros o l r i F x y Kx Ky n. destruct o, l as [[]|[]], r as [[]|[]]; try discriminate F;
  injection F as <-; kinds; cbn; try reflexivity;
  unfold ed_sub; destruct (ed_negate B _); reflexivity.
Qed.
Lemma impl_code' : forall o l r i, assigns o = false -> find_impl o l r = Some i -> forall x y, kind x = nom_of l -> kind y = nom_of r ->
  forall n, exec B (8 + n) [lhs i; rhs i] [x; y] (body i) = op_code o x y.
Proof. intros o l r i A F x y Kx Ky n. rewrite <- (impl_code o l r i F x y Kx Ky n), A. reflexivity. Qed.
Lemma neg_impl_code : forall t i, find_neg t = Some i -> forall x, kind x = nom_of t -> forall n, exec B (8 + n) [neg_of i] [x] (neg_body i) = neg_code x.
Proof. intros t i F x Kx n. destruct t as [[]|[]]; try discriminate F; injection F as <-; kinds; reflexivity. Qed.
Lemma method2_code : forall m t r f, find_method2 m t = Some (Inherent2 f) -> nom_of r = arg2 f -> forall x y, kind x = nom_of t -> kind y = nom_of r ->
  (forall n, exec B (8 + n) [Bor (of2 f); Bor (arg2 f)] [x; y] (body2 f) = (match m with m_add => add_code | m_sub => sub_code | _ => mul_code end) x y) /\
  match m with m_add | m_sub | m_scalar_mul => True | _ => False end.
Proof.
  intros m t r f F E x y Kx Ky. destruct m, t as [[]|[]]; try discriminate F; cbn in F; injection F as <-; cbn in E; rewrite E in Ky;
    (split; [|exact I]); intro n; kinds; reflexivity.
Qed.
Lemma trait2_code : forall m t o t', find_method2 m t = Some (ByTrait2 o t') -> nom_of t' = nom_of t /\ assigns o = false /\
  match m with m_add => o = Add | m_sub => o = Sub | _ => False end.
Proof. intros m t o t' F. destruct m, t as [[]|[]]; try discriminate F; cbn in F; injection F as <- <-; repeat split. Qed.
Lemma method1_code : forall m t f, find_method1 m t = Some (Inherent1 f) -> forall x, kind x = nom_of t ->
  m = m_negate /\ forall n, exec B (8 + n) [Bor (of1 f)] [x] (body1 f) = neg_code x.
Proof. intros m t f F x Kx. destruct m, t as [[]|[]]; try discriminate F; cbn in F; injection F as <-; (split; [reflexivity|]); intro n; kinds; reflexivity. Qed.
Lemma trait1_code : forall m t t', find_method1 m t = Some (ByTrait1 t') -> m = m_neg /\ nom_of t' = nom_of t.
Proof. intros m t t' F. destruct m, t as [[]|[]]; try discriminate F; cbn in F; injection F as <-; split; reflexivity. Qed.

(** ** Types are kept *)
Definition of_kind (k : nom) (x : outcome) : Prop := match x with Ran (Ok v) => kind v = k | Ran Panic => True | _ => False end.
Lemma map_ok_kind : forall A (f : A -> operand) k x, (forall a, kind (f a) = k) -> of_kind k (map_ok B f x).
Proof. intros A f k [a|] H; cbn; auto. Qed.
Lemma then_kind : forall k k' x f, of_kind k x -> (forall v, kind v = k -> of_kind k' (f v)) -> of_kind k' (x >> f).
Proof. intros k k' [[v|]| |] f H K; cbn in *; auto. Qed.
Lemma op_kind : forall o l r i x y, find_impl o l r = Some i -> kind x = nom_of l -> kind y = nom_of r -> of_kind (out i) (op_code o x y).
Proof.
  intros o l r i x y F Kx Ky. destruct o, l as [[]|[]], r as [[]|[]]; try discriminate F;
  injection F as <-; kinds; apply map_ok_kind; reflexivity.
Qed.
Lemma neg_kind : forall t i x, find_neg t = Some i -> kind x = nom_of t -> of_kind (neg_out i) (neg_code x).
Proof. intros t i x F Kx. destruct t as [[]|[]]; try discriminate F; injection F as <-; kinds; apply map_ok_kind; reflexivity. Qed.
Lemma method2_kind : forall m t r f x y, find_method2 m t = Some (Inherent2 f) -> nom_of r = arg2 f -> kind x = nom_of t -> kind y = nom_of r ->
  of_kind (out2 f) ((match m with m_add => add_code | m_sub => sub_code | _ => mul_code end) x y).
Proof.
  intros m t r f x y F E Kx Ky. destruct m, t as [[]|[]]; try discriminate F; cbn in F; injection F as <-; cbn in E; rewrite E in Ky;
    kinds; apply map_ok_kind; reflexivity.
Qed.
Lemma method1_kind : forall m t f x, find_method1 m t = Some (Inherent1 f) -> kind x = nom_of t -> of_kind (out1 f) (neg_code x).
Proof. intros m t f x F Kx. destruct m, t as [[]|[]]; try discriminate F; cbn in F; injection F as <-; kinds; apply map_ok_kind; reflexivity. Qed.
Lemma run1_kind : forall c x, kind x = code1_in c -> of_kind (code1_out c) (run1 B c x).
Proof. intros c x Kx. destruct c; cbn in Kx; kinds; apply map_ok_kind; reflexivity. Qed.
Lemma run2_kind : forall c x y, kind x = fst (code2_in c) -> kind y = snd (code2_in c) -> of_kind (code2_out c) (run2 B c x y).
Proof. intros c x y Kx Ky. destruct c; cbn in Kx, Ky; kinds; apply map_ok_kind; reflexivity. Qed.
Lemma nom_eq : forall a b, nom_eqb a b = true -> a = b. Proof. intros [] [] H; try discriminate H; reflexivity. Qed.
Lemma ty_eq : forall a b, ty_eqb a b = true -> a = b.
Proof. intros [a|a] [b|b] H; try discriminate H; cbn in H; apply nom_eq in H; subst; reflexivity. Qed.
Lemma typed_var : forall G (env : list operand) i t, typed G env -> nth_error G i = Some t -> exists v, nth_error env i = Some v /\ kind v = nom_of t.
Proof.
  intros G env i t T. revert i. induction T as [|t0 v G env K T IH]; intros [|i] H; cbn in H; try discriminate H.
  - injection H as <-. exists v. split; [reflexivity|exact K].
  - exact (IH i H).
Qed.

(** ** Running is [direct] *)
Fixpoint depth (e : exp) : nat :=
  match e with
  | Var _ => 0
  | Ref a | Deref a | Neg a | Call _ a | Do1 _ a => S (depth a)
  | Bin _ a b | Call2 _ a b | Do2 _ a b => S (Nat.max (depth a) (depth b))
  end.
Lemma then_ext : forall x f g k, of_kind k x -> (forall v, kind v = k -> f v = g v) -> (x >> f) = (x >> g).
Proof. intros [[v|]| |] f g k H E; cbn in *; auto. Qed.
Theorem exec_direct : forall e G env t, typed G env -> typeof G e = Some t ->
  of_kind (nom_of t) (direct env e) /\ forall n, (depth e + 9 <= n)%nat -> exec B n G env e = direct env e.
Proof.
  induction e as [i|a IHa|a IHa|o a IHa b IHb|a IHa|m a IHa|m a IHa b IHb|c a IHa|c a IHa b IHb]; intros G env t T H; cbn [typeof] in H.
  - destruct (typed_var G env i t T H) as (v & Ev & K). cbn [direct]. rewrite Ev. split; [exact K|]. intros [|n] L; [cbn in L; lia|]. cbn [exec]. rewrite Ev. reflexivity.
  - destruct (typeof G a) as [[s|s]|] eqn:Ha; try discriminate H. injection H as <-. destruct (IHa G env _ T Ha) as [Ka Ea].
    split; [exact Ka|]. intros [|n] L; cbn [depth] in L; [lia|]. cbn [exec direct]. apply Ea. lia.
  - destruct (typeof G a) as [[s|s]|] eqn:Ha; try discriminate H. injection H as <-. destruct (IHa G env _ T Ha) as [Ka Ea].
    split; [exact Ka|]. intros [|n] L; cbn [depth] in L; [lia|]. cbn [exec direct]. apply Ea. lia.
  - destruct (typeof G a) as [l|] eqn:Ha; [|discriminate H]. destruct (typeof G b) as [r|] eqn:Hb; [|discriminate H].
    destruct (find_impl o l r) as [i|] eqn:Fi; [|discriminate H]. injection H as <-. destruct (IHa G env _ T Ha) as [Ka Ea]. destruct (IHb G env _ T Hb) as [Kb Eb].
    cbn [direct nom_of]. split.
    + apply (then_kind _ _ _ _ Ka). intros x Kx. apply (then_kind _ _ _ _ Kb). intros y Ky. exact (op_kind o l r i x y Fi Kx Ky).
    + intros [|n] L; cbn [depth] in L; [lia|]. cbn [exec]. rewrite Ha, Hb, Fi, Ea, Eb by lia.
      apply (then_ext _ _ _ _ Ka). intros x Kx. apply (then_ext _ _ _ _ Kb). intros y Ky. replace n with (8 + (n - 8))%nat by lia. exact (impl_code o l r i Fi x y Kx Ky _).
  - destruct (typeof G a) as [t0|] eqn:Ha; [|discriminate H]. destruct (find_neg t0) as [i|] eqn:Fi; [|discriminate H]. injection H as <-. destruct (IHa G env _ T Ha) as [Ka Ea].
    cbn [direct nom_of]. split.
    + apply (then_kind _ _ _ _ Ka). intros x Kx. exact (neg_kind t0 i x Fi Kx).
    + intros [|n] L; cbn [depth] in L; [lia|]. cbn [exec]. rewrite Ha, Fi, Ea by lia.
      apply (then_ext _ _ _ _ Ka). intros x Kx. replace n with (8 + (n - 8))%nat by lia. exact (neg_impl_code t0 i Fi x Kx _).
  - destruct (typeof G a) as [t0|] eqn:Ha; [|discriminate H]. destruct (IHa G env _ T Ha) as [Ka Ea].
    destruct (find_method1 m t0) as [[f|t1]|] eqn:Fm; [| |discriminate H].
    + injection H as <-. cbn [nom_of].
      assert (M : m = m_negate). { destruct m, t0 as [[]|[]]; try discriminate Fm; reflexivity. }
      subst m. cbn [direct]. split.
      * apply (then_kind _ _ _ _ Ka). intros x Kx. exact (method1_kind _ t0 f x Fm Kx).
      * intros [|n] L; cbn [depth] in L; [lia|]. cbn [exec]. rewrite Ha, Fm, Ea by lia.
        apply (then_ext _ _ _ _ Ka). intros x Kx. replace n with (8 + (n - 8))%nat by lia. exact (proj2 (method1_code _ t0 f Fm x Kx) _).
    + destruct (trait1_code _ _ _ Fm) as [-> N]. destruct (find_neg t1) as [i|] eqn:Fi; [|discriminate H]. injection H as <-. cbn [nom_of direct]. split.
      * apply (then_kind _ _ _ _ Ka). intros x Kx. rewrite <- N in Kx. exact (neg_kind t1 i x Fi Kx).
      * intros [|n] L; cbn [depth] in L; [lia|]. cbn [exec]. rewrite Ha, Fm, Fi, Ea by lia.
        apply (then_ext _ _ _ _ Ka). intros x Kx. rewrite <- N in Kx. replace n with (8 + (n - 8))%nat by lia. exact (neg_impl_code t1 i Fi x Kx _).
  - destruct (typeof G a) as [t0|] eqn:Ha; [|discriminate H]. destruct (typeof G b) as [r|] eqn:Hb; [|discriminate H].
    destruct (IHa G env _ T Ha) as [Ka Ea]. destruct (IHb G env _ T Hb) as [Kb Eb].
    destruct (find_method2 m t0) as [[f|o t1]|] eqn:Fm; [| |discriminate H].
    + destruct (ty_eqb r (Bor (arg2 f))) eqn:R; [|discriminate H]. injection H as <-. apply ty_eq in R. assert (N : nom_of r = arg2 f) by (rewrite R; reflexivity).
      assert (D : direct env (Call2 m a b) = (direct env a >> (fun x => direct env b >> (fun y => (match m with m_add => add_code | m_sub => sub_code | _ => mul_code end) x y)))).
      { destruct m, t0 as [[]|[]]; try discriminate Fm; reflexivity. }
      rewrite D. cbn [nom_of]. split.
      * apply (then_kind _ _ _ _ Ka). intros x Kx. apply (then_kind _ _ _ _ Kb). intros y Ky. exact (method2_kind m t0 r f x y Fm N Kx Ky).
      * intros [|n] L; cbn [depth] in L; [lia|]. cbn [exec]. rewrite Ha, Hb, Fm, Ea, Eb by lia.
        apply (then_ext _ _ _ _ Ka). intros x Kx. apply (then_ext _ _ _ _ Kb). intros y Ky. replace n with (8 + (n - 8))%nat by lia. exact (proj1 (method2_code m t0 r f Fm N x y Kx Ky) _).
    + destruct (find_impl o t1 r) as [i|] eqn:Fi; [|discriminate H]. injection H as <-. destruct (trait2_code _ _ _ _ Fm) as (N & A & M).
      assert (D : direct env (Call2 m a b) = (direct env a >> (fun x => direct env b >> (fun y => op_code o x y)))).
      { destruct m; try contradiction M; subst o; reflexivity. }
      rewrite D. cbn [nom_of]. split.
      * apply (then_kind _ _ _ _ Ka). intros x Kx. apply (then_kind _ _ _ _ Kb). intros y Ky. rewrite <- N in Kx. exact (op_kind o t1 r i x y Fi Kx Ky).
      * intros [|n] L; cbn [depth] in L; [lia|]. cbn [exec]. rewrite Ha, Hb, Fm, Fi, Ea, Eb by lia.
        apply (then_ext _ _ _ _ Ka). intros x Kx. apply (then_ext _ _ _ _ Kb). intros y Ky. rewrite <- N in Kx. replace n with (8 + (n - 8))%nat by lia.
        exact (impl_code' o t1 r i A Fi x y Kx Ky _).
  - destruct (typeof G a) as [t0|] eqn:Ha; [|discriminate H]. destruct (ty_eqb t0 (Bor (code1_in c))) eqn:R; [|discriminate H]. injection H as <-. apply ty_eq in R. subst t0.
    destruct (IHa G env _ T Ha) as [Ka Ea]. cbn [direct nom_of] in *. split.
    + apply (then_kind _ _ _ _ Ka). intros x Kx. exact (run1_kind c x Kx).
    + intros [|n] L; cbn [depth] in L; [lia|]. cbn [exec]. rewrite Ea by lia. reflexivity.
  - destruct (typeof G a) as [l|] eqn:Ha; [|discriminate H]. destruct (typeof G b) as [r|] eqn:Hb; [|discriminate H].
    destruct (ty_eqb l (Bor (fst (code2_in c))) && ty_eqb r (Bor (snd (code2_in c)))) eqn:R; [|discriminate H]. injection H as <-. apply andb_true_iff in R. destruct R as [R1 R2].
    apply ty_eq in R1, R2. subst l r. destruct (IHa G env _ T Ha) as [Ka Ea]. destruct (IHb G env _ T Hb) as [Kb Eb]. cbn [direct nom_of] in *. split.
    + apply (then_kind _ _ _ _ Ka). intros x Kx. apply (then_kind _ _ _ _ Kb). intros y Ky. exact (run2_kind c x y Kx Ky).
    + intros [|n] L; cbn [depth] in L; [lia|]. cbn [exec]. rewrite Ea, Eb by lia. reflexivity.
Qed.

(** ** C72: the form does not matter *)
Lemma direct_bare : forall e, callers e -> forall env G t, typeof G e = Some t -> direct env (bare e) = direct env e.
Proof.
  induction e as [i|a IHa|a IHa|o a IHa b IHb|a IHa|m a IHa|m a IHa b IHb|c a IHa|c a IHa b IHb]; intros C env G t H; cbn [callers] in C; cbn [typeof] in H.
  - reflexivity.
  - destruct (typeof G a) as [s|] eqn:Ha; [|discriminate H]. exact (IHa C env G s Ha).
  - destruct (typeof G a) as [s|] eqn:Ha; [|discriminate H]. exact (IHa C env G s Ha).
  - destruct C as [Ca Cb]. destruct (typeof G a) as [l|] eqn:Ha; [|discriminate H]. destruct (typeof G b) as [r|] eqn:Hb; [|discriminate H].
    destruct o; cbn [bare direct]; rewrite (IHa Ca env G l Ha), (IHb Cb env G r Hb); reflexivity.
  - destruct (typeof G a) as [s|] eqn:Ha; [|discriminate H]. cbn [bare direct]. rewrite (IHa C env G s Ha). reflexivity.
  - destruct (typeof G a) as [s|] eqn:Ha; [|discriminate H]. destruct m; try (cbn [bare direct]; rewrite (IHa C env G s Ha); reflexivity); reflexivity.
  - destruct C as [Ca Cb]. destruct (typeof G a) as [l|] eqn:Ha; [|discriminate H]. destruct (typeof G b) as [r|] eqn:Hb; [|discriminate H].
    destruct m; try (cbn [bare direct]; rewrite (IHa Ca env G l Ha), (IHb Cb env G r Hb); reflexivity); reflexivity.
  - contradiction C.
  - contradiction C.
Qed.
Theorem forms_agree : forall e e', callers e -> callers e' -> bare e = bare e' -> forall G G' env t t', typed G env -> typed G' env ->
  typeof G e = Some t -> typeof G' e' = Some t' ->
  exists n r, forall m, (n <= m)%nat -> exec B m G env e = Ran r /\ exec B m G' env e' = Ran r.
Proof.
  intros e e' C C' E G G' env t t' T T' H H'. destruct (exec_direct e G env t T H) as [K X]. destruct (exec_direct e' G' env t' T' H') as [K' X'].
  rewrite <- (direct_bare e C env G t H), E, (direct_bare e' C' env G' t' H') in K, X.
  destruct (direct env e') as [r| |] eqn:D; [|contradiction K|contradiction K].
  exists (Nat.max (depth e) (depth e') + 9)%nat, r. intros m L. rewrite X, X' by lia. split; reflexivity.
Qed.
End Ops.

(** ** C72: which forms there are *)
Theorem forms_offered : forall o l r, (exists t, typeof [l; r] (Bin o (Var 0) (Var 1)) = Some t) <-> offered o l r = true.
Proof. intros o l r. destruct o, l as [[]|[]], r as [[]|[]]; cbn; (split; [intros [t H]; first [discriminate H|reflexivity]|intro H; first [discriminate H|eexists; reflexivity]]). Qed.
Theorem negations_offered : forall l, (exists t, typeof [l] (Neg (Var 0)) = Some t) <-> nom_of l = EdT \/ nom_of l = DcT.
Proof.
  intro l. destruct l as [[]|[]]; cbn; (split; [intros [t H]; first [discriminate H|left; reflexivity|right; reflexivity]|intros [H|H]; first [discriminate H|eexists; reflexivity]]).
Qed.

(** ** C72: what it computes *)
Section Meaning.
Variable B : backend.
Hypothesis S : shipped B.
Let L := shipped_laws B S.
Local Notation den := (denotes B).
Definition good (x : outcome B) (q : option thing) : Prop := exists v s, x = Ran (Ok v) /\ q = Some s /\ den v s.
Lemma den_ed : forall P Q, den (VEd P) (SEd Q) <-> ed_rep B P Q. Proof. intros P Q. symmetry. apply ed_rep_iff. Qed.
Lemma den_tw : forall P Q, den (VDc P) (SDc Q) <-> tw_rep B P Q. Proof. intros P Q. symmetry. apply tw_rep_iff. Qed.
Lemma good_ed : forall x Q, okp x (fun P => ed_rep B P Q) -> good (map_ok B VEd x) (Some (SEd Q)).
Proof. intros x Q (P & -> & H). exists (VEd P), (SEd Q). split; [reflexivity|]. split; [reflexivity|]. apply den_ed. exact H. Qed.
Lemma good_tw : forall x Q, okp x (fun P => tw_rep B P Q) -> good (map_ok B VDc x) (Some (SDc Q)).
Proof. intros x Q (P & -> & H). exists (VDc P), (SDc Q). split; [reflexivity|]. split; [reflexivity|]. apply den_tw. exact H. Qed.
Lemma run_data : forall d (e : api (TData d)) x, api_ok e -> api_run B e = osome x -> forall v, meaning e = Some v -> x = Ok v /\ dok d v.
Proof.
  intros d e x O E v M. pose proof (data_meaning B S d e O) as R. rewrite M in R.
  split; [|exact (api_typed B S d e O v R)]. rewrite E in R. destruct x as [a|]; cbn in R; [|discriminate R].
  apply (f_equal (fun z => match z with Ok (Some w) => w | _ => v end)) in R. cbn in R. rewrite R. reflexivity.
Qed.
Lemma good_sc : forall (e : api (TData DScalar)) x v, api_ok e -> api_run B e = osome x -> meaning e = Some v -> good (map_ok B VSc x) (Some (SSc v)).
Proof. intros e x v O E M. destruct (run_data DScalar e x O E v M) as [-> K]. exists (VSc v), (SSc v). split; [reflexivity|]. split; [reflexivity|]. split; [reflexivity|exact K]. Qed.
Lemma good_mt : forall (e : api (TData (DBytes 56))) x v, api_ok e -> api_run B e = osome x -> meaning e = Some v -> good (map_ok B VMt x) (Some (SMt v)).
Proof. intros e x v O E M. destruct (run_data (DBytes 56) e x O E v M) as [-> K]. exists (VMt v), (SMt v). split; [reflexivity|]. split; [reflexivity|]. split; [reflexivity|exact K]. Qed.

Ltac shape x s D := destruct x, s; cbn in D; try contradiction D.
Lemma add_good : forall x y s t, den x s -> den y t -> (exists q, add_code B x y = Ran q) -> good (add_code B x y) (sum_of s t).
Proof.
  intros x y s t D1 D2 [q N]. shape x s D1; shape y t D2; cbn [add_code] in N; try discriminate N; cbn [add_code sum_of].
  - apply good_ed. apply (ed_add_ok B L); apply den_ed; assumption.
  - destruct D1 as [<- D1], D2 as [<- D2]. match goal with |- good (map_ok B VSc (scalar_add ?a ?b)) _ => apply (good_sc (AScAdd a b)); [split; assumption|reflexivity|reflexivity] end.
  - apply good_tw. apply (dc_add_ok B L); apply den_tw; assumption.
Qed.
Lemma sub_good : forall x y s t, den x s -> den y t -> (exists q, sub_code B x y = Ran q) -> good (sub_code B x y) (difference_of s t).
Proof.
  intros x y s t D1 D2 [q N]. shape x s D1; shape y t D2; cbn [sub_code] in N; try discriminate N; cbn [sub_code difference_of].
  - apply good_ed. apply (ed_sub_ok B L); apply den_ed; assumption.
  - destruct D1 as [<- D1], D2 as [<- D2]. match goal with |- good (map_ok B VSc (scalar_sub ?a ?b)) _ => apply (good_sc (AScSub a b)); [split; assumption|reflexivity|reflexivity] end.
  - apply good_tw. apply (dc_sub_ok B L); apply den_tw; assumption.
Qed.
Lemma mul_good : forall x y s t, den x s -> den y t -> (exists q, mul_code B x y = Ran q) -> good (mul_code B x y) (product_of s t).
Proof.
  intros x y s t D1 D2 [q N]. shape x s D1; shape y t D2; cbn [mul_code] in N; try discriminate N; cbn [mul_code product_of].
  - destruct D2 as [<- D2]. apply good_ed. match goal with |- context [value ?z] => change (value z) with (sval z) end. apply (ed_scalar_mul_ok B L); [apply den_ed|]; assumption.
  - destruct D1 as [<- D1]. apply good_ed. match goal with |- context [value ?z] => change (value z) with (sval z) end. apply (ed_scalar_mul_ok B L); [apply den_ed|]; assumption.
  - destruct D1 as [<- D1], D2 as [<- D2]. match goal with |- good (map_ok B VSc (scalar_mul ?a ?b)) _ => apply (good_sc (AScMul a b)); [split; assumption|reflexivity|reflexivity] end.
  - destruct D1 as [<- D1]. apply good_tw. match goal with |- context [value ?z] => change (value z) with (sval z) end. apply (dc_mul_ok B L); [apply den_tw|]; assumption.
  - destruct D1 as [<- D1], D2 as [<- D2]. match goal with |- good (map_ok B VMt (mp_mul B ?a ?b)) _ => apply (good_mt (AMpMul a b)); [split; assumption|reflexivity|reflexivity] end.
  - destruct D2 as [<- D2]. apply good_tw. match goal with |- context [value ?z] => change (value z) with (sval z) end. apply (dc_mul_ok B L); [apply den_tw|]; assumption.
  - destruct D1 as [<- D1], D2 as [<- D2]. match goal with |- good (map_ok B VMt (mp_mul B ?a ?b)) _ => apply (good_mt (AMpMul a b)); [split; assumption|reflexivity|reflexivity] end.
Qed.
Lemma neg_good : forall x s, den x s -> (exists q, neg_code B x = Ran q) -> good (neg_code B x) (opposite_of s).
Proof.
  intros x s D1 [q N]. shape x s D1; cbn [neg_code] in N; try discriminate N; cbn [neg_code opposite_of].
  - apply good_ed. apply (ed_negate_ok B L). apply den_ed. assumption.
  - apply good_tw. apply (dc_neg_ok B L). apply den_tw. assumption.
Qed.
Lemma op_good : forall o x y s t, den x s -> den y t -> (exists q, op_code B o x y = Ran q) -> good (op_code B o x y) (op_of o s t).
Proof. intros o x y s t D1 D2 N. destruct o; [apply add_good|apply sub_good|apply mul_good|apply add_good|apply sub_good|apply mul_good]; assumption. Qed.
Lemma good_then1 : forall x q f g, good x q -> (exists r, then_ B x f = Ran r) ->
  (forall v s, den v s -> (exists r, f v = Ran r) -> good (f v) (g s)) -> good (then_ B x f) (ob q g).
Proof. intros x q f g (v & s & -> & -> & D1) R K. cbn [then_ ob] in *. apply K; assumption. Qed.
Lemma good_then2 : forall x y q p f g, good x q -> good y p -> (exists r, then_ B x (fun a => then_ B y (fun b => f a b)) = Ran r) ->
  (forall v w s t, den v s -> den w t -> (exists r, f v w = Ran r) -> good (f v w) (g s t)) ->
  good (then_ B x (fun a => then_ B y (fun b => f a b))) (ob q (fun a => ob p (fun b => g a b))).
Proof. intros x y q p f g (v & s & -> & -> & D1) (w & t & -> & -> & D2) R K. cbn [then_ ob] in *. apply K; assumption. Qed.
Lemma den_kind : forall v s, den v s -> kind v = match s with SEd _ => EdT | SSc _ => ScT | SDc _ => DcT | SMt _ => MtT end.
Proof. intros [] [] H; cbn in H; try contradiction H; reflexivity. Qed.
Lemma kind_ran : forall k (x : outcome B), of_kind B k x -> exists r, x = Ran r. Proof. intros k [r| |] H; [exists r; reflexivity|contradiction H|contradiction H]. Qed.
Lemma direct_good : forall e, callers e -> forall G env senv t, typed G env -> Forall2 den env senv -> typeof G e = Some t -> good (direct B env e) (sense senv e).
Proof.
  induction e as [i|a IHa|a IHa|o a IHa b IHb|a IHa|m a IHa|m a IHa b IHb|c a IHa|c a IHa b IHb]; intros C G env senv t T V H; cbn [callers] in C;
    pose proof (kind_ran _ _ (proj1 (exec_direct B _ G env t T H))) as R; cbn [typeof] in H.
  - cbn [direct sense]. destruct (typed_var B G env i t T H) as (v & Ev & K). rewrite Ev. clear - V Ev. revert i Ev. induction V as [|v0 s0 env senv D1 V IH]; intros [|i] E; cbn in E; try discriminate E.
    + injection E as <-. exists v0, s0. split; [reflexivity|]. split; [reflexivity|exact D1].
    + exact (IH i E).
  - destruct (typeof G a) as [s|] eqn:Ha; [|discriminate H]. exact (IHa C G env senv s T V Ha).
  - destruct (typeof G a) as [s|] eqn:Ha; [|discriminate H]. exact (IHa C G env senv s T V Ha).
  - destruct C as [Ca Cb]. destruct (typeof G a) as [l|] eqn:Ha; [|discriminate H]. destruct (typeof G b) as [r|] eqn:Hb; [|discriminate H].
    cbn [direct sense] in *. apply good_then2; [exact (IHa Ca G env senv l T V Ha)|exact (IHb Cb G env senv r T V Hb)|exact R|]. intros v w s s'. apply op_good.
  - destruct (typeof G a) as [l|] eqn:Ha; [|discriminate H]. cbn [direct sense] in *. apply good_then1; [exact (IHa C G env senv l T V Ha)|exact R|exact neg_good].
  - destruct (typeof G a) as [l|] eqn:Ha; [|discriminate H]. destruct R as [r R]. destruct m; try discriminate R; cbn [direct sense] in *;
      (apply good_then1; [exact (IHa C G env senv l T V Ha)|exists r; exact R|exact neg_good]).
  - destruct C as [Ca Cb]. destruct (typeof G a) as [l|] eqn:Ha; [|discriminate H]. destruct (typeof G b) as [r|] eqn:Hb; [|discriminate H].
    destruct R as [q R]. destruct m; try discriminate R; cbn [direct sense] in *;
      (apply good_then2; [exact (IHa Ca G env senv l T V Ha)|exact (IHb Cb G env senv r T V Hb)|exists q; exact R|]).
    + exact add_good.
    + exact sub_good.
    + exact mul_good.
  - contradiction C.
  - contradiction C.
Qed.
Theorem programs : forall e G env senv t, callers e -> typed G env -> Forall2 den env senv -> typeof G e = Some t ->
  exists n v s, sense senv e = Some s /\ denotes B v s /\ kind v = nom_of t /\ forall m, (n <= m)%nat -> exec B m G env e = Ran (Ok v).
Proof.
  intros e G env senv t C T V H. destruct (direct_good e C G env senv t T V H) as (v & s & E1 & E2 & D1). destruct (exec_direct B e G env t T H) as [K X].
  exists (depth e + 9)%nat, v, s. split; [exact E2|]. split; [exact D1|]. rewrite E1 in K, X. split; [exact K|]. exact X.
Qed.

(** ** [Sum] *)
Lemma sum_step_code : forall P Q n, sum_step B (9 + n) (VEd P) (VEd Q) = map_ok B VEd (ed_add B P Q). Proof. reflexivity. Qed.
Lemma sum_fold_code : forall l P n, sum_fold B (9 + n) (VEd P) (map VEd l) = map_ok B VEd (ed_sum_loop B l P).
Proof.
  induction l as [|Q l IH]; intros P n; cbn [map sum_fold ed_sum_loop]; [reflexivity|]. rewrite sum_step_code.
  destruct (ed_add B P Q) as [R|]; cbn [map_ok then_ bind]; [apply IH|reflexivity].
Qed.
End Meaning.
Theorem sum_code : forall B l n, (9 <= n)%nat -> sum_value B n (map VEd l) = map_ok B VEd (ed_sum B l).
Proof. intros B l n H. replace n with (9 + (n - 9))%nat by lia. apply sum_fold_code. Qed.
Theorem sum_meaning : forall B, shipped B -> forall l, Forall (ed_valid B) l ->
  exists R, ed_valid B R /\ ed_affine B R = fold_left (padd ed_a ed_d) (map (ed_affine B) l) pzero /\
  forall n, (9 <= n)%nat -> sum_value B n (map VEd l) = Ran (Ok (VEd R)).
Proof.
  intros B S l V. destruct (ed_sum_ok B (shipped_laws B S) l (map (ed_affine B) l)) as (R & E & H).
  - induction V as [|P l V0 V IH]; constructor; [apply ed_rep_iff; auto|exact IH].
  - apply ed_rep_iff in H. exists R. split; [apply H|]. split; [apply H|]. intros n N. rewrite sum_code by exact N. rewrite E. reflexivity.
Qed.

(** ** A case: [a -= &(s * b) + -b] with a owned, s and b borrowed *)
Definition op_case : exp := Bin SubAssign (Var 0) (Bin Add (Ref (Bin Mul (Var 1) (Var 2))) (Neg (Var 2))).
Theorem op_case_ok : forall B, shipped B -> forall s, is_scalar s ->
  let G := [Own EdT; Bor ScT; Bor EdT] in
  let env := [VEd (ed_generator B); VSc s; VEd (ed_generator B)] in
  let senv := [SEd SpecCurve.G; SSc s; SEd SpecCurve.G] in
  callers op_case /\ typed G env /\ Forall2 (denotes B) env senv /\ typeof G op_case = Some (Own EdT) /\
  sense senv op_case =
    Some (SEd (padd ed_a ed_d SpecCurve.G (pneg (padd ed_a ed_d (pmul ed_a ed_d (sval s) SpecCurve.G) (pneg SpecCurve.G))))).
Proof.
  intros B S s Hs G env senv. pose proof (proj1 (ed_rep_iff B _ _) (ed_generator_rep B (shipped_laws B S))) as V.
  split; [cbn; tauto|]. split; [repeat constructor|]. split; [apply Forall2_cons; [exact V|]; apply Forall2_cons; [split; [reflexivity|exact Hs]|]; apply Forall2_cons; [exact V|]; apply Forall2_nil|].
  split; reflexivity.
Qed.
Lemma spellings_case :
  let e := Bin Sub (Var 0) (Bin Mul (Var 1) (Var 2)) in
  let e' := Bin SubAssign (Var 0) (Ref (Call2 m_scalar_mul (Var 1) (Var 2))) in
  callers e /\ callers e' /\ bare e = bare e' /\
  typeof [Bor EdT; Own EdT; Own ScT] e = Some (Own EdT) /\ typeof [Own EdT; Own EdT; Bor ScT] e' = Some (Own EdT).
Proof. cbn. tauto. Qed.
