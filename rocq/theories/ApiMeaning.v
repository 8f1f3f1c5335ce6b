(** Every program over the public API returns what it means. *)
Require Import ZArith List Bool Lia Ring Field.
From Verif Require Import Base BaseProofs SpecParams SpecField SpecCurve SpecEncoding SpecDecaf SpecMontgomery FieldTheory FieldBackend Backends BackendLaws
  ScalarModel ScalarProofs ScalarProofs2 ScalarMain CurveTheory TwistedModel EdwardsModel MontgomeryModel DecafModel PointSpec TwistedProofs EdwardsProofs EdwardsExpr EdwardsRun
  EdwardsMain Ladder MontgomeryProofs MontgomeryMain DecafTheory DecafGroup DecafRun ApiExpr SpecApi ApiRun.
Import ListNotations.
Open Scope F_scope.
Local Opaque fadd fsub fmul fopp fdiv finv fpow of_Z padd pmul pzero fsqrt SpecCurve.G D ell ed_decode ed_encode decaf_decode decaf_encode
  even_tw tw_affine le_bytes lloop scalar_bits mont_mul mont_A
  scalar_add scalar_sub scalar_mul scalar_invert scalar_halve scalar_from_canonical_bytes scalar_from_bytes_mod_order_wide digits.

(** ** Scalars *)
Lemma words_unique : forall s v, is_scalar s -> sval s = v -> s = words_of v.
Proof. intros s v Hs <-. symmetry. exact (array_digits_eval 32 14 s ltac:(lia) Hs). Qed.
Lemma low_bits : ell_low_bits = mod_low_bits. Proof. Transparent digits ell. vm_compute. reflexivity. Qed.
Local Opaque digits ell.
Lemma add_words : forall a b, is_scalar a -> is_scalar b -> of_res (scalar_add a b) = Some (words_of (sum_scalars (value a) (value b))).
Proof.
  intros a b Ha Hb. change (value a) with (sval a). change (value b) with (sval b). unfold sum_scalars.
  pose proof (scalar_range a Ha). pose proof (scalar_range b Hb). pose proof ell_pos as EP.
  destruct (Z_lt_le_dec (sval a + sval b) (2 ^ 448 + ell)) as [L|L].
  - destruct (scalar_add_ok a b Ha Hb L) as (r & -> & Hr & V). cbn [of_res]. apply (f_equal (@Some _)). apply words_unique; [exact Hr|]. rewrite V.
    rewrite (proj2 (Z.ltb_lt _ _) L). reflexivity.
  - destruct (scalar_add_overflow a b Ha Hb L) as (r & -> & Hr & V). cbn [of_res]. apply (f_equal (@Some _)). apply words_unique; [exact Hr|]. rewrite V.
    rewrite (proj2 (Z.ltb_ge _ _) L). rewrite (proj2 (Z.ltb_ge _ _)) by lia. rewrite low_bits.
    assert (ML : (mod_low_bits < 2 ^ 417 /\ 0 <= mod_low_bits)%Z) by (split; vm_compute; congruence).
    assert (2 ^ 417 < ell)%Z by reflexivity. apply Z.mod_small. lia.
Qed.
Lemma sub_words : forall a b, is_scalar a -> is_scalar b -> of_res (scalar_sub a b) = Some (words_of (diff_scalars (value a) (value b))).
Proof.
  intros a b Ha Hb. change (value a) with (sval a). change (value b) with (sval b). unfold diff_scalars.
  pose proof (scalar_range a Ha). pose proof (scalar_range b Hb). pose proof ell_pos as EP.
  destruct (Z_lt_le_dec (sval a + ell) (sval b)) as [L|L].
  - destruct (scalar_sub_underflow a b Ha Hb L) as (r & -> & Hr & V). cbn [of_res]. apply (f_equal (@Some _)). apply words_unique; [exact Hr|]. rewrite V.
    rewrite (proj2 (Z.leb_gt _ _)) by lia. apply Z.mod_unique with (-1)%Z; [left|]; lia.
  - destruct (scalar_sub_ok a b Ha Hb L) as (r & -> & Hr & V). cbn [of_res]. apply (f_equal (@Some _)). apply words_unique; [exact Hr|]. rewrite V.
    destruct (Z.leb_spec (sval b) (sval a)) as [G|G]; [reflexivity|]. symmetry. apply Z.mod_small. pose proof ell_lt. assert (2 ^ 446 < 2 ^ 448)%Z by reflexivity. lia.
Qed.
Lemma val_words : forall (x : res scalar) v, (exists r, x = Ok r /\ is_scalar r /\ sval r = v) -> of_res x = Some (words_of v).
Proof. intros x v (r & -> & Hr & V). cbn [of_res]. apply (f_equal (@Some _)). apply words_unique; assumption. Qed.
Lemma half_words : forall a, is_scalar a -> of_res (scalar_halve a) = Some (words_of (half_scalar (value a))).
Proof.
  intros a Ha. apply val_words. destruct (scalar_halve_ok a Ha) as (r & E & Hr & V). exists r. split; [exact E|]. split; [exact Hr|].
  change (value a) with (sval a). unfold half_scalar. rewrite <- V. rewrite Z.mul_comm, Z.div_mul by lia. reflexivity.
Qed.
Lemma canonical_words : forall b, bytes 57 b ->
  match scalar_from_canonical_bytes b with Ok o => o | Panic => None end = if (le_val b <? ell)%Z then Some (words_of (le_val b)) else None.
Proof.
  intros b Hb. destruct (from_canonical_ok b Hb) as [H1 H2]. destruct (Z.ltb_spec (le_val b) ell) as [L|L].
  - destruct (H1 L) as (r & -> & Hr & V). apply (f_equal (@Some _)). apply words_unique; assumption.
  - rewrite (H2 L). reflexivity.
Qed.

(** ** The ladder *)
Lemma lift_on : forall u, curve_or_twist (fst (lift_u u)) /\ exists v, snd (lift_u u) = Some (u, v) /\ on_mont mont_A (fst (lift_u u)) (Some (u, v)).
Proof.
  intro u. unfold lift_u. cbv zeta. set (w := u * u * u + mont_A * (u * u) + u). destruct (feqb (fsqrt w * fsqrt w) w) eqn:E.
  - cbn [fst snd]. split; [left; reflexivity|]. exists (fsqrt w). split; [reflexivity|]. cbn [on_mont]. apply feqb_eq in E. rewrite E. fold w. ring.
  - cbn [fst snd]. split; [right; reflexivity|]. exists (fsqrt (- w)). split; [reflexivity|]. cbn [on_mont]. fold w.
    assert (S : is_square (- w)). { destruct (square_or_neg w) as [K|K]; [|exact K]. apply fsqrt_iff in K. rewrite K in E. discriminate E. }
    rewrite (fsqrt_ok _ S). ring.
Qed.
Lemma ladder_words : forall b t, bytes 56 b -> is_scalar t -> let u := of_Z (le_val b) in
  le_bytes 56 (fval (lval (lloop u (rev (scalar_bits t)) false ((1, 0), (u, 1))))) = encode_u (ladder_u u (value t)).
Proof.
  intros b t Hb Ht. cbv zeta. apply (ok_inj (list Z)). rewrite <- (mp_mul_ok u32_backend (shipped_laws _ shipped_u32) b t Hb).
  destruct (mul_exact u32_backend shipped_u32 b t Hb Ht) as [_ K]. cbv zeta in K. destruct (lift_on (of_Z (le_val b))) as (C & v & E & O).
  rewrite (K _ v C O). unfold encode_u, ladder_u. destruct (lift_u (of_Z (le_val b))) as [e P]. cbn [fst snd] in *. rewrite E. reflexivity.
Qed.

(** ** Classes *)
Lemma peq_peqb : forall P Q, peq P Q = peqb P Q. Proof. reflexivity. Qed.
Lemma bool_iff : forall a b : bool, (a = true <-> b = true) -> a = b.
Proof. intros [] [] H; try reflexivity; [symmetry; apply H; reflexivity|apply H; reflexivity]. Qed.
Lemma class_ceqb : forall P Q, even_tw P -> even_tw Q -> ceqb P Q = class_eq P Q.
Proof.
  intros P Q HP HQ. apply bool_iff. rewrite (ceqb_class P Q HP HQ). unfold class_eq, same_class, order_two. rewrite orb_true_iff, !peq_peqb, !peqb_eq. reflexivity.
Qed.
Lemma ob_even : forall (e : api TDc), api_ok e -> forall a, api_val e = Some a -> even_tw a.
Proof.
  intros e H a E. destruct (api_run_ok u32_backend shipped_u32 _ e H) as (o & _ & R). rewrite E in R. destruct o as [v|]; cbn [oarep arep] in R; [|contradiction].
  exact (proj1 R).
Qed.
Lemma ob_even_rs : forall (e : api TRs), api_ok e -> forall a, api_val e = Some a -> even_tw a.
Proof.
  intros e H a E. destruct (api_run_ok u32_backend shipped_u32 _ e H) as (o & _ & R). rewrite E in R. destruct o as [v|]; cbn [oarep arep] in R; [|contradiction].
  exact (proj1 R).
Qed.
Lemma ob_ext : forall A C (x y : option A) (f g : A -> option C), x = y -> (forall a, x = Some a -> f a = g a) -> ob x f = ob y g.
Proof. intros A C x y f g <- H. destruct x as [a|]; [exact (H a eq_refl)|reflexivity]. Qed.

Ltac u1 := cbn [api_val meaning api_ok]; intros; apply ob_ext; [tauto|]; intros; try reflexivity.
Ltac u2 := cbn [api_val meaning api_ok]; intros; apply ob_ext; [tauto|]; intros; apply ob_ext; [tauto|]; intros; try reflexivity.
Theorem api_means : forall s (e : api s), api_ok e -> api_val e = meaning e.
Proof.
  induction e; try (intros _; reflexivity).
  - (* bind *) intros [Ox Ok_]. cbn [api_val meaning]. apply ob_ext; [exact (IHe Ox)|]. intros a E. apply H. apply Ok_.
    exact (proj2 (api_data u32_backend shipped_u32 _ _ Ox) a E).
  - intro Ox. cbn [api_val meaning]. rewrite (IHe Ox). reflexivity.
  - intros [Ha Hb]. exact (add_words a b Ha Hb).
  - intros [Ha Hb]. exact (sub_words a b Ha Hb).
  - intros [Ha Hb]. exact (val_words _ _ (scalar_mul_ok a b Ha Hb)).
  - intros Ha. exact (val_words _ _ (scalar_invert_pow a Ha)).
  - intros Ha. exact (half_words a Ha).
  - intros Hb. exact (canonical_words b Hb).
  - intros Hb. exact (val_words _ _ (from_bytes_wide_ok b Hb)).
  - u2.
  - u2.
  - u1.
  - u1.
  - u1.
  - u1.
  - u1.
  - u2.
  - u2.
  - u1.
  - u1.
  - u1.
  - u1.
  - u1.
  - u2.
  - u1.
  - u1.
  - u1.
  - u1.
  - u1.
  - u2.
  - u1.
  - u1.
  - u2.
  - u1.
  - u1.
  - u2.
  - u2.
  - u2.
  - u2.
  - u2.
  - u1.
  - u2.
  - u1.
  - u2.
  - intros [Hb Ht]. cbn [api_val meaning]. apply (f_equal (@Some _)). exact (ladder_words b s Hb Ht).
  - u2.
  - u1.
  - u2.
  - u2.
  - u1.
  - u1.
  - u1.
  - u2. apply (f_equal (@Some bool)). apply class_ceqb; [eapply ob_even; [|eassumption]; tauto|eapply ob_even; [|eassumption]; tauto].
  - u2. apply (f_equal (@Some bool)). apply class_ceqb; [eapply ob_even_rs; [|eassumption]; tauto|eapply ob_even_rs; [|eassumption]; tauto].
Qed.

Theorem data_meaning : forall B, shipped B -> forall d (e : api (TData d)), api_ok e -> api_run B e = Ok (meaning e).
Proof. intros B S d e H. rewrite <- (api_means _ e H). exact (proj1 (api_data B S d e H)). Qed.

Lemma reps_valid : forall B ps qs, Forall2 (ed_rep B) ps qs -> Forall2 (fun P Q => ed_valid B P /\ ed_affine B P = Q) ps qs.
Proof. intros B ps qs R. induction R as [|P Q Ps Qs K R IH]; constructor; [|exact IH]. apply ed_rep_iff. exact K. Qed.
Theorem value_meaning : forall B, shipped B -> forall s (e : api s), api_ok e ->
  exists o, api_run B e = Ok o /\ returns B o (meaning e).
Proof.
  intros B S s e H. destruct (api_run_ok B S s e H) as (o & E & R). exists o. split; [exact E|]. rewrite <- (api_means _ e H).
  destruct o as [v|], (api_val e) as [a|]; cbn [oarep returns] in *; try exact R. destruct s; cbn [arep stands_for] in *; try exact R.
  - apply ed_rep_iff. exact R.
  - destruct R as ((_ & E1) & (_ & E2) & O). split; [|exact O]. rewrite E1, E2. symmetry. apply surjective_pairing.
  - exact (reps_valid B v a R).
  - apply tw_rep_iff. exact R.
  - apply xt_rep_iff. exact R.
  - destruct R as (_ & _ & E1 & E2). rewrite E1, E2. symmetry. apply surjective_pairing.
  - destruct R as (_ & Q & K & C). apply tw_rep_iff in K. destruct K as [V <-]. split; assumption.
  - destruct R as (_ & Q & K & C). apply tw_rep_iff in K. destruct K as [V <-]. split; assumption.
Qed.

(** ** A program: the equation of a signature check on decompressed points *)
Definition check (a r : list Z) (s h : scalar) : api (TData DBool) :=
  AEdEq (AEdMul AEdGenerator s) (AEdAdd (AEdDecompress r) (AEdMul (AEdDecompress a) h)).
Lemma check_meaning : forall B, shipped B -> forall a r s h, bytes 57 a -> bytes 57 r -> is_scalar s -> is_scalar h ->
  api_run B (check a r s h) = Ok (match ed_decode r, ed_decode a with
    | Some R, Some A => Some (peq (pmul ed_a ed_d (sval s) SpecCurve.G) (padd ed_a ed_d R (pmul ed_a ed_d (sval h) A)))
    | _, _ => None
    end).
Proof.
  intros B S a r s h Ha Hr Hs Hh. rewrite (data_meaning B S _ (check a r s h)) by (cbn [check api_ok]; tauto). apply (f_equal (@Ok _)).
  cbn [check meaning ob]. destruct (ed_decode r); [|reflexivity]. destruct (ed_decode a); reflexivity.
Qed.
