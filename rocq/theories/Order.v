(** The base point of Ed448-Goldilocks has order l: [l]G = O, by a computation in projective coordinates on hexadecimal
    digits (446 doublings and 80 additions along the signed binary expansion of l). *)
Require Import ZArith List Bool Lia Ring Field.
From Verif Require Import SpecParams SpecField SpecCurve FieldTheory EdwardsTheory CurveTheory HexNum FieldMain.
From Verif Require HexP.
Import ListNotations.
Open Scope F_scope.
Local Opaque fadd fsub fmul fopp fdiv finv fpow of_Z.

Notation "x <-? e ;; f" := (HexP.obind e (fun x => f)) (at level 90, e at level 89, right associativity).
Definition hpt : Type := list dig * list dig * list dig.

Definition h_double (P : hpt) : option hpt :=
  let '(X, Y, Z) := P in
  s <-? HexP.padd X Y ;; b <-? HexP.psq s ;; c <-? HexP.psq X ;; d <-? HexP.psq Y ;;
  e <-? HexP.padd c d ;; h <-? HexP.psq Z ;; h2 <-? HexP.padd h h ;; j <-? HexP.psub e h2 ;;
  be <-? HexP.psub b e ;; cd <-? HexP.psub c d ;;
  X3 <-? HexP.pmul be j ;; Y3 <-? HexP.pmul e cd ;; Z3 <-? HexP.pmul e j ;; Some (X3, Y3, Z3).

(** 39081 = -d *)
Definition h_md : list dig := Eval vm_compute in hex 4 39081.
(** Addition of the affine point (x2, y2), s2 = x2 + y2. *)
Definition h_add (P : hpt) (x2 y2 s2 : list dig) : option hpt :=
  let '(X, Y, Z) := P in
  b <-? HexP.psq Z ;; c <-? HexP.pmul X x2 ;; d <-? HexP.pmul Y y2 ;; cd <-? HexP.pmul c d ;; e <-? HexP.pmul h_md cd ;;
  f <-? HexP.padd b e ;; g <-? HexP.psub b e ;; s <-? HexP.padd X Y ;; t <-? HexP.pmul s s2 ;;
  t1 <-? HexP.psub t c ;; t2 <-? HexP.psub t1 d ;;
  zf <-? HexP.pmul Z f ;; zg <-? HexP.pmul Z g ;; dc <-? HexP.psub d c ;;
  X3 <-? HexP.pmul zf t2 ;; Y3 <-? HexP.pmul zg dc ;; Z3 <-? HexP.pmul f g ;; Some (X3, Y3, Z3).

Inductive sdig := D0 | DP | DM.
Definition sd_val (d : sdig) : Z := match d with D0 => 0 | DP => 1 | DM => -1 end.
Definition sd_acc (l : list sdig) (n : Z) : Z := fold_left (fun n d => 2 * n + sd_val d)%Z l n.

Definition hGx : list dig := Eval vm_compute in hex 112 (fval Gx).
Definition hGy : list dig := Eval vm_compute in hex 112 (fval Gy).
Definition hmGx : list dig := Eval vm_compute in hex 112 (p - fval Gx).
Definition hGs : list dig := Eval vm_compute in hex 112 ((fval Gx + fval Gy) mod p).
Definition hGd : list dig := Eval vm_compute in hex 112 ((fval Gy - fval Gx) mod p).
Definition h_one : list dig := Eval vm_compute in hex 112 1.

Fixpoint h_run (l : list sdig) (P : hpt) : option hpt :=
  match l with
  | [] => Some P
  | d :: l' =>
      P2 <-? h_double P ;;
      match d with
      | D0 => h_run l' P2
      | DP => P3 <-? h_add P2 hGx hGy hGs ;; h_run l' P3
      | DM => P3 <-? h_add P2 hmGx hGy hGd ;; h_run l' P3
      end
  end.

(** The signed binary digits of l below the leading one. *)
Definition ell_digits : list sdig :=
  [D0; D0; D0; D0; D0; D0; D0; D0; D0; D0; D0; D0; D0; D0; D0; D0; D0; D0; D0; D0; D0; D0; D0; D0; D0; D0; D0; D0; D0;
   D0; D0; D0; D0; D0; D0; D0; D0; D0; D0; D0; D0; D0; D0; D0; D0; D0; D0; D0; D0; D0; D0; D0; D0; D0; D0; D0; D0; D0;
   D0; D0; D0; D0; D0; D0; D0; D0; D0; D0; D0; D0; D0; D0; D0; D0; D0; D0; D0; D0; D0; D0; D0; D0; D0; D0; D0; D0; D0;
   D0; D0; D0; D0; D0; D0; D0; D0; D0; D0; D0; D0; D0; D0; D0; D0; D0; D0; D0; D0; D0; D0; D0; D0; D0; D0; D0; D0; D0;
   D0; D0; D0; D0; D0; D0; D0; D0; D0; D0; D0; D0; D0; D0; D0; D0; D0; D0; D0; D0; D0; D0; D0; D0; D0; D0; D0; D0; D0;
   D0; D0; D0; D0; D0; D0; D0; D0; D0; D0; D0; D0; D0; D0; D0; D0; D0; D0; D0; D0; D0; D0; D0; D0; D0; D0; D0; D0; D0;
   D0; D0; D0; D0; D0; D0; D0; D0; D0; D0; D0; D0; D0; D0; D0; D0; D0; D0; D0; D0; D0; D0; D0; D0; D0; D0; D0; D0; D0;
   D0; D0; D0; D0; D0; D0; D0; D0; D0; D0; D0; D0; D0; D0; D0; D0; D0; D0; D0; DM; D0; D0; D0; D0; DM; D0; DP; D0; DM;
   D0; D0; DP; D0; DP; D0; D0; D0; DP; D0; D0; DP; D0; D0; D0; D0; DM; D0; DP; D0; DP; D0; D0; DM; D0; D0; D0; DP; D0;
   D0; D0; DP; D0; DP; D0; D0; D0; DM; D0; D0; DM; D0; D0; DM; D0; DM; D0; DP; D0; D0; DP; D0; DP; D0; D0; DM; D0; DM;
   D0; D0; D0; DM; D0; D0; DM; D0; DM; D0; DM; D0; D0; DP; D0; D0; DM; D0; DM; D0; DP; D0; D0; DP; D0; D0; D0; D0; D0;
   D0; DP; D0; D0; D0; DP; D0; DM; D0; D0; DM; D0; DM; D0; DP; D0; DM; D0; D0; D0; D0; DP; D0; DP; D0; D0; DM; D0; D0;
   DP; D0; DP; D0; D0; DP; D0; D0; DM; D0; D0; DM; D0; D0; DP; D0; DM; D0; DM; D0; D0; DP; D0; D0; D0; DM; D0; DP; D0;
   DP; D0; DP; D0; DP; D0; D0; DP; D0; D0; DP; D0; D0; DM; D0; D0; D0; DM; D0; D0; DP; D0; DM; D0; D0; D0; D0; DP; D0;
   DP; D0; D0; DP; D0; DP; D0; DM; D0; DM; D0; DM; D0; DM; D0; D0; DM; D0; DM; D0; DM; D0; D0; D0; D0; DP; D0; D0; D0;
   DP; D0; DP; D0; D0; D0; DM; D0; DP; D0; DM].

Definition h_is_zero (R : option hpt) : bool :=
  match R with
  | Some (X, Y, Z) => ((hval X mod p =? 0) && ((hval Y - hval Z) mod p =? 0))%Z
  | None => false
  end.

(** ** Soundness *)
Definition hv (l : list dig) : F := of_Z (hval l).
Lemma hv_mul : forall a b r, HexP.pmul a b = Some r -> hv r = hv a * hv b.
Proof. intros a b r E. apply HexP.pmul_ok in E. unfold hv. rewrite <- of_Z_mul. apply of_Z_eq. exact E. Qed.
Lemma hv_sq : forall a r, HexP.psq a = Some r -> hv r = hv a * hv a.
Proof. intros a r E. apply HexP.psq_ok in E. unfold hv. rewrite <- of_Z_mul. apply of_Z_eq. exact E. Qed.
Lemma hv_add : forall a b r, HexP.padd a b = Some r -> hv r = hv a + hv b.
Proof. intros a b r E. apply HexP.padd_ok in E. unfold hv. rewrite <- of_Z_add. apply of_Z_eq. exact E. Qed.
Lemma hv_sub : forall a b r, HexP.psub a b = Some r -> hv r = hv a - hv b.
Proof. intros a b r E. apply HexP.psub_ok in E. unfold hv. rewrite <- of_Z_sub. apply of_Z_eq. exact E. Qed.

Definition hrep (P : hpt) (Q : point) : Prop :=
  let '(X, Y, Z) := P in on_ed Q /\ hv Z <> 0 /\ hv X = fst Q * hv Z /\ hv Y = snd Q * hv Z.

Ltac hstep := match goal with
  | E : HexP.obind ?e _ = Some _ |- _ => let V := fresh "V" in destruct e eqn:V; [|discriminate E]; cbn [HexP.obind] in E;
      first [apply hv_mul in V | apply hv_sq in V | apply hv_add in V | apply hv_sub in V]
  end.
Ltac hvals := repeat match goal with V : hv ?r = _ |- context [hv ?r] => rewrite V end.

Lemma h_double_ok : forall P Q R, hrep P Q -> h_double P = Some R -> hrep R (padd ed_a ed_d Q Q).
Proof.
  intros [[X Y] Z] [x y] R (HQ & NZ & EX & EY) E. unfold h_double in E. repeat hstep. injection E as <-. unfold hrep.
  split; [apply (eg_add _ _ _ ed_group); exact HQ|].
  pose proof (ed_C_nz x y HQ) as NC. pose proof (ed_E_nz x y HQ) as NE. rewrite ed_dbl_eq by exact HQ. cbn [fst snd] in *.
  hvals. clear - NZ NC NE. generalize dependent (hv Z). intros z Nz.
  set (c := y * y + x * x) in *. set (e := of_Z 2 - c) in *.
  assert (Z3 : (x * z * (x * z) + y * z * (y * z)) * (x * z * (x * z) + y * z * (y * z) - (z * z + z * z)) = - (e * c * (z * z) * (z * z))) by (unfold e, c; ring).
  rewrite Z3. assert (Q1 : e * c * (z * z) * (z * z) <> 0) by (repeat apply fmul_nonzero; assumption).
  split; [intro H; apply Q1; apply fopp_0_iff; exact H|]. split.
  - transitivity (- (of_Z 2 * x * y * e * (z * z) * (z * z))); [unfold e, c; ring|field; assumption].
  - transitivity (- ((y * y - x * x) * c * (z * z) * (z * z))); [unfold c; ring|field; assumption].
Qed.
Lemma hv_md : hv h_md = - ed_d.
Proof. rewrite ed_d_eq. unfold hv. change (hval h_md) with 39081%Z. ring. Qed.
Lemma h_add_ok : forall P Q R x2 y2 s2, hrep P Q -> on_ed (hv x2, hv y2) -> hv s2 = hv x2 + hv y2 -> h_add P x2 y2 s2 = Some R ->
  hrep R (padd ed_a ed_d Q (hv x2, hv y2)).
Proof.
  intros [[X Y] Z] [x y] R x2 y2 s2 (HQ & NZ & EX & EY) H2 Hs E. unfold h_add in E. repeat hstep. injection E as <-. unfold hrep.
  split; [apply (eg_add _ _ _ ed_group); assumption|].
  destruct (eg_den _ _ _ ed_group _ _ HQ H2) as [N1 N2]. cbn [fst snd padd] in *. hvals. rewrite hv_md.
  clear - NZ N1 N2. generalize dependent (hv Z). intros z Nz. generalize dependent (hv x2). generalize (hv y2). intros v u N1 N2.
  unfold ed_a.
  set (P1 := 1 + ed_d * x * u * y * v) in *. set (P2 := 1 - ed_d * x * u * y * v) in *.
  assert (E1 : z * z + - ed_d * (x * z * u * (y * z * v)) = P2 * (z * z)) by (unfold P2; ring).
  assert (E2 : z * z - - ed_d * (x * z * u * (y * z * v)) = P1 * (z * z)) by (unfold P1; ring).
  rewrite E1, E2. split; [repeat apply fmul_nonzero; assumption|]. split; field; assumption.
Qed.

Lemma hGx_ok : hv hGx = Gx. Proof. apply of_Z_eq. vm_compute. reflexivity. Qed.
Lemma hGy_ok : hv hGy = Gy. Proof. apply of_Z_eq. vm_compute. reflexivity. Qed.
Lemma hmGx_ok : hv hmGx = - Gx. Proof. unfold hv, Gx. rewrite <- of_Z_opp. apply of_Z_eq. vm_compute. reflexivity. Qed.
Lemma hGs_ok : hv hGs = Gx + Gy. Proof. unfold hv, Gx, Gy. rewrite <- of_Z_add. apply of_Z_eq. vm_compute. reflexivity. Qed.
Lemma hGd_ok : hv hGd = - Gx + Gy. Proof. unfold hv, Gx, Gy. rewrite <- of_Z_opp, <- of_Z_add. apply of_Z_eq. vm_compute. reflexivity. Qed.

Lemma h_run_ok : forall l P n R, hrep P (zmul ed_a ed_d n G) -> h_run l P = Some R -> hrep R (zmul ed_a ed_d (sd_acc l n) G).
Proof.
  pose proof G_on_curve as HG. pose proof (on_curve_neg _ _ _ HG) as HN.
  induction l as [|d l IH]; intros P n R HP E; cbn [h_run] in E.
  - injection E as <-. exact HP.
  - destruct (h_double P) as [P2|] eqn:E2; [|discriminate]. cbn [HexP.obind] in E.
    apply (h_double_ok _ _ _ HP) in E2. rewrite <- (zmul_add _ _ _ ed_group) in E2 by exact HG.
    change (sd_acc (d :: l) n) with (sd_acc l (2 * n + sd_val d)). replace (2 * n + sd_val d)%Z with (n + n + sd_val d)%Z by ring.
    destruct d; cbn [sd_val].
    + apply (IH P2); [|exact E]. rewrite Z.add_0_r. exact E2.
    + destruct (h_add P2 hGx hGy hGs) as [P3|] eqn:E3; [|discriminate]. cbn [HexP.obind] in E. apply (IH P3); [|exact E].
      apply (h_add_ok _ _ _ _ _ _ E2) in E3.
      * rewrite hGx_ok, hGy_ok in E3. fold G in E3. rewrite (zmul_add _ _ _ ed_group) by exact HG.
        rewrite (zmul_nonneg _ _ 1), pmul_1 by lia. exact E3.
      * rewrite hGx_ok, hGy_ok. exact HG.
      * rewrite hGx_ok, hGy_ok. exact hGs_ok.
    + destruct (h_add P2 hmGx hGy hGd) as [P3|] eqn:E3; [|discriminate]. cbn [HexP.obind] in E. apply (IH P3); [|exact E].
      apply (h_add_ok _ _ _ _ _ _ E2) in E3.
      * rewrite hmGx_ok, hGy_ok in E3. change (- Gx, Gy) with (pneg G) in E3. rewrite (zmul_add _ _ _ ed_group) by exact HG.
        change (-1)%Z with (- (1))%Z. rewrite (zmul_opp _ _ on_ed), (zmul_nonneg _ _ 1), pmul_1 by (lia || exact HG). exact E3.
      * rewrite hmGx_ok, hGy_ok. exact HN.
      * rewrite hmGx_ok, hGy_ok. exact hGd_ok.
Qed.

Lemma ell_digits_ok : sd_acc ell_digits 1 = ell.
Proof. vm_compute. reflexivity. Qed.

Lemma h_run_zero : forall l, sd_acc l 1 = ell -> h_is_zero (h_run l (hGx, hGy, h_one)) = true -> pmul ed_a ed_d ell G = pzero.
Proof.
  intros l HL H. destruct (h_run l (hGx, hGy, h_one)) as [[[X Y] Z]|] eqn:E; [|discriminate]. unfold h_is_zero in H.
  apply andb_true_iff in H. destruct H as [H1 H2]. apply Z.eqb_eq in H1, H2.
  apply (h_run_ok _ _ 1) in E.
  - rewrite HL in E. rewrite zmul_nonneg in E by (vm_compute; discriminate). destruct E as (_ & NZ & EX & EY).
    destruct (pmul ed_a ed_d ell G) as [x y]. cbn [fst snd] in *.
    assert (X0 : hv X = 0) by (apply of_Z_eq; exact H1).
    assert (Y0 : hv Y - hv Z = 0) by (unfold hv; rewrite <- of_Z_sub; apply of_Z_eq; exact H2).
    rewrite X0 in EX. symmetry in EX. apply fmul_integral in EX. destruct EX as [->|]; [|contradiction].
    apply pt_eq; [reflexivity|]. apply (fmul_cancel_l (hv Z)); [exact NZ|]. apply (proj1 (fsub_0_eq _ _)) in Y0. rewrite EY in Y0.
    transitivity (y * hv Z); [ring|]. rewrite Y0. ring.
  - rewrite zmul_nonneg, pmul_1 by lia. unfold hrep. split; [exact G_on_curve|].
    assert (E1 : hv h_one = 1) by reflexivity. rewrite E1, hGx_ok, hGy_ok. split; [exact F_1_neq_0|]. cbn [G fst snd].
    generalize Gx Gy. intros. split; ring.
Qed.

Theorem ell_G : pmul ed_a ed_d ell G = pzero.
Proof. apply (h_run_zero ell_digits ell_digits_ok). vm_cast_no_check (eq_refl true). Qed.
