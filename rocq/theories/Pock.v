(** A boolean checker for Pocklington certificates, computing with [HexNum]. *)
Require Import ZArith Znumtheory List Bool Lia.
From Verif Require Import NumTheory HexNum.
Import ListNotations.
Open Scope Z_scope.

Fixpoint mpow (n : nat) (N : list dig) (n0 : dig) (b : list dig) (e : positive) : option (list dig) :=
  match e with
  | xH => Some b
  | xO e' => match mpow n N n0 b e' with None => None | Some r => mmul n N n0 r r end
  | xI e' =>
      match mpow n N n0 b e' with
      | None => None
      | Some r => match mmul n N n0 r r with None => None | Some r2 => mmul n N n0 r2 b end
      end
  end.

Section Pow.
Variables (n : nat) (Nl : list dig) (n0 : dig).
Let N := hval Nl.
Let R := 16 ^ Z.of_nat n.
Hypothesis HN : 1 < N.
Hypothesis Hodd : N mod 2 = 1.

Lemma R_inv : exists Ri, (R * Ri) mod N = 1.
Proof.
  set (h := (N + 1) / 2).
  assert (E : 2 * h = N + 1).
  { unfold h. pose proof (Z.div_mod (N + 1) 2 ltac:(lia)) as D.
    assert ((N + 1) mod 2 = 0) by (rewrite Z.add_mod by lia; rewrite Hodd; reflexivity). lia. }
  exists (h ^ (4 * Z.of_nat n)). unfold R. change 16 with (2 ^ 4). rewrite <- Z.pow_mul_r by lia.
  rewrite <- Z.pow_mul_l. rewrite E. apply pow_1_mod; [lia|lia|].
  replace (N + 1) with (1 + 1 * N) by ring. rewrite Z.mod_add by lia. apply Z.mod_1_l. lia.
Qed.

Lemma R_cancel : forall x y, (R * x) mod N = (R * y) mod N -> x mod N = y mod N.
Proof.
  intros x y E. destruct R_inv as [Ri HRi].
  assert (X : forall z, z mod N = (Ri * (R * z)) mod N).
  { intro z. replace (Ri * (R * z)) with ((R * Ri) * z) by ring. rewrite Z.mul_mod by lia. rewrite HRi.
    rewrite Z.mul_1_l. symmetry. apply Z.mod_mod. lia. }
  rewrite (X x), (X y). apply mod_mul_cong; [lia|reflexivity|exact E].
Qed.

(** [r] is the Montgomery form of the residue [v]. *)
Definition mform (v : Z) (r : list dig) : Prop := hval r mod N = (v * R) mod N.

Lemma mmul_form : forall v w x y r, mform v x -> mform w y -> mmul n Nl n0 x y = Some r -> mform (v * w) r.
Proof.
  intros v w x y r Hx Hy E. unfold mmul in E. rewrite !forced_true in E.
  apply hmont_ok in E. destruct E as [k E]. cbn [hval] in E. fold R in E. fold N in E.
  unfold mform. apply R_cancel. rewrite E. rewrite Z.mod_add by lia. rewrite Z.add_0_l.
  rewrite (mod_mul_cong N _ (v * R) _ (w * R)) by (assumption || lia). f_equal. ring.
Qed.

Lemma mpow_form : forall v b e r, mform v b -> mpow n Nl n0 b e = Some r -> mform (v ^ Zpos e) r.
Proof.
  intros v b e. induction e as [e IH|e IH|]; intros r Hb E; cbn [mpow] in E.
  - destruct (mpow n Nl n0 b e) as [t|]; [|discriminate].
    destruct (mmul n Nl n0 t t) as [t2|] eqn:E2; [|discriminate].
    pose proof (IH t Hb eq_refl) as Ht. pose proof (mmul_form _ _ _ _ _ Ht Ht E2) as H2.
    pose proof (mmul_form _ _ _ _ _ H2 Hb E) as H3.
    replace (v ^ Zpos e~1) with (v ^ Zpos e * v ^ Zpos e * v); [exact H3|].
    rewrite Pos2Z.inj_xI. rewrite Z.pow_add_r by lia. rewrite Z.pow_1_r. rewrite Z.mul_comm with (n := 2).
    rewrite Z.pow_mul_r by lia. rewrite Z.pow_2_r. reflexivity.
  - destruct (mpow n Nl n0 b e) as [t|]; [|discriminate].
    pose proof (IH t Hb eq_refl) as Ht. pose proof (mmul_form _ _ _ _ _ Ht Ht E) as H2.
    replace (v ^ Zpos e~0) with (v ^ Zpos e * v ^ Zpos e); [exact H2|].
    rewrite Pos2Z.inj_xO. rewrite Z.mul_comm with (n := 2). rewrite Z.pow_mul_r by lia. rewrite Z.pow_2_r. reflexivity.
  - injection E as <-. rewrite Z.pow_1_r. exact Hb.
Qed.

Lemma mpow_small_form : forall a aR e r, mform (dval a) aR -> mpow_small n Nl n0 a aR e = Some r -> mform (dval a ^ Zpos e) r.
Proof.
  intros a aR e. induction e as [e IH|e IH|]; intros r Hb E; cbn [mpow_small] in E.
  - destruct (mpow_small n Nl n0 a aR e) as [t|]; [|discriminate].
    destruct (mmul n Nl n0 t t) as [t2|] eqn:E2; [|discriminate].
    pose proof (IH t Hb eq_refl) as Ht. pose proof (mmul_form _ _ _ _ _ Ht Ht E2) as H2.
    apply fit_ok in E. rewrite mac_ok in E. cbn [hval] in E. change (dval x0) with 0 in E.
    unfold mform in *. rewrite E. rewrite !Z.add_0_r.
    replace (dval a ^ Zpos e~1) with (dval a * (dval a ^ Zpos e * dval a ^ Zpos e)).
    2:{ rewrite Pos2Z.inj_xI. rewrite Z.pow_add_r by lia. rewrite Z.pow_1_r. rewrite Z.mul_comm with (n := 2).
        rewrite Z.pow_mul_r by lia. rewrite Z.pow_2_r. ring. }
    rewrite <- Z.mul_assoc. apply mod_mul_cong; [lia|reflexivity|exact H2].
  - destruct (mpow_small n Nl n0 a aR e) as [t|]; [|discriminate].
    pose proof (IH t Hb eq_refl) as Ht. pose proof (mmul_form _ _ _ _ _ Ht Ht E) as H2.
    replace (dval a ^ Zpos e~0) with (dval a ^ Zpos e * dval a ^ Zpos e); [exact H2|].
    rewrite Pos2Z.inj_xO. rewrite Z.mul_comm with (n := 2). rewrite Z.pow_mul_r by lia. rewrite Z.pow_2_r. reflexivity.
  - injection E as <-. rewrite Z.pow_1_r. exact Hb.
Qed.
End Pow.

(** An entry (q, k, u): q prime with q*k = N-1 and u*(a^k - 1)*16^n = 1 mod N. *)
Definition entry : Type := positive * positive * Z.

Definition entry_check (N : Z) (n : nat) (Nl : list dig) (n0 a : dig) (aR : list dig) (e : entry) : option (list dig) :=
  let '(q, k, u) := e in
  if Zpos q * Zpos k =? N - 1 then
    match mpow_small n Nl n0 a aR k with
    | None => None
    | Some r => if (u * (hval r - 16 ^ Z.of_nat n)) mod N =? 1 then Some r else None
    end
  else None.

Fixpoint distinct (l : list positive) : bool :=
  match l with [] => true | q :: l' => negb (existsb (Pos.eqb q) l') && distinct l' end.

Definition pock_check (N : Z) (n : nat) (n0 a : dig) (e1 : entry) (es : list entry) : bool :=
  let Nl := hex n N in
  let R := 16 ^ Z.of_nat n in
  let aR := hex n ((dval a * R) mod N) in
  let qs := map (fun e => fst (fst e)) (e1 :: es) in
  let P := zprod (map Zpos qs) in
  (1 <? N) && (N <? R) && (N mod 2 =? 1) && (N <? P * P) && distinct qs &&
  match entry_check N n Nl n0 a aR e1 with
  | None => false
  | Some r =>
      match mpow n Nl n0 r (fst (fst e1)) with
      | None => false
      | Some r2 => (hval r2 mod N =? R mod N) &&
          forallb (fun e => match entry_check N n Nl n0 a aR e with Some _ => true | None => false end) es
      end
  end.

Lemma distinct_ok : forall l, distinct l = true -> NoDup (map Zpos l).
Proof.
  induction l as [|q l IH]; intro H; cbn [map]; [constructor|].
  cbn [distinct] in H. apply andb_true_iff in H. destruct H as [H1 H2]. constructor; [|apply IH; exact H2].
  intro Hin. apply in_map_iff in Hin. destruct Hin as (q' & E & Hin). injection E as ->.
  apply negb_true_iff in H1. assert (existsb (Pos.eqb q) l = true); [|congruence].
  apply existsb_exists. exists q. split; [exact Hin|]. apply Pos.eqb_refl.
Qed.

Theorem pock_check_ok : forall N n n0 a e1 es, pock_check N n n0 a e1 es = true ->
  (forall q, In q (map (fun e => Zpos (fst (fst e))) (e1 :: es)) -> prime q) -> prime N.
Proof.
  intros N n n0 a e1 es H HP. unfold pock_check in H.
  apply andb_true_iff in H. destruct H as [H Hd]. apply andb_true_iff in H. destruct H as [H HD].
  apply andb_true_iff in H. destruct H as [H H1]. apply andb_true_iff in H. destruct H as [H H2].
  apply andb_true_iff in H. destruct H as [H1N HNR].
  apply Z.ltb_lt in H1N. apply Z.ltb_lt in HNR. apply Z.eqb_eq in H2. apply Z.ltb_lt in H1. apply distinct_ok in HD.
  set (Nl := hex n N) in *. set (R := 16 ^ Z.of_nat n) in *. set (aR := hex n ((dval a * R) mod N)) in *.
  assert (HNl : hval Nl = N) by (unfold Nl; rewrite hval_hex; apply Z.mod_small; unfold R in *; lia).
  assert (HaR : mform n Nl (dval a) aR).
  { unfold mform. rewrite HNl. unfold aR. rewrite hval_hex. fold R.
    rewrite Z.mod_small with (b := R); [apply Z.mod_mod; lia|].
    pose proof (Z.mod_pos_bound (dval a * R) N ltac:(lia)). lia. }
  assert (EC : forall q k u r, entry_check N n Nl n0 a aR (q, k, u) = Some r ->
     (Zpos q * Zpos k = N - 1) /\ mform n Nl (dval a ^ Zpos k) r /\ exists u, (u * (dval a ^ ((N - 1) / Zpos q) - 1)) mod N = 1).
  { intros q k u r E. unfold entry_check in E.
    destruct (Z.eqb_spec (Zpos q * Zpos k) (N - 1)) as [Eq|]; [|discriminate].
    destruct (mpow_small n Nl n0 a aR k) as [r'|] eqn:Ep; [|discriminate]. fold R in E.
    destruct (Z.eqb_spec ((u * (hval r' - R)) mod N) 1) as [Eu|]; [|discriminate]. injection E as ->.
    apply mpow_small_form in Ep; [|rewrite HNl; assumption|rewrite HNl; assumption|exact HaR].
    split; [exact Eq|]. split; [exact Ep|]. exists (u * R).
    assert ((N - 1) / Zpos q = Zpos k) as -> by (rewrite <- Eq, Z.mul_comm; apply Z.div_mul; lia).
    etransitivity; [|exact Eu]. unfold mform in Ep. rewrite HNl in Ep. fold R in Ep.
    rewrite <- Z.mul_assoc. apply mod_mul_cong; [lia|reflexivity|].
    replace (R * (dval a ^ Z.pos k - 1)) with (dval a ^ Z.pos k * R - R) by ring.
    rewrite Zminus_mod, <- Ep, <- Zminus_mod. reflexivity. }
  destruct e1 as [[q1 k1] u1]. destruct (entry_check N n Nl n0 a aR (q1, k1, u1)) as [r1|] eqn:E1; [|discriminate].
  cbn [fst] in *.
  destruct (mpow n Nl n0 r1 q1) as [r2|] eqn:E2; [|discriminate].
  apply andb_true_iff in Hd. destruct Hd as [Hd1 Hd2]. apply Z.eqb_eq in Hd1.
  destruct (EC _ _ _ _ E1) as (Q1 & F1 & U1).
  apply (mpow_form n Nl n0) with (v := dval a ^ Zpos k1) in E2; [|rewrite HNl; assumption|rewrite HNl; assumption|exact F1].
  rewrite <- Z.pow_mul_r in E2 by lia. rewrite Z.mul_comm in Q1. rewrite Q1 in E2.
  apply (pocklington N (dval a) (map Zpos (q1 :: map (fun e => fst (fst e)) es))).
  - exact H1N.
  - unfold mform in E2. rewrite HNl in E2. fold R in E2. rewrite Hd1 in E2.
    assert (X : (R * 1) mod N = (R * dval a ^ (N - 1)) mod N) by (rewrite Z.mul_1_r, E2; f_equal; ring).
    pose proof (R_cancel n Nl) as RC. rewrite HNl in RC. apply (RC H1N H2) in X. rewrite Z.mod_1_l in X by lia. symmetry. exact X.
  - exact HD.
  - intros q Hq. cbn [map] in Hq. destruct Hq as [<-|Hq].
    + split; [apply HP; left; reflexivity|]. split; [exists (Zpos k1); lia|exact U1].
    + rewrite map_map in Hq. apply in_map_iff in Hq. destruct Hq as ([[q' k'] u'] & <- & Hin). cbn [fst] in *.
      rewrite forallb_forall in Hd2. specialize (Hd2 _ Hin). 
      destruct (entry_check N n Nl n0 a aR (q', k', u')) as [r'|] eqn:E'; [|discriminate].
      destruct (EC _ _ _ _ E') as (Q' & _ & U').
      split; [apply HP; right; apply in_map_iff; exists (q', k', u'); split; [reflexivity|exact Hin]|].
      split; [exists (Zpos k'); lia|exact U'].
  - exact H1.
Qed.
