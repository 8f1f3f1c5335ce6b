(** Scalars, continued: inversion, halving, byte strings, bits, radix-16 digits. *)
Require Import ZArith List Bool Lia.
From Verif Require Import Base BaseProofs SpecParams ScalarModel ScalarProofs.
Import ListNotations.
Open Scope Z_scope.
Open Scope res_scope.

(** ** Inversion: simulation on exponents *)

(** [x] is the Montgomery form of a^e. *)
Definition mrep (a e : Z) (x : scalar) : Prop :=
  is_scalar x /\ 0 <= e /\ sval x mod ell = (a ^ e * 2 ^ 448) mod ell.

Lemma mrep_mul : forall a e f x y, mrep a e x -> mrep a f y ->
  exists r, montgomery_multiply x y = Ok r /\ mrep a (e + f) r.
Proof.
  intros a e f x y (Hx & He & Ex) (Hy & Hf & Ey).
  destruct (mont_ok x y Hx Hy) as (r & E & Hr & K & _). exists r. split; [exact E|].
  split; [exact Hr|]. split; [lia|]. apply R_cancel. rewrite K. pose proof ell_pos.
  rewrite Z.mul_mod by lia. rewrite Ex, Ey. rewrite <- Z.mul_mod by lia.
  rewrite Z.pow_add_r by lia. f_equal. ring.
Qed.

Lemma inv_precomp_ok : forall s, is_scalar s ->
  exists pre, inv_precomp s = Ok pre /\ Forall2 (mrep (sval s)) [1;3;5;7;9;11;13;15] pre.
Proof.
  intros s Hs. unfold inv_precomp.
  destruct (mont_R2 s Hs) as (p0 & E0 & Hp0 & _ & K0). rewrite E0. cbn [bind].
  assert (M0 : mrep (sval s) 1 p0).
  { split; [exact Hp0|]. split; [lia|]. rewrite K0. rewrite Z.pow_1_r. f_equal. ring. }
  destruct (mrep_mul _ _ _ _ _ M0 M0) as (sq & Esq & Msq). rewrite Esq. cbn [bind].
  destruct (mrep_mul _ _ _ _ _ M0 Msq) as (p1 & E1 & M1). rewrite E1. cbn [bind].
  destruct (mrep_mul _ _ _ _ _ M1 Msq) as (p2 & E2 & M2). rewrite E2. cbn [bind].
  destruct (mrep_mul _ _ _ _ _ M2 Msq) as (p3 & E3 & M3). rewrite E3. cbn [bind].
  destruct (mrep_mul _ _ _ _ _ M3 Msq) as (p4 & E4 & M4). rewrite E4. cbn [bind].
  destruct (mrep_mul _ _ _ _ _ M4 Msq) as (p5 & E5 & M5). rewrite E5. cbn [bind].
  destruct (mrep_mul _ _ _ _ _ M5 Msq) as (p6 & E6 & M6). rewrite E6. cbn [bind].
  destruct (mrep_mul _ _ _ _ _ M6 Msq) as (p7 & E7 & M7). rewrite E7. cbn [bind].
  eexists. split; [reflexivity|]. repeat (constructor; [assumption|]). constructor.
Qed.

(** The same loop with the group elements replaced by exponents. *)
Record inv_exp := { ie_e : Z; ie_residue : Z; ie_trailing : Z; ie_started : bool }.

Definition inv_step_e (i : Z) (st : inv_exp) : res inv_exp :=
  let e := if ie_started st then ie_e st + ie_e st else ie_e st in
  b <- inv_bit i ;;
  let residue := Z.lor (shl_u 32 (ie_residue st) 1) b in
  let '(trailing, residue) :=
    if shr residue 3 =? 0 then (ie_trailing st, residue) else (residue, 0) in
  if (0 <? trailing) && (Z.land trailing 7 =? 0) then
    p <- index [1;3;5;7;9;11;13;15] (shr trailing 4) ;;
    Ok {| ie_e := if ie_started st then e + p else p; ie_residue := residue; ie_trailing := 0; ie_started := true |}
  else
    Ok {| ie_e := e; ie_residue := residue; ie_trailing := shl_u 64 trailing 1; ie_started := ie_started st |}.

Fixpoint inv_loop_e (n : nat) (i : Z) (st : inv_exp) : res inv_exp :=
  match n with
  | O => Ok st
  | S n' => st' <- inv_step_e i st ;; inv_loop_e n' (i - 1) st'
  end.

Definition inv_sim (a : Z) (st : inv_state) (se : inv_exp) : Prop :=
  iv_residue st = ie_residue se /\ iv_trailing st = ie_trailing se /\ iv_started st = ie_started se /\
  (ie_started se = true -> mrep a (ie_e se) (iv_result st)).

Lemma index_F2 : forall {A B} (R : A -> B -> Prop) l1 l2 i x, Forall2 R l1 l2 -> index l1 i = Ok x ->
  exists y, index l2 i = Ok y /\ R x y.
Proof.
  intros A B R l1 l2 i x H. unfold index. destruct (i <? 0); [discriminate|].
  generalize (Z.to_nat i). induction H as [|a b l1 l2 Hab H IH]; intros n E; destruct n; cbn in *; try discriminate.
  - injection E as <-. exists b. split; [reflexivity|assumption].
  - apply IH. assumption.
Qed.

Lemma inv_step_sim : forall a pre i st se se', Forall2 (mrep a) [1;3;5;7;9;11;13;15] pre ->
  inv_sim a st se -> inv_step_e i se = Ok se' ->
  exists st', inv_step pre i st = Ok st' /\ inv_sim a st' se'.
Proof.
  intros a pre i st se se' Hpre (S1 & S2 & S3 & S4) E. unfold inv_step_e in E. unfold inv_step.
  rewrite S1, S2, S3.
  assert (Q : exists r, (if ie_started se then scalar_square (iv_result st) else Ok (iv_result st)) = Ok r /\
     (ie_started se = true -> mrep a (ie_e se + ie_e se) r)).
  { destruct (ie_started se) eqn:Es.
    - destruct (mrep_mul _ _ _ _ _ (S4 eq_refl) (S4 eq_refl)) as (r & Er & Mr). exists r. split; [exact Er|auto].
    - exists (iv_result st). split; [reflexivity|discriminate]. }
  destruct Q as (r & Er & Mr). rewrite Er. cbn [bind].
  destruct (inv_bit i) as [b|]; [|discriminate]. cbn [bind] in *.
  set (residue := Z.lor (shl_u 32 (ie_residue se) 1) b) in *.
  destruct (if shr residue 3 =? 0 then (ie_trailing se, residue) else (residue, 0)) as [trailing residue'].
  destruct ((0 <? trailing) && (Z.land trailing 7 =? 0)).
  - destruct (index [1;3;5;7;9;11;13;15] (shr trailing 4)) as [pe|] eqn:Ep; [|discriminate].
    cbn [bind] in E. injection E as <-.
    destruct (index_F2 _ _ _ _ _ Hpre Ep) as (pt & Ept & Mpt). rewrite Ept. cbn [bind].
    destruct (ie_started se) eqn:Es.
    + destruct (mrep_mul _ _ _ _ _ (Mr eq_refl) Mpt) as (r2 & Er2 & Mr2). rewrite Er2. cbn [bind].
      eexists. split; [reflexivity|]. split; [reflexivity|]. split; [reflexivity|]. split; [reflexivity|].
      intros _. exact Mr2.
    + cbn [bind]. eexists. split; [reflexivity|]. split; [reflexivity|]. split; [reflexivity|]. split; [reflexivity|].
      intros _. exact Mpt.
  - injection E as <-. eexists. split; [reflexivity|].
    split; [reflexivity|]. split; [reflexivity|]. split; [reflexivity|].
    cbn. intro Hst. rewrite Hst in *. apply Mr. reflexivity.
Qed.

Lemma inv_loop_sim : forall n a pre i st se se', Forall2 (mrep a) [1;3;5;7;9;11;13;15] pre ->
  inv_sim a st se -> inv_loop_e n i se = Ok se' ->
  exists st', inv_loop n i pre st = Ok st' /\ inv_sim a st' se'.
Proof.
  induction n; intros a pre i st se se' Hpre Hs E.
  - cbn in E. injection E as <-. exists st. split; [reflexivity|assumption].
  - cbn [inv_loop_e] in E. cbn [inv_loop].
    destruct (inv_step_e i se) as [se1|] eqn:E1; [|discriminate]. cbn [bind] in E.
    destruct (inv_step_sim _ _ _ _ _ _ Hpre Hs E1) as (st1 & E2 & Hs1). rewrite E2. cbn [bind].
    apply (IHn a pre (i - 1) st1 se1 se' Hpre Hs1 E).
Qed.

Lemma inv_exponent : exists st, inv_loop_e 449 445 {| ie_e := 0; ie_residue := 0; ie_trailing := 0; ie_started := false |} = Ok st
  /\ ie_e st = ell - 2 /\ ie_started st = true.
Proof. vm_compute. eexists. split; [reflexivity|]. split; reflexivity. Qed.

Lemma scalar_invert_exp : forall s se e, is_scalar s ->
  inv_loop_e 449 445 {| ie_e := 0; ie_residue := 0; ie_trailing := 0; ie_started := false |} = Ok se ->
  ie_e se = e -> ie_started se = true ->
  exists r, scalar_invert s = Ok r /\ is_scalar r /\ sval r = sval s ^ e mod ell.
Proof.
  intros s se e Hs Ee Ex Est. unfold scalar_invert.
  destruct (inv_precomp_ok s Hs) as (pre & Ep & Hpre). rewrite Ep. cbn [bind].
  destruct (inv_loop_sim 449 (sval s) pre 445
     {| iv_result := scalar_zero; iv_residue := 0; iv_trailing := 0; iv_started := false |}
     {| ie_e := 0; ie_residue := 0; ie_trailing := 0; ie_started := false |} se Hpre) as (st & E & Hsim);
    [|exact Ee|].
  { split; [reflexivity|]. split; [reflexivity|]. split; [reflexivity|]. cbn. discriminate. }
  clear Ee. rewrite E. cbn [bind]. destruct Hsim as (_ & _ & _ & H). specialize (H Est). rewrite Ex in H.
  destruct H as (Hr & _ & Kr).
  destruct (mont_ok (iv_result st) scalar_one Hr (proj1 scalar_one_ok)) as (r & E1 & Hr1 & K1 & Hc).
  rewrite E1. exists r. split; [reflexivity|]. split; [exact Hr1|].
  pose proof ell_pos. pose proof (scalar_range r Hr1). destruct scalar_one_ok as [_ H1]. rewrite H1 in *.
  rewrite <- (Z.mod_small (sval r) ell) by (specialize (Hc ltac:(lia)); lia).
  apply R_cancel. rewrite K1. rewrite Z.mul_1_r. rewrite Kr. f_equal. ring.
Qed.

(** [invert] computes s^(l-2) modulo l, canonically, for every scalar. *)
Lemma scalar_invert_pow : forall s, is_scalar s ->
  exists r, scalar_invert s = Ok r /\ is_scalar r /\ sval r = sval s ^ (ell - 2) mod ell.
Proof.
  intros s Hs. destruct inv_exponent as (se & Ee & Ex & Est). exact (scalar_invert_exp s se (ell - 2) Hs Ee Ex Est).
Qed.

(** ** Shifts across limbs *)
Lemma lor_shift_limb : forall k x y, 0 < k < 32 -> 0 <= x < 2 ^ 32 -> 0 <= y ->
  Z.lor (shr x k) (shl_u 32 y (32 - k)) = x / 2 ^ k + 2 ^ (32 - k) * (y mod 2 ^ k).
Proof.
  intros k x y Hk Hx Hy. rewrite shr_div by lia. rewrite shl_u_mul by lia.
  assert (P : 2 ^ 32 = 2 ^ k * 2 ^ (32 - k)) by (rewrite <- Z.pow_add_r by lia; f_equal; lia).
  assert (0 < 2 ^ k) by (apply Z.pow_pos_nonneg; lia).
  assert (0 < 2 ^ (32 - k)) by (apply Z.pow_pos_nonneg; lia).
  rewrite P. rewrite Z.mul_mod_distr_r by lia.
  rewrite lor_add; [ring | lia | | ].
  - split; [apply Z.div_pos; lia|]. apply Z.div_lt_upper_bound; lia.
  - apply Z.mod_pos_bound. lia.
Qed.

Lemma shift_loop_ok : forall k, 0 < k < 32 -> forall n s top, array 32 (S n) s -> 0 <= top < 2 ^ k ->
  array 32 (S n) (shift_loop k s top) /\
  eval 32 (shift_loop k s top) = (eval 32 s + 2 ^ (32 * Z.of_nat (S n)) * top) / 2 ^ k.
Proof.
  intros k Hk.
  assert (P : 2 ^ 32 = 2 ^ k * 2 ^ (32 - k)) by (rewrite <- Z.pow_add_r by lia; f_equal; lia).
  assert (P1 : 0 < 2 ^ k) by (apply Z.pow_pos_nonneg; lia).
  assert (P2 : 0 < 2 ^ (32 - k)) by (apply Z.pow_pos_nonneg; lia).
  assert (LR : forall x y, 0 <= x < 2 ^ 32 -> 0 <= y ->
     0 <= x / 2 ^ k + 2 ^ (32 - k) * (y mod 2 ^ k) < 2 ^ 32).
  { intros x y Hx Hy. pose proof (Z.mod_pos_bound y (2 ^ k) P1).
    assert (0 <= x / 2 ^ k < 2 ^ (32 - k)).
    { split; [apply Z.div_pos; lia|]. apply Z.div_lt_upper_bound; lia. }
    rewrite P. nia. }
  induction n; intros s top Hs Ht; destruct s as [|x s]; try (destruct Hs; discriminate);
    apply array_cons in Hs; destruct Hs as [Hx Hs].
  - destruct s; [|destruct Hs; discriminate]. cbn [shift_loop].
    rewrite lor_shift_limb by lia. split.
    + apply array_cons. split; [apply LR; lia|]. split; [reflexivity|constructor].
    + cbn [eval]. rewrite Z.mul_0_r, !Z.add_0_r. rewrite (Z.mod_small top) by lia.
      change (32 * Z.of_nat 1) with 32. rewrite P.
      replace (x + 2 ^ k * 2 ^ (32 - k) * top) with (x + 2 ^ (32 - k) * top * 2 ^ k) by ring.
      rewrite Z.div_add by lia. reflexivity.
  - destruct s as [|y s]; [destruct Hs; discriminate|].
    destruct (IHn (y :: s) top Hs Ht) as [A Ev].
    assert (E : shift_loop k (x :: y :: s) top = Z.lor (shr x k) (shl_u 32 y (32 - k)) :: shift_loop k (y :: s) top) by reflexivity.
    rewrite E. clear E.
    apply array_cons in Hs. destruct Hs as [Hy Hs].
    rewrite lor_shift_limb by lia. split.
    + apply array_cons. split; [apply LR; lia|]. exact A.
    + rewrite eval_cons. rewrite Ev. rewrite (pow_len_S 32 (S n)) by lia.
      rewrite (eval_cons 32 x).
      set (v := eval 32 (y :: s)).
      set (W := 2 ^ (32 * Z.of_nat (S n))).
      assert (VM : v mod 2 ^ k = y mod 2 ^ k).
      { unfold v. rewrite eval_cons. rewrite P.
        replace (y + 2 ^ k * 2 ^ (32 - k) * eval 32 s) with (y + 2 ^ (32 - k) * eval 32 s * 2 ^ k) by ring.
        apply Z.mod_add. lia. }
      assert (W0 : exists w', W = 2 ^ k * w').
      { unfold W. rewrite pow_len_S by lia. rewrite P. exists (2 ^ (32 - k) * 2 ^ (32 * Z.of_nat n)). ring. }
      destruct W0 as [w' W0].
      (* (v + W top) / 2^k = v/2^k + w' top *)
      rewrite W0. replace (v + 2 ^ k * w' * top) with (v + w' * top * 2 ^ k) by ring.
      rewrite Z.div_add by lia.
      rewrite <- VM.
      replace (x + 2 ^ 32 * v + 2 ^ 32 * (2 ^ k * w') * top)
        with (x + (2 ^ (32 - k) * v + 2 ^ 32 * w' * top) * 2 ^ k) by (rewrite P; ring).
      rewrite Z.div_add by lia. rewrite P.
      pose proof (Z.div_mod v (2 ^ k)). nia.
Qed.

(** ** Halving *)
Lemma halve_add_loop_ok : forall n a m mask chain, array 32 n a -> array 32 n m ->
  (forall y, in32 y -> in32 (Z.land y mask)) -> 0 <= chain <= 1 ->
  exists r out, halve_add_loop a m mask chain = Ok (r, out) /\ array 32 n r /\ 0 <= out <= 1 /\
    eval 32 r + 2 ^ (32 * Z.of_nat n) * out = eval 32 a + eval 32 (map (fun y => Z.land y mask) m) + chain.
Proof.
  induction n; intros a b mask chain Ha Hb HB Hc.
  - destruct a; [|destruct Ha; discriminate]. destruct b; [|destruct Hb; discriminate].
    exists [], chain. repeat split; try lia; [constructor|]. cbn [map eval Z.of_nat]. rewrite Z.mul_0_r, Z.pow_0_r. lia.
  - destruct a as [|x a]; [destruct Ha; discriminate|]. destruct b as [|y b]; [destruct Hb; discriminate|].
    apply array_cons in Ha. apply array_cons in Hb. destruct Ha as [Hx Ha]. destruct Hb as [Hy Hb].
    pose proof (HB y Hy) as Hy'. unfold in32 in Hy'. rewrite B32_val in *.
    cbn [halve_add_loop map]. unfold u64_add. set (yy := Z.land y mask) in *.
    rewrite (chk_u_ok 64 (x + yy)) by (rewrite B64_val; lia). cbn [bind].
    rewrite (chk_u_ok 64 (chain + (x + yy))) by (rewrite B64_val; lia). cbn [bind].
    set (c := chain + (x + yy)).
    pose proof (split32 c) as Hs. pose proof (as_u32_range c) as Hr. rewrite B32_val in *.
    destruct (IHn a b mask (shr c 32) Ha Hb HB) as (r & out & E & Hr' & Ho & Ev); [unfold c in *; lia|].
    rewrite E. cbn [bind]. exists (as_u32 c :: r), out.
    split; [reflexivity|]. split; [apply array_cons; rewrite B32_val; tauto|]. split; [lia|].
    rewrite pow_len_S by lia. cbn [eval]. rewrite B32_val. unfold c in *. nia.
Qed.

Lemma sval_mod2 : forall s, is_scalar s -> Z.land (hd 0 s) 1 = sval s mod 2.
Proof.
  intros s [HL HF]. destruct s as [|x s]; [discriminate|]. cbn [hd]. unfold sval. rewrite eval_cons.
  change 1 with (2 ^ 1 - 1) at 1. rewrite land_mask by lia.
  replace (x + 2 ^ 32 * eval 32 s) with (x + (2 ^ 31 * eval 32 s) * 2) by (change (2 ^ 32) with (2 ^ 31 * 2); ring).
  rewrite Z.mod_add by lia. reflexivity.
Qed.

Lemma scalar_halve_ok : forall s, is_scalar s ->
  exists r, scalar_halve s = Ok r /\ is_scalar r /\
    2 * sval r = (if Z.even (sval s) then sval s else sval s + ell).
Proof.
  intros s Hs. unfold scalar_halve. rewrite sval_mod2 by assumption.
  assert (C : exists mask, wrap 32 (0 - sval s mod 2) = mask /\ (forall y, in32 y -> in32 (Z.land y mask)) /\
     eval 32 (map (fun y => Z.land y mask) MODULUS) = (if Z.even (sval s) then 0 else ell)).
  { rewrite Zmod_odd. rewrite <- Z.negb_even. destruct (Z.even (sval s)); cbn [negb].
    - exists 0. split; [reflexivity|]. split; [|reflexivity]. intros. rewrite Z.land_0_r. unfold in32. lia.
    - exists (2 ^ 32 - 1). split; [reflexivity|]. split; [|reflexivity].
      intros y Hy. rewrite land_mask by lia. unfold in32. apply Z.mod_pos_bound. lia. }
  destruct C as (mask & -> & Hm & Em).
  destruct (halve_add_loop_ok 14 s MODULUS mask 0 Hs MODULUS_scalar Hm) as (r & out & E & Hr & Ho & Ev); [lia|].
  rewrite E. cbn [bind]. rewrite Em in Ev. fold (sval s) in Ev.
  destruct (shift_loop_ok 1 ltac:(lia) 13 r out Hr) as [A Es]; [change (2 ^ 1) with 2; lia|].
  eexists. split; [reflexivity|]. split; [exact A|].
  unfold sval at 1. rewrite Es. rewrite Ev. rewrite Z.add_0_r.
  change (2 ^ 1) with 2. destruct (Z.even (sval s)) eqn:Ee.
  - rewrite Z.add_0_r. apply Zeven_bool_iff in Ee. apply Zeven_ex in Ee. destruct Ee as [q ->].
    rewrite Z.mul_comm at 1. rewrite (Z.mul_comm 2 q). rewrite Z.div_mul by lia. lia.
  - assert (Z.odd (sval s) = true) by (rewrite <- Z.negb_even, Ee; reflexivity).
    apply Zodd_bool_iff in H. apply Zodd_ex in H. destruct H as [q Hq].
    assert (L : ell = 2 * (ell / 2) + 1) by reflexivity.
    assert (V : sval s + ell = (q + ell / 2 + 1) * 2) by lia.
    rewrite V. rewrite Z.div_mul by lia. lia.
Qed.

Lemma scalar_div_by_four_ok : forall s, is_scalar s ->
  is_scalar (scalar_div_by_four s) /\ sval (scalar_div_by_four s) = sval s / 4.
Proof.
  intros s Hs. destruct (shift_loop_ok 2 ltac:(lia) 13 s 0 Hs) as [A E]; [change (2 ^ 2) with 4; lia|].
  split; [exact A|]. unfold scalar_div_by_four. unfold sval at 1. rewrite E. rewrite Z.mul_0_r, Z.add_0_r. reflexivity.
Qed.

(** ** Bytes *)
Lemma from_bytes_limb : forall b0 b1 b2 b3, 0 <= b0 < 2 ^ 8 -> 0 <= b1 < 2 ^ 8 -> 0 <= b2 < 2 ^ 8 -> 0 <= b3 < 2 ^ 8 ->
  as_u32 (Z.lor (Z.lor (Z.lor b0 (shl_u 64 b1 8)) (shl_u 64 b2 16)) (shl_u 64 b3 24))
  = b0 + 2 ^ 8 * (b1 + 2 ^ 8 * (b2 + 2 ^ 8 * b3)).
Proof.
  intros b0 b1 b2 b3 H0 H1 H2 H3.
  change (2 ^ 8) with 256 in *.
  rewrite !shl_u_mul by lia.
  change (2 ^ 8) with 256 in *. change (2 ^ 16) with 65536. change (2 ^ 24) with 16777216.
  rewrite !Z.mod_small by (rewrite B64_val; lia).
  change 256 with (2 ^ 8) at 1. rewrite lor_add by (change (2 ^ 8) with 256; lia). change (2 ^ 8) with 256.
  change 65536 with (2 ^ 16). rewrite lor_add by (change (2 ^ 16) with 65536; lia). change (2 ^ 16) with 65536.
  change 16777216 with (2 ^ 24). rewrite lor_add by (change (2 ^ 24) with 16777216; lia). change (2 ^ 24) with 16777216.
  unfold as_u32. rewrite wrap_small by (rewrite B32_val; lia). ring.
Qed.

Lemma scalar_from_bytes_ok : forall n b, array 8 (4 * n) b ->
  array 32 n (scalar_from_bytes b) /\ eval 32 (scalar_from_bytes b) = eval 8 b.
Proof.
  induction n; intros b Hb.
  - destruct b; [|destruct Hb; discriminate]. split; [split; [reflexivity|constructor]|reflexivity].
  - replace (4 * S n)%nat with (S (S (S (S (4 * n))))) in Hb by lia.
    destruct b as [|b0 [|b1 [|b2 [|b3 b]]]]; try (destruct Hb; discriminate).
    apply array_cons in Hb. destruct Hb as [H0 Hb]. apply array_cons in Hb. destruct Hb as [H1 Hb].
    apply array_cons in Hb. destruct Hb as [H2 Hb]. apply array_cons in Hb. destruct Hb as [H3 Hb].
    destruct (IHn b Hb) as [A E]. cbn [scalar_from_bytes]. rewrite from_bytes_limb by assumption.
    split.
    + apply array_cons. split; [|exact A]. change (2 ^ 8) with 256 in *. rewrite B32_val. lia.
    + rewrite eval_cons, E. cbn [eval]. rewrite B32_val. change (2 ^ 8) with 256. ring.
Qed.

Lemma scalar_to_bytes_ok : forall n s, array 32 n s ->
  array 8 (4 * n) (scalar_to_bytes s) /\ eval 8 (scalar_to_bytes s) = eval 32 s.
Proof.
  induction n; intros s Hs.
  - destruct s; [|destruct Hs; discriminate]. split; [split; [reflexivity|constructor]|reflexivity].
  - destruct s as [|l s]; [destruct Hs; discriminate|]. apply array_cons in Hs. destruct Hs as [Hl Hs].
    destruct (IHn s Hs) as [A E]. cbn [scalar_to_bytes]. rewrite B32_val in Hl.
    replace (4 * S n)%nat with (S (S (S (S (4 * n))))) by lia.
    rewrite !shr_div by lia.
    change (2 ^ 8) with 256.
    set (l1 := l / 256). set (l2 := l1 / 256). set (l3 := l2 / 256).
    assert (0 <= l1 < 16777216) by (unfold l1; split; [apply Z.div_pos; lia | apply Z.div_lt_upper_bound; lia]).
    assert (0 <= l2 < 65536) by (unfold l2; split; [apply Z.div_pos; lia | apply Z.div_lt_upper_bound; lia]).
    assert (0 <= l3 < 256) by (unfold l3; split; [apply Z.div_pos; lia | apply Z.div_lt_upper_bound; lia]).
    split.
    + do 4 (apply array_cons; split; [apply wrap_range; lia|]). exact A.
    + rewrite !eval_cons, E. unfold as_u8. rewrite (wrap_small 8 l3) by (change (2 ^ 8) with 256; lia).
      unfold wrap. change (2 ^ 8) with 256. rewrite B32_val.
      pose proof (Z.div_mod l 256). pose proof (Z.div_mod l1 256). pose proof (Z.div_mod l2 256).
      fold l1 in H2. fold l2 in H3. fold l3 in H4. lia.
Qed.

Lemma to_bytes_scalar : forall s, is_scalar s -> bytes 56 (scalar_to_bytes s) /\ le_val (scalar_to_bytes s) = sval s.
Proof. intros s Hs. exact (scalar_to_bytes_ok 14 s Hs). Qed.

Lemma to_bytes_digits : forall s, is_scalar s -> scalar_to_bytes s = le_bytes 56 (sval s).
Proof.
  intros s Hs. destruct (to_bytes_scalar s Hs) as [A E]. rewrite <- E. symmetry.
  apply (array_digits_eval 8 56); [lia|exact A].
Qed.

Lemma from_bytes_scalar : forall b, bytes 56 b -> is_scalar (scalar_from_bytes b) /\ sval (scalar_from_bytes b) = le_val b.
Proof. intros b Hb. exact (scalar_from_bytes_ok 14 b Hb). Qed.

Lemma scalar_eqb_ok : forall a b, is_scalar a -> is_scalar b -> (scalar_eqb a b = true <-> sval a = sval b).
Proof.
  intros a b Ha Hb. unfold scalar_eqb. rewrite list_eqb_eq.
  rewrite !to_bytes_digits by assumption. split; [|congruence].
  intro E. rewrite <- (proj2 (to_bytes_scalar a Ha)), <- (proj2 (to_bytes_scalar b Hb)).
  rewrite !to_bytes_digits by assumption. rewrite E. reflexivity.
Qed.

(** ** Bits *)
Lemma limb_bits_nth : forall l j, 0 <= l < 2 ^ 32 -> (j < 32)%nat -> nth j (limb_bits l) false = Z.testbit l (Z.of_nat j).
Proof.
  intros l j Hl Hj. unfold limb_bits.
  set (f := fun j : nat => negb (Z.land l (shl_u 32 1 (Z.of_nat j)) =? 0)).
  rewrite (nth_indep _ false (f 0%nat)) by (rewrite map_length, seq_length; exact Hj).
  rewrite map_nth. rewrite seq_nth by exact Hj. cbn [Nat.add]. unfold f.
  unfold shl_u. rewrite wrap_small.
  2:{ rewrite Z.shiftl_mul_pow2 by lia. rewrite Z.mul_1_l. split; [apply Z.pow_nonneg; lia|]. apply Z.pow_lt_mono_r; lia. }
  set (n := Z.of_nat j). assert (Hn : 0 <= n) by (unfold n; lia).
  destruct (Z.testbit l n) eqn:T.
  - apply negb_true_iff. apply Z.eqb_neq. intro E.
    assert (X : Z.testbit (Z.land l (Z.shiftl 1 n)) n = false) by (rewrite E; apply Z.bits_0).
    rewrite Z.land_spec, T, Z.shiftl_spec in X by lia. rewrite Z.sub_diag in X. discriminate.
  - apply negb_false_iff. apply Z.eqb_eq. apply Z.bits_inj'. intros k Hk. rewrite Z.bits_0, Z.land_spec.
    rewrite Z.shiftl_spec by lia. destruct (Z.eq_dec k n) as [->|N]; [rewrite T; reflexivity|].
    apply andb_false_iff. right. destruct (Z_lt_le_dec k n); [apply Z.testbit_neg_r; lia|].
    change 1 with (2 ^ 0). apply Z.pow2_bits_false. lia.
Qed.

Lemma limb_bits_length : forall l, length (limb_bits l) = 32%nat.
Proof. intros. unfold limb_bits. rewrite map_length, seq_length. reflexivity. Qed.

Lemma scalar_bits_ok : forall n s, array 32 n s ->
  length (scalar_bits s) = (32 * n)%nat /\
  forall i, (i < 32 * n)%nat -> nth i (scalar_bits s) false = Z.testbit (eval 32 s) (Z.of_nat i).
Proof.
  induction n; intros s Hs.
  - destruct s; [|destruct Hs; discriminate]. split; [reflexivity|lia].
  - destruct s as [|l s]; [destruct Hs; discriminate|]. apply array_cons in Hs. destruct Hs as [Hl Hs].
    destruct (IHn s Hs) as [L N]. cbn [scalar_bits flat_map]. fold (scalar_bits s). split.
    + rewrite app_length, limb_bits_length, L. lia.
    + intros i Hi. rewrite eval_cons.
      assert (M : (l + 2 ^ 32 * eval 32 s) mod 2 ^ 32 = l).
      { rewrite Z.mul_comm, Z.mod_add by lia. apply Z.mod_small. assumption. }
      assert (D : (l + 2 ^ 32 * eval 32 s) / 2 ^ 32 = eval 32 s).
      { rewrite Z.mul_comm, Z.div_add by lia. rewrite Z.div_small by assumption. reflexivity. }
      destruct (Nat.lt_ge_cases i 32).
      * rewrite app_nth1 by (rewrite limb_bits_length; lia). rewrite limb_bits_nth by assumption.
        transitivity (Z.testbit ((l + 2 ^ 32 * eval 32 s) mod 2 ^ 32) (Z.of_nat i)); [rewrite M; reflexivity|].
        rewrite Z.mod_pow2_bits_low by lia. reflexivity.
      * rewrite app_nth2 by (rewrite limb_bits_length; lia). rewrite limb_bits_length.
        rewrite N by lia.
        transitivity (Z.testbit ((l + 2 ^ 32 * eval 32 s) / 2 ^ 32) (Z.of_nat (i - 32))); [rewrite D; reflexivity|].
        rewrite Z.div_pow2_bits by lia. f_equal. lia.
Qed.

(** ** Canonical bytes *)
Lemma from_canonical_ok : forall b, bytes 57 b ->
  (le_val b < ell -> exists s, scalar_from_canonical_bytes b = Ok (Some s) /\ is_scalar s /\ sval s = le_val b) /\
  (ell <= le_val b -> scalar_from_canonical_bytes b = Ok None).
Proof.
  intros b Hb.
  assert (Hb56 : bytes 56 (firstn 56 b)) by (apply (array_firstn 8 57 56); [lia|exact Hb]).
  assert (Hb55 : bytes 55 (firstn 55 b)) by (apply (array_firstn 8 57 55); [lia|exact Hb]).
  assert (HL : length b = 57%nat) by apply Hb.
  destruct (skipn 55 b) as [|x55 [|x56 [|? ?]]] eqn:Esk;
    try (apply (f_equal (@length Z)) in Esk; rewrite skipn_length, HL in Esk; cbn in Esk; lia).
  assert (Eb : b = firstn 55 b ++ [x55; x56]) by (rewrite <- Esk; symmetry; apply firstn_skipn).
  assert (HL55 : length (firstn 55 b) = 55%nat) by (rewrite firstn_length; lia).
  assert (R55 : 0 <= x55 < 2 ^ 8 /\ 0 <= x56 < 2 ^ 8).
  { pose proof (array_skipn 8 57 55 b Hb) as [_ F]. rewrite Esk in F.
    inversion F as [|? ? F1 F2]; subst. inversion F2; subst. tauto. }
  destruct R55 as [R55 R56].
  assert (I56 : index b 56 = Ok x56).
  { unfold index. cbn [Z.ltb Z.compare]. rewrite Eb. rewrite nth_error_app2 by (rewrite HL55; cbn; lia).
    rewrite HL55. reflexivity. }
  assert (I55 : index b 55 = Ok x55).
  { unfold index. cbn [Z.ltb Z.compare]. rewrite Eb. rewrite nth_error_app2 by (rewrite HL55; cbn; lia).
    rewrite HL55. reflexivity. }
  assert (V : le_val b = le_val (firstn 55 b) + 2 ^ 440 * (x55 + 2 ^ 8 * x56)).
  { rewrite Eb at 1. unfold le_val. rewrite eval_app by lia. rewrite HL55. change (8 * Z.of_nat 55) with 440.
    cbn [eval]. rewrite Z.mul_0_r, Z.add_0_r. reflexivity. }
  assert (V56 : le_val (firstn 56 b) = le_val (firstn 55 b) + 2 ^ 440 * x55).
  { assert (firstn 56 b = firstn 55 b ++ [x55]) as ->.
    { rewrite Eb at 1. rewrite firstn_app. rewrite HL55. rewrite firstn_all2 by (rewrite HL55; lia). reflexivity. }
    unfold le_val. rewrite eval_app by lia. rewrite HL55. change (8 * Z.of_nat 55) with 440. cbn [eval]. lia. }
  pose proof (array_range 8 55 _ ltac:(lia) Hb55) as R. change (8 * Z.of_nat 55) with 440 in R. fold (le_val (firstn 55 b)) in R.
  pose proof ell_lt as EL. assert (P446 : 2 ^ 446 = 64 * 2 ^ 440) by reflexivity.
  assert (P448 : 2 ^ 448 = 256 * 2 ^ 440) by reflexivity.
  change (2 ^ 8) with 256 in *.
  unfold scalar_from_canonical_bytes. rewrite I56, I55. cbn [bind].
  rewrite shr_div by lia. change (2 ^ 6) with 64.
  destruct (Z.eqb_spec x56 0) as [->|N56].
  2:{ cbn [negb orb]. split; [|reflexivity]. intro H. exfalso. set (w := 2 ^ 440) in *. clearbody w. nia. }
  destruct (Z.eqb_spec (x55 / 64) 0) as [D55|N55].
  2:{ cbn [negb orb]. split; [|reflexivity]. intro H. exfalso.
      assert (64 <= x55). { destruct (Z_lt_le_dec x55 64); [|assumption]. exfalso. apply N55. apply Z.div_small. lia. }
      set (w := 2 ^ 440) in *. clearbody w. nia. }
  cbn [negb orb].
  destruct (from_bytes_scalar _ Hb56) as [Hc Ec].
  set (c := scalar_from_bytes (firstn 56 b)) in *.
  assert (VV : le_val b = sval c) by (rewrite Ec, V, V56; ring).
  destruct (reduce_ok c 0 (sval c) Hc) as (r & Er & Hr & Evr); [lia|lia| |].
  { pose proof (scalar_range c Hc). pose proof ell_pos. lia. }
  rewrite Er. cbn [bind]. rewrite VV. pose proof ell_pos.
  split; intro H'.
  - destruct (Z.ltb_spec (sval c) ell); [|lia].
    assert (scalar_eqb c r = true) as -> by (apply scalar_eqb_ok; congruence || assumption).
    exists c. tauto.
  - destruct (Z.ltb_spec (sval c) ell); [lia|].
    destruct (scalar_eqb c r) eqn:E; [|reflexivity]. apply scalar_eqb_ok in E; try assumption. lia.
Qed.

Lemma to_bytes_rfc_ok : forall s, is_scalar s ->
  scalar_to_bytes_rfc_8032 s = le_bytes 57 (sval s).
Proof.
  intros s Hs. unfold scalar_to_bytes_rfc_8032. destruct (to_bytes_scalar s Hs) as [A E].
  rewrite <- E. symmetry. unfold le_bytes, le_val.
  assert (X : eval 8 (scalar_to_bytes s) = eval 8 (scalar_to_bytes s ++ [0])).
  { rewrite eval_app by lia. cbn [eval]. lia. }
  rewrite X. apply array_digits_eval; [lia|]. replace 57%nat with (56 + 1)%nat by reflexivity.
  apply array_app; [exact A|]. split; [reflexivity|]. constructor; [lia|constructor].
Qed.

(** ** Wide reduction *)
Lemma mont_R1 : forall x, is_scalar x ->
  exists r, montgomery_multiply x R1 = Ok r /\ is_scalar r /\ sval r = sval x mod ell.
Proof.
  intros x Hx. destruct (mont_ok x R1 Hx (proj1 R1_ok)) as (r & E & Hr & K & Hc).
  exists r. split; [exact E|]. split; [exact Hr|]. pose proof R1_lt. pose proof ell_pos. pose proof (scalar_range r Hr).
  rewrite <- (Z.mod_small (sval r) ell) by (specialize (Hc ltac:(lia)); lia).
  apply R_cancel. rewrite K.
  rewrite Z.mul_mod by lia. rewrite R1_mod. rewrite <- Z.mul_mod by lia. f_equal. ring.
Qed.

Lemma from_bytes_wide_ok : forall b, bytes 114 b ->
  exists r, scalar_from_bytes_mod_order_wide b = Ok r /\ is_scalar r /\ sval r = le_val b mod ell.
Proof.
  intros b Hb. unfold scalar_from_bytes_mod_order_wide.
  assert (H0 : bytes 56 (firstn 56 b)) by (apply (array_firstn 8 114 56); [lia|exact Hb]).
  assert (H1 : bytes 56 (firstn 56 (skipn 56 b))) by (apply (array_firstn 8 58 56); [lia|]; apply (array_skipn 8 114 56 b Hb)).
  assert (H2' : bytes 2 (firstn 2 (skipn 112 b))) by (apply (array_firstn 8 2 2); [lia|]; apply (array_skipn 8 114 112 b Hb)).
  assert (H2 : bytes 56 (firstn 2 (skipn 112 b) ++ repeat 0 54)).
  { apply (array_app 8 2 54); [exact H2'|]. split; [apply repeat_length|]. apply Forall_forall. intros x Hx.
    apply repeat_spec in Hx. subst. lia. }
  destruct (from_bytes_scalar _ H0) as [S0 V0]. destruct (from_bytes_scalar _ H1) as [S1 V1]. destruct (from_bytes_scalar _ H2) as [S2 V2].
  set (s0 := scalar_from_bytes (firstn 56 b)) in *.
  set (s1 := scalar_from_bytes (firstn 56 (skipn 56 b))) in *.
  set (s2 := scalar_from_bytes (firstn 2 (skipn 112 b) ++ repeat 0 54)) in *.
  assert (V : le_val b = sval s0 + 2 ^ 448 * sval s1 + 2 ^ 896 * sval s2).
  { assert (HL : length b = 114%nat) by apply Hb.
    rewrite V0, V1, V2. unfold le_val. rewrite (eval_app 8 _ (repeat 0 54)) by lia. rewrite eval_repeat_0, Z.mul_0_r, Z.add_0_r.
    rewrite (eval_firstn_skipn 8 114 56 b) by lia.
    rewrite (eval_firstn_skipn 8 58 56 (skipn 56 b)) by (rewrite ?skipn_length; lia).
    rewrite skipn_add. change (56 + 56)%nat with 112%nat.
    assert (firstn 2 (skipn 112 b) = skipn 112 b) as -> by (apply firstn_all2; rewrite skipn_length; lia).
    change (8 * Z.of_nat 56) with 448. change (2 ^ 896) with (2 ^ 448 * 2 ^ 448). ring. }
  destruct (mont_R1 s0 S0) as (lo & E0 & Hlo & K0). rewrite E0. cbn [bind].
  destruct (mont_R2 s1 S1) as (hi & E1 & Hhi & Lhi & K1). rewrite E1. cbn [bind].
  destruct (mont_R2 s2 S2) as (t1 & E2 & Ht1 & Lt1 & K2). rewrite E2. cbn [bind].
  destruct (mont_R2 t1 Ht1) as (t2 & E3 & Ht2 & Lt2 & K3). rewrite E3. cbn [bind].
  pose proof ell_pos. pose proof ell_lt. assert (2 ^ 446 * 2 < 2 ^ 448) by reflexivity.
  pose proof (Z.mod_pos_bound (sval s0) ell ltac:(lia)).
  pose proof (scalar_range hi Hhi). pose proof (scalar_range t2 Ht2).
  destruct (scalar_add_ok lo hi Hlo Hhi) as (u & Eu & Hu & Ku); [lia|]. rewrite Eu. cbn [bind].
  rewrite reduce_mod in Ku by lia.
  pose proof (Z.mod_pos_bound (sval lo + sval hi) ell ltac:(lia)).
  destruct (scalar_add_ok u t2 Hu Ht2) as (r & Er & Hr & Kr); [lia|].
  rewrite reduce_mod in Kr by lia.
  exists r. split; [exact Er|]. split; [exact Hr|]. rewrite Kr, Ku, V.
  rewrite Z.add_mod_idemp_l by lia. rewrite K0.
  rewrite <- (Z.add_mod_idemp_r _ (sval t2)) by lia. rewrite K3.
  rewrite <- (Z.mul_mod_idemp_r _ (sval t1)) by lia. rewrite K2.
  rewrite Z.mul_mod_idemp_r by lia. rewrite Z.add_mod_idemp_r by lia.
  replace (sval s0 mod ell + sval hi + 2 ^ 448 * (2 ^ 448 * sval s2))
    with (sval s0 mod ell + (sval hi + 2 ^ 448 * (2 ^ 448 * sval s2))) by ring.
  rewrite Z.add_mod_idemp_l by lia.
  replace (sval s0 + (sval hi + 2 ^ 448 * (2 ^ 448 * sval s2)))
    with (sval s0 + 2 ^ 448 * (2 ^ 448 * sval s2) + sval hi) by ring.
  rewrite <- Z.add_mod_idemp_r by lia. rewrite K1. rewrite Z.add_mod_idemp_r by lia.
  f_equal. change (2 ^ 896) with (2 ^ 448 * 2 ^ 448). ring.
Qed.

(** ** Radix 16 *)
Lemma nibbles_ok : forall n b, array 8 n b -> array 4 (2 * n) (nibbles b) /\ eval 4 (nibbles b) = eval 8 b.
Proof.
  induction n; intros b Hb.
  - destruct b; [|destruct Hb; discriminate]. split; [split; [reflexivity|constructor]|reflexivity].
  - destruct b as [|x b]; [destruct Hb; discriminate|]. apply array_cons in Hb. destruct Hb as [Hx Hb].
    destruct (IHn b Hb) as [A E]. cbn [nibbles].
    replace (2 * S n)%nat with (S (S (2 * n))) by lia.
    change 15 with (2 ^ 4 - 1). rewrite !land_mask by lia. rewrite !shr_div by lia. rewrite Z.pow_0_r, Z.div_1_r.
    change (2 ^ 8) with 256 in Hx. change (2 ^ 4) with 16.
    pose proof (Z.div_mod x 16 ltac:(lia)).
    assert (0 <= x / 16 < 16) by (split; [apply Z.div_pos; lia | apply Z.div_lt_upper_bound; lia]).
    rewrite (Z.mod_small (x / 16)) by lia.
    split.
    + apply array_cons. split; [change (2 ^ 4) with 16; apply Z.mod_pos_bound; lia|].
      apply array_cons. split; [change (2 ^ 4) with 16; lia|]. exact A.
    + rewrite !eval_cons, E. change (2 ^ 4) with 16. change (2 ^ 8) with 256. lia.
Qed.

Lemma recenter_ok : forall n l c, array 4 n l -> 0 <= c <= 1 ->
  exists d, recenter (l ++ [0]) c = Ok d /\ length d = S n /\
    Forall (fun x => -8 <= x < 8) (firstn n d) /\ (exists k, skipn n d = [k] /\ 0 <= k <= 1) /\
    eval 4 d = eval 4 l + c.
Proof.
  induction n; intros l c Hl Hc.
  - destruct l; [|destruct Hl; discriminate]. cbn [app recenter]. unfold i8_add.
    rewrite chk_i_ok by (change (2 ^ (8 - 1)) with 128; lia). cbn [bind].
    eexists. split; [reflexivity|]. split; [reflexivity|]. split; [constructor|]. split; [exists c; split; [reflexivity|lia]|].
    cbn [eval]. lia.
  - destruct l as [|x l]; [destruct Hl; discriminate|]. apply array_cons in Hl. destruct Hl as [Hx Hl].
    change (2 ^ 4) with 16 in Hx.
    assert (E : recenter ((x :: l) ++ [0]) c =
      (x <- i8_add x c ;; t <- i8_add x 8 ;; let carry := shr t 4 in
       d <- i8_sub x (Z.shiftl carry 4) ;; r <- recenter (l ++ [0]) carry ;; Ok (d :: r))).
    { cbn [app recenter]. destruct (l ++ [0]) eqn:El; [destruct l; discriminate|reflexivity]. }
    rewrite E. clear E. unfold i8_add, i8_sub.
    rewrite (chk_i_ok 8 (x + c)) by (change (2 ^ (8 - 1)) with 128; lia). cbn [bind].
    rewrite (chk_i_ok 8 (x + c + 8)) by (change (2 ^ (8 - 1)) with 128; lia). cbn [bind].
    rewrite shr_div by lia. rewrite Z.shiftl_mul_pow2 by lia. change (2 ^ 4) with 16.
    set (k := (x + c + 8) / 16).
    pose proof (Z.div_mod (x + c + 8) 16 ltac:(lia)) as DM. fold k in DM.
    pose proof (Z.mod_pos_bound (x + c + 8) 16 ltac:(lia)) as MB.
    assert (Hk : 0 <= k <= 1) by lia.
    rewrite chk_i_ok by (change (2 ^ (8 - 1)) with 128; lia). cbn [bind].
    destruct (IHn l k Hl Hk) as (d & Ed & Ld & Fd & Td & Vd). rewrite Ed. cbn [bind].
    eexists. split; [reflexivity|]. cbn [length]. split; [lia|]. cbn [firstn skipn].
    split; [constructor; [lia|exact Fd]|]. split; [exact Td|].
    rewrite !eval_cons, Vd. change (2 ^ 4) with 16. lia.
Qed.

Lemma to_radix_16_ok : forall s, is_scalar s ->
  exists d, to_radix_16 s = Ok d /\ length d = 113%nat /\
    Forall (fun x => -8 <= x < 8) (firstn 112 d) /\ (exists k, skipn 112 d = [k] /\ 0 <= k <= 1) /\
    eval 4 d = sval s.
Proof.
  intros s Hs. unfold to_radix_16. destruct (to_bytes_scalar s Hs) as [A E].
  destruct (nibbles_ok 56 _ A) as [An En].
  destruct (recenter_ok 112 _ 0 An ltac:(lia)) as (d & Ed & Ld & Fd & Td & Vd).
  exists d. split; [exact Ed|]. split; [exact Ld|]. split; [exact Fd|]. split; [exact Td|].
  rewrite Vd, En. fold (le_val (scalar_to_bytes s)). rewrite E. lia.
Qed.
