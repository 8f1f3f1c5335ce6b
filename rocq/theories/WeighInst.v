(** Counting operations on words: both backends, every function. *)
Require Import ZArith List Bool Lia.
From Verif Require Import Base SpecParams FieldBackend FieldU32Model FieldFiatModel FiatCode FiatMain Backends ScalarModel TwistedModel ScalarMulModel EdwardsModel MontgomeryModel DecafModel ApiExpr PointSpec
  Steps StepCurve StepRelWords StepRelCurve TraceSpec TraceSpec64 TraceLogic TraceLogicWords TraceFiat CostSpec CostMain WeighLogic WeighLogic64 WeighMain.
Import ListNotations.
Open Scope N_scope.

Lemma tight_32 : forall (a : fe words) u, fe_tight u32_backend (map fst a) -> Rlen 16 a u.
Proof. intros a u (H & _). rewrite map_length in H. exact H. Qed.
Lemma tight_64 : forall (a : fe words64) u, fe_tight (fiat_backend fiat_code) (map fst a) -> Rlen 8 a u.
Proof. intros a u (H & _). rewrite map_length in H. exact H. Qed.
Local Notation i32 f := (f u32_backend shipped_u32 words words_machine (map fst) Rlimbs Wplain words_quiet plain_of weights32 (Rlen 16) Rany words_tally tight_32).
Local Notation l32 f := (f u32_backend shipped_u32 words words_machine Rlimbs Wplain words_quiet weights32 (Rlen 16) Rany words_tally).
Local Notation l64 f := (f (fiat_backend fiat_code) shipped_code words64 words64_machine Rlimbs64 Wplain words64_quiet weights64 (Rlen 8) Rany words64_tally).
Local Notation d32 f := (f u32_backend shipped_u32 words words_machine Rlimbs Wplain words_quiet (fun c => eq_refl) weights32 (Rlen 16) Rany words_tally).
Local Notation d64 f := (f (fiat_backend fiat_code) shipped_code words64 words64_machine Rlimbs64 Wplain words64_quiet (fun c => eq_refl) weights64 (Rlen 8) Rany words64_tally).
Local Notation i64 f := (f (fiat_backend fiat_code) shipped_code words64 words64_machine (map fst) Rlimbs64 Wplain words64_quiet plain_of weights64 (Rlen 8) Rany words64_tally tight_64).

Lemma words32_invert : forall (a : fe words), fe_tight u32_backend (map fst a) -> word_costs (fe_invertS _ _ words_machine a) 184580 50772.
Proof. intros a H0. exact (i32 weigh_invert a (184580, 50772) H0 ltac:(vm_compute; reflexivity)). Qed.

Lemma words32_isr : forall (a : fe words), fe_tight u32_backend (map fst a) -> word_costs (fe_inverse_square_rootS _ _ words_machine a) 185508 50748.
Proof. intros a H0. exact (i32 weigh_isr a (185508, 50748) H0 ltac:(vm_compute; reflexivity)). Qed.

Lemma words32_ed_add : forall (P R : EdPoint words), ed_valid u32_backend (word_values (s := TEd) P) -> ed_valid u32_backend (word_values (s := TEd) R) -> word_costs (ed_addS _ _ words_machine P R) 6819 2500.
Proof. intros P R H0 H1. exact (i32 weigh_ed_add P R (6819, 2500) H0 H1 ltac:(vm_compute; reflexivity)). Qed.

Lemma words32_tw_add : forall (P R : TwPoint words), tw_valid u32_backend (word_values (s := TTw) P) -> tw_valid u32_backend (word_values (s := TTw) R) -> word_costs (tw_addS _ _ words_machine P R) 5778 2115.
Proof. intros P R H0 H1. exact (i32 weigh_tw_add P R (5778, 2115) H0 H1 ltac:(vm_compute; reflexivity)). Qed.

Lemma words32_tw_double : forall (P : TwPoint words), tw_valid u32_backend (word_values (s := TTw) P) -> word_costs (tw_doubleS _ _ words_machine P) 4521 1313.
Proof. intros P H0. exact (i32 weigh_tw_double P (4521, 1313) H0 ltac:(vm_compute; reflexivity)). Qed.

Lemma words32_ed_mul : forall (P : EdPoint words) t, ed_valid u32_backend (word_values (s := TEd) P) -> is_scalar t -> word_costs (ed_scalar_mulS _ _ words_machine P t) 3959598 1055152.
Proof. intros P t H0 H1. exact (i32 weigh_ed_mul P t (3959598, 1055152) H0 H1 ltac:(vm_compute; reflexivity)). Qed.

Lemma words32_window : forall (P : TwPoint words) t, tw_valid u32_backend (word_values (s := TTw) P) -> is_scalar t -> word_costs (variable_baseS _ _ words_machine P t) 2815164 738262.
Proof. intros P t H0 H1. exact (i32 weigh_window P t (2815164, 738262) H0 H1 ltac:(vm_compute; reflexivity)). Qed.

Lemma words32_bitwise : forall (P : TwPoint words) t, tw_valid u32_backend (word_values (s := TTw) P) -> is_scalar t -> word_costs (double_and_addS _ _ words_machine P t) 4758208 1535744.
Proof. intros P t H0 H1. exact (i32 weigh_bitwise P t (4758208, 1535744) H0 H1 ltac:(vm_compute; reflexivity)). Qed.

Lemma words32_double_base : forall (P : TwPoint words) t u, tw_valid u32_backend (word_values (s := TTw) P) -> is_scalar t -> is_scalar u -> word_costs (double_base_scalar_mulS _ _ words_machine t P u) 9522194 3073603.
Proof. intros P t u H0 H1 H2. exact (i32 weigh_double_base P t u (9522194, 3073603) H0 H1 H2 ltac:(vm_compute; reflexivity)). Qed.

Lemma words32_ladder : forall b t, bytes 56 b -> is_scalar t -> word_costs (mp_mulS _ _ words_machine b t) 2597618 762388.
Proof. intros b t H0 H1. exact (l32 weigh_ladder b t (2597618, 762388) H0 H1 ltac:(vm_compute; reflexivity)). Qed.

Lemma words32_ed_compress : forall (P : EdPoint words), ed_valid u32_backend (word_values (s := TEd) P) -> word_costs (ed_compressS _ _ words_machine P) 186715 51156.
Proof. intros P H0. exact (i32 weigh_ed_compress P (186715, 51156) H0 ltac:(vm_compute; reflexivity)). Qed.

Lemma words32_dc_compress : forall (P : TwPoint words), tw_valid u32_backend (word_values (s := TTw) P) -> word_costs (dc_compressS _ _ words_machine P) 191864 52588.
Proof. intros P H0. exact (i32 weigh_dc_compress P (191864, 52588) H0 ltac:(vm_compute; reflexivity)). Qed.

Lemma words32_torsion_free : forall (P : EdPoint words), ed_valid u32_backend (word_values (s := TEd) P) -> word_costs (ed_is_torsion_freeS _ _ words_machine P) 3964008 1055920.
Proof. intros P H0. exact (i32 weigh_torsion_free P (3964008, 1055920) H0 ltac:(vm_compute; reflexivity)). Qed.

Lemma words32_to_montgomery : forall (P : EdPoint words), ed_valid u32_backend (word_values (s := TEd) P) -> word_costs (ed_to_montgomeryS _ _ words_machine P) 372949 102614.
Proof. intros P H0. exact (i32 weigh_to_montgomery P (372949, 102614) H0 ltac:(vm_compute; reflexivity)). Qed.

Lemma words32_mod_four : forall (P : EdPoint words) t, ed_valid u32_backend (word_values (s := TEd) P) -> is_scalar t -> word_costs (ed_scalar_mod_fourS _ _ words_machine P t) 14923 5000.
Proof. intros P t H0 H1. exact (i32 weigh_mod_four P t (14923, 5000) H0 H1 ltac:(vm_compute; reflexivity)). Qed.

Lemma words32_ed_decompress : forall b, bytes 57 b ->
  let accepted := match ed_decompress u32_backend b with Ok (Some _) => true | _ => false end in
  word_spends (ed_decompressS _ _ words_machine b) (if accepted then 189875 else 188886) (if accepted then 51627 else 51434).
Proof.
  intros b Hb. pose proof (d32 weigh_ed_decompress b (189875, 51627) (188886, 51434) Hb ltac:(vm_compute; reflexivity) ltac:(vm_compute; reflexivity)) as G. cbv zeta in *. destruct (ed_decompress _ b) as [[P|]|]; exact G.
Qed.

Lemma words32_dc_decompress : forall b, bytes 56 b ->
  word_spends (dc_decompressS _ _ words_machine b)
    (match dc_verdict u32_backend b with TooLarge => 1322 | IsOdd => 1668 | NoPoint => 189146 | Accepted => 193072 end)
    (match dc_verdict u32_backend b with TooLarge => 0 | IsOdd => 0 | NoPoint => 51349 | Accepted => 52694 end).
Proof.
  intros b Hb. pose proof (d32 weigh_dc_decompress b (1322, 0) (1668, 0) (189146, 51349) (193072, 52694) Hb ltac:(vm_compute; reflexivity) ltac:(vm_compute; reflexivity) ltac:(vm_compute; reflexivity) ltac:(vm_compute; reflexivity)) as G. cbv zeta in *. destruct (dc_verdict _ b); exact G.
Qed.

Lemma words64_invert : forall (a : fe words64), fe_tight (fiat_backend fiat_code) (map fst a) -> word_costs (fe_invertS _ _ words64_machine a) 77821 29435.
Proof. intros a H0. exact (i64 weigh_invert a (77821, 29435) H0 ltac:(vm_compute; reflexivity)). Qed.

Lemma words64_isr : forall (a : fe words64), fe_tight (fiat_backend fiat_code) (map fst a) -> word_costs (fe_inverse_square_rootS _ _ words64_machine a) 78866 29407.
Proof. intros a H0. exact (i64 weigh_isr a (78866, 29407) H0 ltac:(vm_compute; reflexivity)). Qed.

Lemma words64_ed_add : forall (P R : EdPoint words64), ed_valid (fiat_backend fiat_code) (word64_values (s := TEd) P) -> ed_valid (fiat_backend fiat_code) (word64_values (s := TEd) R) -> word_costs (ed_addS _ _ words64_machine P R) 3604 1274.
Proof. intros P R H0 H1. exact (i64 weigh_ed_add P R (3604, 1274) H0 H1 ltac:(vm_compute; reflexivity)). Qed.

Lemma words64_tw_add : forall (P R : TwPoint words64), tw_valid (fiat_backend fiat_code) (word64_values (s := TTw) P) -> tw_valid (fiat_backend fiat_code) (word64_values (s := TTw) R) -> word_costs (tw_addS _ _ words64_machine P R) 3058 1078.
Proof. intros P R H0 H1. exact (i64 weigh_tw_add P R (3058, 1078) H0 H1 ltac:(vm_compute; reflexivity)). Qed.

Lemma words64_tw_double : forall (P : TwPoint words64), tw_valid (fiat_backend fiat_code) (word64_values (s := TTw) P) -> word_costs (tw_doubleS _ _ words64_machine P) 2243 707.
Proof. intros P H0. exact (i64 weigh_tw_double P (2243, 707) H0 ltac:(vm_compute; reflexivity)). Qed.

Lemma words64_ed_mul : forall (P : EdPoint words64) t, ed_valid (fiat_backend fiat_code) (word64_values (s := TEd) P) -> is_scalar t -> word_costs (ed_scalar_mulS _ _ words64_machine P t) 1979195 576114.
Proof. intros P t H0 H1. exact (i64 weigh_ed_mul P t (1979195, 576114) H0 H1 ltac:(vm_compute; reflexivity)). Qed.

Lemma words64_window : forall (P : TwPoint words64) t, tw_valid (fiat_backend fiat_code) (word64_values (s := TTw) P) -> is_scalar t -> word_costs (variable_baseS _ _ words64_machine P t) 1493274 393162.
Proof. intros P t H0 H1. exact (i64 weigh_window P t (1493274, 393162) H0 H1 ltac:(vm_compute; reflexivity)). Qed.

Lemma words64_bitwise : forall (P : TwPoint words64) t, tw_valid (fiat_backend fiat_code) (word64_values (s := TTw) P) -> is_scalar t -> word_costs (double_and_addS _ _ words64_machine P t) 2477888 799680.
Proof. intros P t H0 H1. exact (i64 weigh_bitwise P t (2477888, 799680) H0 H1 ltac:(vm_compute; reflexivity)). Qed.

Lemma words64_double_base : forall (P : TwPoint words64) t u, tw_valid (fiat_backend fiat_code) (word64_values (s := TTw) P) -> is_scalar t -> is_scalar u -> word_costs (double_base_scalar_mulS _ _ words64_machine t P u) 4958834 1600438.
Proof. intros P t u H0 H1 H2. exact (i64 weigh_double_base P t u (4958834, 1600438) H0 H1 H2 ltac:(vm_compute; reflexivity)). Qed.

Lemma words64_ladder : forall b t, bytes 56 b -> is_scalar t -> word_costs (mp_mulS _ _ words64_machine b t) 1330216 405853.
Proof. intros b t H0 H1. exact (l64 weigh_ladder b t (1330216, 405853) H0 H1 ltac:(vm_compute; reflexivity)). Qed.

Lemma words64_ed_compress : forall (P : EdPoint words64), ed_valid (fiat_backend fiat_code) (word64_values (s := TEd) P) -> word_costs (ed_compressS _ _ words64_machine P) 79028 29631.
Proof. intros P H0. exact (i64 weigh_ed_compress P (79028, 29631) H0 ltac:(vm_compute; reflexivity)). Qed.

Lemma words64_dc_compress : forall (P : TwPoint words64), tw_valid (fiat_backend fiat_code) (word64_values (s := TTw) P) -> word_costs (dc_compressS _ _ words64_machine P) 82530 30352.
Proof. intros P H0. exact (i64 weigh_dc_compress P (82530, 30352) H0 ltac:(vm_compute; reflexivity)). Qed.

Lemma words64_torsion_free : forall (P : EdPoint words64), ed_valid (fiat_backend fiat_code) (word64_values (s := TEd) P) -> word_costs (ed_is_torsion_freeS _ _ words64_machine P) 1982441 576506.
Proof. intros P H0. exact (i64 weigh_torsion_free P (1982441, 576506) H0 ltac:(vm_compute; reflexivity)). Qed.

Lemma words64_to_montgomery : forall (P : EdPoint words64), ed_valid (fiat_backend fiat_code) (word64_values (s := TEd) P) -> word_costs (ed_to_montgomeryS _ _ words64_machine P) 157572 59423.
Proof. intros P H0. exact (i64 weigh_to_montgomery P (157572, 59423) H0 ltac:(vm_compute; reflexivity)). Qed.

Lemma words64_mod_four : forall (P : EdPoint words64) t, ed_valid (fiat_backend fiat_code) (word64_values (s := TEd) P) -> is_scalar t -> word_costs (ed_scalar_mod_fourS _ _ words64_machine P t) 8125 2548.
Proof. intros P t H0 H1. exact (i64 weigh_mod_four P t (8125, 2548) H0 H1 ltac:(vm_compute; reflexivity)). Qed.

Lemma words64_ed_decompress : forall b, bytes 57 b ->
  let accepted := match ed_decompress (fiat_backend fiat_code) b with Ok (Some _) => true | _ => false end in
  word_spends (ed_decompressS _ _ words64_machine b) (if accepted then 81755 else 81113) (if accepted then 29862 else 29764).
Proof.
  intros b Hb. pose proof (d64 weigh_ed_decompress b (81755, 29862) (81113, 29764) Hb ltac:(vm_compute; reflexivity) ltac:(vm_compute; reflexivity)) as G. cbv zeta in *. destruct (ed_decompress _ b) as [[P|]|]; exact G.
Qed.

Lemma words64_dc_decompress : forall b, bytes 56 b ->
  word_spends (dc_decompressS _ _ words64_machine b)
    (match dc_verdict (fiat_backend fiat_code) b with TooLarge => 1178 | IsOdd => 1468 | NoPoint => 81315 | Accepted => 83469 end)
    (match dc_verdict (fiat_backend fiat_code) b with TooLarge => 0 | IsOdd => 0 | NoPoint => 29729 | Accepted => 30415 end).
Proof.
  intros b Hb. pose proof (d64 weigh_dc_decompress b (1178, 0) (1468, 0) (81315, 29729) (83469, 30415) Hb ltac:(vm_compute; reflexivity) ltac:(vm_compute; reflexivity) ltac:(vm_compute; reflexivity) ltac:(vm_compute; reflexivity)) as G. cbv zeta in *. destruct (dc_verdict _ b); exact G.
Qed.
