(** What decoders show, cases, and wrong code found out. *)
Require Import ZArith List Bool Lia.
From Verif Require Import Base BaseProofs SpecParams SpecField SpecEncoding SpecDecaf FieldBackend FieldU32Model Backends BackendLaws ScalarModel ScalarMulModel TwistedModel EdwardsModel EdwardsExpr MontgomeryModel DecafModel ApiExpr ApiRun
  EdwardsProofs DecafMain DecafFacts Steps StepU32 StepScalar StepCurve StepPlain TraceSpec TraceMain TraceWords.
Import ListNotations.
Open Scope Z_scope.

Section Decoders.
Variable B : backend.
Variable S : shipped B.
Lemma see_edwards : forall b b', bytes 57 b -> bytes 57 b' -> (fst (field_run B (AEdDecompress b)) = fst (field_run B (AEdDecompress b')) <-> edwards_branches B b = edwards_branches B b').
Proof. intros b b' Hb Hb'. exact (proj1 (field_traces B S _ (AEdDecompress b) (AEdDecompress b') Hb Hb' (SC_ed_decompress _ _ _ I))). Qed.
Lemma see_decaf : forall b b', bytes 56 b -> bytes 56 b' -> (fst (field_run B (ADcDecompress b)) = fst (field_run B (ADcDecompress b')) <-> dc_verdict B b = dc_verdict B b').
Proof.
  intros b b' Hb Hb'. rewrite (proj1 (field_traces B S _ (ADcDecompress b) (ADcDecompress b') Hb Hb' (SC_dc_decompress _ _ _ I))). cbn [decisions]. unfold decaf_branches.
  split; [|intros ->; reflexivity]. destruct (dc_verdict B b), (dc_verdict B b'); intro H; try reflexivity; discriminate H.
Qed.
Lemma verdicts : dc_verdict B (le_bytes 56 p) = TooLarge /\ dc_verdict B (le_bytes 56 1) = IsOdd /\ dc_verdict B (le_bytes 56 4) = NoPoint /\ dc_verdict B rfc_generator = Accepted.
Proof. destruct (decode_cases B S) as ((P & E & _) & _ & _ & _ & R4). unfold dc_verdict. rewrite R4, E. repeat split. Qed.
Lemma rejected_seen : exists b b', bytes 56 b /\ bytes 56 b' /\ dc_decompress B b = Ok None /\ dc_decompress B b' = Ok None /\
  fst (field_run B (ADcDecompress b)) <> fst (field_run B (ADcDecompress b')).
Proof.
  exists (le_bytes 56 p), (le_bytes 56 4). destruct (decode_cases B S) as (_ & Rp & _ & _ & R4), verdicts as (Vp & _ & V4 & _).
  split; [apply le_bytes_bytes|]. split; [apply le_bytes_bytes|]. split; [exact Rp|]. split; [exact R4|].
  rewrite (see_decaf _ _ (le_bytes_bytes 56 p) (le_bytes_bytes 56 4)), Vp, V4. intro E; discriminate E.
Qed.
(** A shared secret. *)
Definition shared (b : list Z) (t : scalar) : api (TData (DBytes 56)) := ADcCompress (ADcMul (ADcDecompress b) t).
Lemma generator_bytes : bytes 56 rfc_generator.
Proof. split; [reflexivity|]. repeat constructor; vm_compute; congruence. Qed.
Lemma zeros_bytes : bytes 56 (repeat 0 56).
Proof. split; [reflexivity|]. repeat constructor; vm_compute; congruence. Qed.
Lemma shared_case : forall t t', is_scalar t -> is_scalar t' ->
  api_ok (shared rfc_generator t) /\ api_ok (shared (repeat 0 56) t') /\ same_calls (alike B) _ (shared rfc_generator t) (shared (repeat 0 56) t') /\
  (exists v, snd (field_run B (shared rfc_generator t)) = Ok (Some v)) /\
  fst (field_run B (shared rfc_generator t)) = fst (field_run B (shared (repeat 0 56) t')) /\
  branches (fst (field_run B (shared rfc_generator t))) = [false; false; false].
Proof.
  intros t t' Ht Ht'. assert (K : api_ok (shared rfc_generator t)) by (split; [exact generator_bytes|exact Ht]).
  assert (K' : api_ok (shared (repeat 0 56) t')) by (split; [exact zeros_bytes|exact Ht']).
  destruct (decode_cases B S) as ((P & E & _) & _), (identity_string B S) as (_ & (P' & E' & _) & _).
  assert (V : dc_verdict B rfc_generator = Accepted) by (unfold dc_verdict; rewrite E; reflexivity).
  assert (V' : dc_verdict B (repeat 0 56) = Accepted) by (unfold dc_verdict; change (dc_decompress B (repeat 0 56)) with (dc_decompress B cd_identity); rewrite E'; reflexivity).
  assert (C : same_calls (alike B) _ (shared rfc_generator t) (shared (repeat 0 56) t')).
  { apply SC_dc_compress, SC_dc_mul, SC_dc_decompress. unfold alike. cbn [branching]. unfold decaf_branches. rewrite V, V'. reflexivity. }
  split; [exact K|]. split; [exact K'|]. split; [exact C|]. split.
  - destruct (field_result B S _ _ K) as (o & F & EB). exists (match o with Some v => v | None => [] end). rewrite F. apply f_equal. destruct o as [v|]; [reflexivity|exfalso].
    revert EB. unfold shared. cbn [api_run]. rewrite E. cbn [obind].
    destruct (dc_mul B P t) as [Q|]; cbn [osome bind obind]; [|discriminate]. destruct (dc_compress B Q); cbn [osome bind]; discriminate.
  - split.
    + destruct (field_alike B S _ _ _ K K' C) as (tr & o & o' & F & F' & _). rewrite F, F'. reflexivity.
    + rewrite (field_branches B S _ _ K). unfold shared. cbn [decisions]. unfold decaf_branches. rewrite V. reflexivity.
Qed.
End Decoders.
(** A caller who chooses calls by secret data is seen. *)
Lemma bind_starts : forall E A C (m : run (tracing E) A) (f : A -> run (tracing E) C), exists u, fst (andthen m f) = fst m ++ u.
Proof. intros E A C [t [a|]] f; cbn [andthen tracing traced fst]; [destruct (f a) as [u r]; exists u; reflexivity|exists []; rewrite app_nil_r; reflexivity]. Qed.
Lemma caller_seen : forall B, let prog c := ABind DBool TEd (ARet DBool c) (fun c : dval DBool => if c : bool then AEdDouble AEdGenerator else AEdGenerator) in
  fst (field_run B (prog true)) <> fst (field_run B (prog false)).
Proof.
  intro B. cbv zeta. change (fst (field_run B (ABind DBool TEd (ARet DBool false) (fun c : dval DBool => if c : bool then AEdDouble AEdGenerator else AEdGenerator)))) with (@nil (event operation)).
  set (O := tagged B). set (K := field_machine B). set (T := tracing operation).
  assert (H : exists e u, fst (osomeS T (ed_doubleS T O K (ed_generator O))) = e :: u).
  { assert (G : exists e v, fst (ed_doubleS T O K (ed_generator O)) = e :: v).
    { unfold ed_doubleS, ed_addS. match goal with |- context [fst (andthen ?m ?f)] => destruct (bind_starts _ _ _ m f) as (v & Ev) end. eexists. eexists. exact (eq_trans Ev eq_refl). }
    destruct G as (e & v & G). unfold osomeS. destruct (bind_starts _ _ _ (ed_doubleS T O K (ed_generator O)) (fun a => @ret T _ (Some a))) as (u & Eu). rewrite G in Eu. exists e, (v ++ u). exact Eu. }
  destruct H as (e & u & H). intro Z.
  assert (X : fst (field_run B (ABind DBool TEd (ARet DBool true) (fun c : dval DBool => if c : bool then AEdDouble AEdGenerator else AEdGenerator))) = fst (osomeS T (ed_doubleS T O K (ed_generator O)))).
  { unfold field_run, osomeS. cbn -[ed_doubleS ed_generator tagged field_machine]. fold O K T. destruct (ed_doubleS T O K (ed_generator O)) as [t [r|]]; reflexivity. }
  pose proof (eq_trans (eq_sym H) (eq_trans (eq_sym X) Z)) as Y. discriminate Y.
Qed.
(** Code that skips an addition of zero, and code that looks up a table at a secret place. *)
Lemma skip_seen : let add_unless_zero x y := andthen (test watched TNonZero y) (fun t => andthen (branch watched t) (fun b : bool => if b then chk watched CU32Add x y else @ret (tracing word_op) _ x)) in
  ~ same_steps snd (add_unless_zero (5, WIn 0) (0, WIn 1)) (add_unless_zero (5, WIn 0) (1, WIn 1)).
Proof. cbv zeta. intros (H & _). discriminate H. Qed.
Lemma lookup_seen : let look_up (table : list (Z * wshape)) (i : Z) := indexS (M := tracing word_op) table i in
  ~ same_steps snd (look_up [(7, WIn 0); (9, WIn 1)] 0) (look_up [(7, WIn 0); (9, WIn 1)] 1).
Proof. cbv zeta. intros (_ & _ & H). destruct (H (7, WIn 0) (9, WIn 1) eq_refl eq_refl) as (_ & E). discriminate E. Qed.

Lemma see_scalar : forall b b', bytes 57 b -> bytes 57 b' -> (fst (word_run (AScCanonical b)) = fst (word_run (AScCanonical b')) <-> scalar_branches b = scalar_branches b').
Proof. intros b b' Hb Hb'. exact (proj1 (word_traces _ (AScCanonical b) (AScCanonical b') Hb Hb' (SC_sc_canonical _ _ _ I))). Qed.
Lemma scalar_cases : map (fun n => scalar_branches (le_bytes 57 n)) [ell - 1; ell; 2 ^ 446; 2 ^ 448] = [[false; false; true]; [false; false; false]; [false; true]; [true]].
Proof. vm_compute. reflexivity. Qed.
