(** Release builds against debug builds: functions and programs. *)
Require Import ZArith List Bool Lia.
From Verif Require Import Base BaseProofs SpecParams FieldBackend FieldU32Model FieldFiatModel FiatCode FiatMain Backends BackendLaws ScalarModel TwistedModel ScalarMulModel EdwardsModel MontgomeryModel DecafModel ApiExpr
  EdwardsExpr ApiRun Steps StepSubtle StepU32 StepFiat StepScalar StepCurve StepPlain StepRelWords StepRelFiat StepRelCurve TraceSpec TraceSpec64 TraceLogic TraceLogicWords TraceFiat ReleaseSpec ReleaseLogic.
Import ListNotations.
Open Scope Z_scope.

Local Notation pk f := (f _ _ keeping release plain Weq release_keeps).
Local Notation rel f := (f panics release).
Local Notation P := fiat_code.
Ltac ins := repeat first [assumption | apply F2_same | reflexivity].

(** ** Functions *)
Theorem field32_kept : forall a b c,
  kept (add28 a b) (rel add28S a b) /\ kept (sub28 a b) (rel sub28S a b) /\ kept (negate28 a) (rel negate28S a) /\
  kept (mul28 a b) (rel mul28S a b) /\ kept (square28 a) (rel square28S a) /\ kept (weak_reduce28 a) (rel weak_reduce28S a) /\ kept (strong_reduce28 a) (rel strong_reduce28S a) /\
  kept (from_bytes28 a) (rel from_bytes28S a) /\ kept (to_bytes28 a) (rel to_bytes28S a) /\ kept (is_negative28 a) (rel is_negative28S a) /\
  kept (Ok (conditional_select28 a b c)) (rel conditional_select28S a b c) /\ kept (conditional_negate28 a c) (rel conditional_negate28S a c).
Proof.
  intros a b c. repeat split; first [apply kept_list | apply kept_of].
  - apply (pk p_add28); ins.
  - apply (pk p_sub28); ins.
  - apply (pk p_negate28); ins.
  - apply (keeps_eq _ _ _ _ _ _ (e_mul28 _ _)), (pk p_mul28); ins.
  - apply (keeps_eq _ _ _ _ _ _ (e_square28 _)), (pk p_square28); ins.
  - apply (pk p_weak_reduce28); ins.
  - apply (keeps_eq _ _ _ _ _ _ (e_strong_reduce28 _)), (pk p_strong_reduce28); ins.
  - apply (pk p_from_bytes28); ins.
  - apply (keeps_eq _ _ _ _ _ _ (e_to_bytes28 _)), (pk p_to_bytes28); ins.
  - apply (keeps_eq _ _ _ _ _ _ (e_is_negative28 _)), (pk p_is_negative28); ins.
  - apply (keeps_eq _ _ _ _ _ _ (e_select28 _ _ _)), (pk p_select28); ins.
  - apply (keeps_eq _ _ _ _ _ _ (e_cond_negate28 _ _)), (pk p_cneg28); ins.
Qed.
Theorem field64_kept : forall a b c,
  kept (add56 P a b) (rel add56S a b) /\ kept (sub56 P a b) (rel sub56S a b) /\ kept (negate56 P a) (rel negate56S a) /\
  kept (mul56 P a b) (rel mul56S a b) /\ kept (square56 P a) (rel square56S a) /\ kept (strong_reduce56 P a) (rel strong_reduce56S a) /\
  kept (from_bytes56 P a) (rel from_bytes56S a) /\ kept (to_bytes56 P a) (rel to_bytes56S a) /\ kept (is_negative56 P a) (rel is_negative56S a) /\
  kept (conditional_select56 P a b c) (rel conditional_select56S a b c) /\ kept (conditional_negate56 P a c) (rel conditional_negate56S a c).
Proof.
  intros a b c. repeat split; first [apply kept_list | apply kept_of].
  - apply (keeps_eq _ _ _ _ _ _ (e_add56 _ _)), (pk p_add56); ins.
  - apply (keeps_eq _ _ _ _ _ _ (e_sub56 _ _)), (pk p_sub56); ins.
  - apply (keeps_eq _ _ _ _ _ _ (e_negate56 _)), (pk p_negate56); ins.
  - apply (keeps_eq _ _ _ _ _ _ (e_mul56 _ _)), (pk p_mul56); ins.
  - apply (keeps_eq _ _ _ _ _ _ (e_square56 _)), (pk p_square56); ins.
  - apply (keeps_eq _ _ _ _ _ _ (e_strong_reduce56 _)), (pk p_fcarry); ins.
  - apply (keeps_eq _ _ _ _ _ _ (e_from_bytes56 _)), (pk p_from_bytes56); ins.
  - apply (keeps_eq _ _ _ _ _ _ (e_to_bytes56 _)), (pk p_to_bytes56); ins.
  - apply (keeps_eq _ _ _ _ _ _ (e_is_negative56 _)), (pk p_is_negative56); ins.
  - apply (keeps_eq _ _ _ _ _ _ (e_select56 _ _ _)), (pk p_select56); ins.
  - apply (keeps_eq _ _ _ _ _ _ (e_cond_negate56 _ _)), (pk p_cneg56); ins.
Qed.
Theorem scalar_kept : forall a b,
  kept (scalar_add a b) (rel scalar_addS a b) /\ kept (scalar_sub a b) (rel scalar_subS a b) /\ kept (scalar_mul a b) (rel scalar_mulS a b) /\
  kept (montgomery_multiply a b) (rel montgomery_multiplyS a b) /\ kept (scalar_invert a) (rel scalar_invertS a) /\ kept (scalar_halve a) (rel scalar_halveS a) /\
  kept (Ok (scalar_div_by_four a)) (rel scalar_div_by_fourS a) /\ kept (scalar_from_bytes_mod_order_wide a) (rel scalar_from_bytes_mod_order_wideS a) /\
  kept (Ok (scalar_to_bytes a)) (rel scalar_to_bytesS a) /\ kept (to_radix_16 a) (rel to_radix_16S a).
Proof.
  intros a b. repeat split; apply kept_list.
  - apply (pk p_scalar_add); ins.
  - apply (pk p_scalar_sub); ins.
  - apply (pk p_scalar_mul); ins.
  - apply (pk p_mont); ins.
  - apply (keeps_eq _ _ _ _ _ _ (e_scalar_invert _)), (pk p_scalar_invert); ins.
  - apply (keeps_eq _ _ _ _ _ _ (e_scalar_halve _)), (pk p_scalar_halve); ins.
  - apply (keeps_eq _ _ _ _ _ _ (e_div_by_four _)), (pk p_div_by_four); ins.
  - apply (keeps_eq _ _ _ _ _ _ (e_scalar_wide _)), (pk p_scalar_wide); ins.
  - apply (keeps_eq _ _ _ _ _ _ (e_scalar_to_bytes _)), (pk p_scalar_to_bytes); ins.
  - apply (keeps_eq _ _ _ _ _ _ (e_to_radix_16 _)), (pk p_to_radix_16); ins.
Qed.

(** ** Programs *)
Lemma skel_same : forall s (e : api s), skel False (fun A => @eq A) s e e.
Proof. induction e; try solve [constructor; solve [auto]]. apply K_bind; [assumption|]. intros w w' <- _ _. auto. Qed.
Section Programs.
Variable B : backend.
Variable S : shipped B.
Variable O : backend.
Variable K : machine panics O.
Variable Rf : fe O -> fe B -> Prop.
Variable Rdig : digit K -> Z -> Prop.
Variable C : mcompat _ _ keeping O B K (plain_machine B) Rf Rdig.
Variable HB : forall c, m_branch K c = Ok c.
Variable HC : forall b b', b = b' -> bytes 57 b -> bytes 57 b' -> rl keeping (Ropt (Sec keeping)) (m_sc_canonical K b) (m_sc_canonical (plain_machine B) b').
Lemma programs_kept : forall s (e : api s), api_ok e -> exists o o', api_runS panics O K e = Ok o /\ api_run B e = Ok o' /\ Ropt (Rval _ _ keeping O B Rf s) o o'.
Proof.
  intros s e He. destruct (api_no_panic B S s e He) as (o' & Eo').
  assert (G : rl keeping (Ropt (Rval _ _ keeping O B Rf s)) (api_runS panics O K e) (api_runS panics B (plain_machine B) e)).
  { refine (p_api _ _ keeping O B K (plain_machine B) Rf Rdig C _ HC False _ _ s e e (skel_same s e) He He).
    - intros c c' H. change (c = c') in H. subst. rewrite HB. exists c'. split; reflexivity.
    - intros [].
    - intros d x x' v v' Hx Hx' G1 G2 Hv. change (v = v') in Hv. subst v'. assert (D : dok d v); [|split; exact D]. apply (api_typed B S d x' Hx' v). rewrite <- e_api_run. exact G2. }
  rewrite e_api_run, Eo' in G. destruct G as (o & Eo & G). exists o, o'. auto.
Qed.
Lemma value_of : forall (f : fe O -> fe B), (forall a b, Rf a b -> f a = b) -> forall s (v : val O s) (w : val B s), Rval _ _ keeping O B Rf s v w -> map_val f s v = w.
Proof.
  intros f Hf s v w. destruct s; cbn [Rval map_val]; unfold Red, Reda, Rtw, Rxt, Rpn, Rpm.
  - intro H. exact H.
  - destruct w. cbn. intros (E1 & E2 & E3 & E4). rewrite (Hf _ _ E1), (Hf _ _ E2), (Hf _ _ E3), (Hf _ _ E4). reflexivity.
  - destruct w. cbn. intros (E1 & E2). rewrite (Hf _ _ E1), (Hf _ _ E2). reflexivity.
  - intro H. induction H as [|Q R l l' (E1 & E2 & E3 & E4) H IH]; [reflexivity|]. cbn [map]. rewrite IH, (Hf _ _ E1), (Hf _ _ E2), (Hf _ _ E3), (Hf _ _ E4). destruct R. reflexivity.
  - destruct w. cbn. intros (E1 & E2 & E3 & E4). rewrite (Hf _ _ E1), (Hf _ _ E2), (Hf _ _ E3), (Hf _ _ E4). reflexivity.
  - destruct w. cbn. intros (E1 & E2 & E3 & E4 & E5). rewrite (Hf _ _ E1), (Hf _ _ E2), (Hf _ _ E3), (Hf _ _ E4), (Hf _ _ E5). reflexivity.
  - destruct w. cbn. intros (E1 & E2 & E3 & E4). rewrite (Hf _ _ E1), (Hf _ _ E2), (Hf _ _ E3), (Hf _ _ E4). reflexivity.
  - destruct w. cbn. intros (E1 & E2). rewrite (Hf _ _ E1), (Hf _ _ E2). reflexivity.
  - destruct w. cbn. intros (E1 & E2 & E3 & E4). rewrite (Hf _ _ E1), (Hf _ _ E2), (Hf _ _ E3), (Hf _ _ E4). reflexivity.
  - destruct w. cbn. intros (E1 & E2 & E3 & E4). rewrite (Hf _ _ E1), (Hf _ _ E2), (Hf _ _ E3), (Hf _ _ E4). reflexivity.
Qed.
Lemma results_kept : forall (f : fe O -> fe B), (forall a b, Rf a b -> f a = b) -> forall s (e : api s), api_ok e ->
  exists o, api_runS panics O K e = Ok o /\ api_run B e = Ok (option_map (map_val f s) o).
Proof.
  intros f Hf s e He. destruct (programs_kept s e He) as (o & o' & E & E' & H). exists o. split; [exact E|]. rewrite E'. f_equal.
  destruct o as [v|], o' as [w|]; cbn [Ropt] in H; try contradiction; [|reflexivity]. cbn [option_map]. rewrite (value_of f Hf s v w H). reflexivity.
Qed.
End Programs.

Theorem release32_result : forall s (e : api s), api_ok e -> exists o, release32_run e = Ok o /\ api_run u32_backend e = Ok (option_map release32_value o).
Proof. exact (results_kept u32_backend shipped_u32 release32 release32_machine Rsame Weq release32_keeps (fun c => eq_refl) release_canonical (fun l => l) (fun a b H => F2_eq a b H)). Qed.
Theorem release64_result : forall s (e : api s), api_ok e -> exists o, release64_run e = Ok o /\ api_run (fiat_backend fiat_code) e = Ok (option_map release64_value o).
Proof. exact (results_kept (fiat_backend fiat_code) shipped_code release64 release64_machine Rsame64 Weq release64_keeps (fun c => eq_refl) release_canonical (fun l => l) (fun a b H => F2_eq a b H)). Qed.

(** ** Without the bounds *)
Definition full28 : list Z := repeat (2 ^ 32 - 1) 16.
Lemma unreduced : add28 full28 full28 = Panic /\ exists c, rel add28S full28 full28 = Ok c /\ wf28 c /\ val28 c mod p <> (val28 full28 + val28 full28) mod p.
Proof.
  split; [vm_compute; reflexivity|]. eexists. split; [vm_compute; reflexivity|]. split.
  - split; [reflexivity|]. repeat constructor; discriminate.
  - vm_compute. discriminate.
Qed.
Definition full56 : list Z := repeat (2 ^ 64 - 1) 8.
Lemma unreduced64 : add56 P full56 full56 = Panic /\ exists c, rel add56S full56 full56 = Ok c /\ val56 c mod p <> (val56 full56 + val56 full56) mod p.
Proof. split; [vm_compute; reflexivity|]. eexists. split; [vm_compute; reflexivity|]. vm_compute. discriminate. Qed.
Lemma unreduced_words : exists a b c, length a = 16%nat /\ length b = 16%nat /\ Forall (fun x => 0 <= x < 2 ^ 32) (a ++ b) /\
  add28 a b = Panic /\ rel add28S a b = Ok c /\ wf28 c /\ val28 c mod p <> (val28 a + val28 b) mod p.
Proof.
  destruct unreduced as (E & c & Ec & Hw & Hc). exists full28, full28, c. repeat (split; [first [reflexivity | repeat constructor; discriminate | assumption]|]). exact Hc.
Qed.
Lemma unreduced64_words : exists a b c, length a = 8%nat /\ length b = 8%nat /\ Forall (fun x => 0 <= x < 2 ^ 64) (a ++ b) /\
  add56 P a b = Panic /\ rel add56S a b = Ok c /\ val56 c mod p <> (val56 a + val56 b) mod p.
Proof.
  destruct unreduced64 as (E & c & Ec & Hc). exists full56, full56, c. repeat (split; [first [reflexivity | repeat constructor; discriminate | assumption]|]). exact Hc.
Qed.
(** A field element within bounds, a scalar, a point. *)
Definition near28 : list Z := repeat (2 ^ 28) 16.
Lemma near_case : wf28 near28 /\ (exists v, mul28 near28 near28 = Ok v) /\ rel mul28S near28 near28 = mul28 near28 near28.
Proof.
  split; [split; [reflexivity|repeat constructor; discriminate]|]. destruct (mul28 near28 near28) as [v|] eqn:E; [|vm_compute in E; discriminate E].
  split; [exists v; reflexivity|]. destruct (field32_kept near28 near28 false) as (_ & _ & _ & M & _). exact (M v E).
Qed.
Lemma program_case : api_ok (AEdCompress (AEdMul AEdGenerator (repeat (2 ^ 32 - 1) 14))).
Proof. split; [exact I|]. split; [reflexivity|]. repeat constructor; discriminate. Qed.
