(** Proofs for C77: operation counts the comments mention. *)
Require Import ZArith List Bool Lia.
From Verif Require Import Base BaseProofs SpecParams SpecField SpecCurve FieldBackend FieldU32Model Backends BackendLaws FieldModel FieldProofs ScalarModel TwistedModel ScalarMulModel EdwardsModel ApiExpr ApiRun
  PointSpec EdwardsProofs TwistedProofs EdwardsMain TwistedMain ScalarMain
  Steps StepU32 StepScalar StepCurve StepPlain StepRelWords StepRelCurve TraceSpec TraceLogic TraceLogicWords TraceFacts TraceMain TraceWords CostSpec CostMain.
Import ListNotations.
Open Scope Z_scope.

Section Costs.
Variable B : backend.
Variable S : shipped B.
Let L := shipped_laws B S.
Notation O := (tagged B).
Notation K := (field_machine B).
Notation B0 := (blank false false).
Notation p2 f := (f _ _ (two operation) O (tagged B0) K (field_machine B0) Rshape (fun _ _ => True) (field_two B B0)).
Notation pq f := (f _ _ (quiet operation) O B K (plain_machine B) Rplain eq (field_quiet B)).
Definition xt0 (P : XtPoint O) : XtPoint (tagged B0) := @mkXt (tagged B0) (false, snd (xtX P)) (false, snd (xtY P)) (false, snd (xtZ P)) (false, snd (xtT1 P)) (false, snd (xtT2 P)).
Definition pn0 (P : PNiels O) : PNiels (tagged B0) := @mkPN (tagged B0) (false, snd (pnYpX P)) (false, snd (pnYmX P)) (false, snd (pnTd P)) (false, snd (pnZ P)).
Lemma xt0_rel : forall P, Rxt O (tagged B0) Rshape P (xt0 P). Proof. intro P. repeat split. Qed.
Lemma pn0_rel : forall P, Rpn O (tagged B0) Rshape P (pn0 P). Proof. intro P. repeat split. Qed.
Definition xv (P : XtPoint O) : XtPoint B := field_values (s := TXt) P.
Definition nv (P : PNiels O) : PNiels B := field_values (s := TPn) P.
Lemma Rxt_q : forall P : XtPoint O, Rxt O B Rplain P (field_values (s := TXt) P). Proof. intro P. repeat split. Qed.
Lemma Rpn_q : forall P : PNiels O, Rpn O B Rplain P (field_values (s := TPn) P). Proof. intro P. repeat split. Qed.
Ltac vm := vm_compute; reflexivity.
Theorem cost_add_pn : forall P N Q R, xt_rep B (xv P) Q -> pn_rep B (nv N) R -> costs (xt_add_projective_nielsS (tracing operation) O K P N) (mkCost 8 0 3 3 0 0 0).
Proof.
  intros P N Q R HP HN. eapply (cost_of _ _ _ _ (xt_add_projective_nielsS (tracing operation) (tagged B0) (field_machine B0) (xt0 P) (pn0 N)));
    [exact (pq p_xt_add_pn P _ N _ (Rxt_q P) (Rpn_q N))| |exact (p2 p_xt_add_pn P _ N _ (xt0_rel P) (pn0_rel N))|vm|vm|vm].
  change (exists v, xt_add_projective_niels B (xv P) (nv N) = Ok v). destruct (xt_add_projective_niels_ok B L _ _ _ _ HP HN) as (r & E & _). exists r. exact E.
Qed.
Theorem cost_mod_four : forall P t, ed_valid B (ev B P) -> is_scalar t -> costs (ed_scalar_mod_fourS (tracing operation) O K P t) (mkCost 26 0 8 8 0 16 0).
Proof.
  intros P t V Ht. eapply (cost_of _ _ _ _ (ed_scalar_mod_fourS (tracing operation) (tagged B0) (field_machine B0) (ed0 B P) zeros));
    [exact (pq p_ed_mod_four P _ t t (Red_q B P) (scq t Ht))| |exact (p2 p_ed_mod_four P _ t zeros (ed0_rel B P) (sc2 t zeros Ht zeros_sc))|vm|vm|vm].
  destruct (mod_four_law B S (ev B P) t V Ht) as (R & E & _). exists R. exact E.
Qed.
End Costs.
