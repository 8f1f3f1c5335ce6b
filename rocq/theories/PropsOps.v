(** Property C72: every form in which an operator can be written.

    Reading guide.  OpModel.v holds the operator implementations as expressions and Rust's rules for choosing among them:
    [typeof G e] is the type of expression e when the variables have types G ([None]: does not compile), [exec B n G env e] runs e on the
    values env over backend B for at most n nested calls.  [sense senv e] (SpecOps.v) is what e means when the variables mean senv;
    references, assignments and methods make no difference there.  [denotes B v x]: the value v of the code stands for x. *)
Require Import ZArith List Bool.
From Verif Require Import Base SpecParams SpecField SpecCurve FieldBackend Backends ScalarModel TwistedModel EdwardsModel PointSpec OpModel SpecOps OpMain.
Import ListNotations.

(** An expression that compiles ends without panic, and its value stands for what the expression means. *)
Theorem C72_programs : forall B, shipped B -> forall e G env senv t, callers e -> typed G env -> Forall2 (denotes B) env senv -> typeof G e = Some t ->
  exists n v s, sense senv e = Some s /\ denotes B v s /\ kind v = nom_of t /\ forall m, (n <= m)%nat -> exec B m G env e = Ran (Ok v).
Proof. exact programs. Qed.
Print Assumptions C72_programs.

Example C72_case : forall B, shipped B -> forall s, is_scalar s ->
  let G := [Own EdT; Bor ScT; Bor EdT] in
  let env := [VEd (ed_generator B); VSc s; VEd (ed_generator B)] in
  let senv := [SEd SpecCurve.G; SSc s; SEd SpecCurve.G] in
  callers op_case /\ typed G env /\ Forall2 (denotes B) env senv /\ typeof G op_case = Some (Own EdT) /\
  sense senv op_case =
    Some (SEd (padd ed_a ed_d SpecCurve.G (pneg (padd ed_a ed_d (pmul ed_a ed_d (sval s) SpecCurve.G) (pneg SpecCurve.G))))).
Proof. exact op_case_ok. Qed.

(** Two spellings of one expression give the very same value, limb for limb, or both panic; over any backend and any values. *)
Theorem C72_spellings_agree : forall B e e', callers e -> callers e' -> bare e = bare e' -> forall G G' env t t', typed G env -> typed G' env ->
  typeof G e = Some t -> typeof G' e' = Some t' ->
  exists n r, forall m, (n <= m)%nat -> exec B m G env e = Ran r /\ exec B m G' env e' = Ran r.
Proof. exact forms_agree. Qed.
Print Assumptions C72_spellings_agree.

Example C72_spellings_case :
  let e := Bin Sub (Var 0) (Bin Mul (Var 1) (Var 2)) in
  let e' := Bin SubAssign (Var 0) (Ref (Call2 m_scalar_mul (Var 1) (Var 2))) in
  callers e /\ callers e' /\ bare e = bare e' /\
  typeof [Bor EdT; Own EdT; Own ScT] e = Some (Own EdT) /\ typeof [Own EdT; Own EdT; Bor ScT] e' = Some (Own EdT).
Proof. exact spellings_case. Qed.

(** Which combinations of owned and borrowed operands each operator accepts. *)
Theorem C72_offered : forall o l r, (exists t, typeof [l; r] (Bin o (Var 0) (Var 1)) = Some t) <-> offered o l r = true.
Proof. exact forms_offered. Qed.
Print Assumptions C72_offered.

Theorem C72_negations : forall l, (exists t, typeof [l] (Neg (Var 0)) = Some t) <-> nom_of l = EdT \/ nom_of l = DcT.
Proof. exact negations_offered. Qed.
Print Assumptions C72_negations.

(** [iter.sum()] over points. *)
Theorem C72_sum : forall B, shipped B -> forall l, Forall (ed_valid B) l ->
  exists R, ed_valid B R /\ ed_affine B R = fold_left (padd ed_a ed_d) (map (ed_affine B) l) pzero /\
  forall n, (9 <= n)%nat -> sum_value B n (map VEd l) = Ran (Ok (VEd R)).
Proof. exact sum_meaning. Qed.
Print Assumptions C72_sum.
