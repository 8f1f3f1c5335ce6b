(** Property C89: what the tests [is_on_curve] accept.

    Reading guide (PointSpec.v).  [fe_tight B x]: x is a field element as the operations of backend B leave it; [fv B x]: its value.
    [ed_valid B P]: the coordinates of P stand for a point of the curve.  The four coordinates are otherwise arbitrary. *)
Require Import ZArith.
From Verif Require Import Base SpecField SpecCurve FieldBackend FieldModel Backends TwistedModel EdwardsModel PointSpec CurveChecks.
Open Scope F_scope.

(** The curve itself: coordinates that stand for a point, and four zeros. *)
Theorem C89_edwards : forall B, shipped B -> forall P, fe_tight B (edX P) /\ fe_tight B (edY P) /\ fe_tight B (edZ P) /\ fe_tight B (edT P) ->
  exists b, ed_is_on_curve B P = Ok b /\
    (b = true <-> ed_valid B P \/ fv B (edX P) = 0 /\ fv B (edY P) = 0 /\ fv B (edZ P) = 0 /\ fv B (edT P) = 0).
Proof. exact ed_check. Qed.
Print Assumptions C89_edwards.

(** The twisted curve: coordinates that stand for a point, four zeros, and the two points at infinity. *)
Theorem C89_twisted : forall B, shipped B -> forall P, fe_tight B (twX P) /\ fe_tight B (twY P) /\ fe_tight B (twZ P) /\ fe_tight B (twT P) ->
  exists b, tw_is_on_curve B P = Ok b /\
    (b = true <->
      (fv B (twZ P) <> 0 /\ fv B (twT P) * fv B (twZ P) = fv B (twX P) * fv B (twY P) /\ on_curve tw_a tw_d (tw_affine B P)) \/
      (fv B (twZ P) = 0 /\ fv B (twX P) = 0 /\ fv B (twY P) * fv B (twY P) = tw_d * (fv B (twT P) * fv B (twT P)))).
Proof. exact tw_check. Qed.
Print Assumptions C89_twisted.

(** So "whatever passes stands for a point" is false: four zeros pass, and on the twisted curve so does (0 : Y : 0 : 1) with Y^2 = d. *)
Theorem C89_edwards_refuted : forall B, shipped B -> let z := fe_zero B in ed_is_on_curve B (mkEd z z z z) = Ok true /\ ~ ed_valid B (mkEd z z z z).
Proof. exact ed_zeros. Qed.
Print Assumptions C89_edwards_refuted.
Theorem C89_twisted_refuted : forall B, shipped B ->
  exists Y, fe_tight B Y /\ fv B Y <> 0 /\ fv B Y * fv B Y = tw_d /\ tw_is_on_curve B (mkTw (fe_zero B) Y (fe_zero B) (fe_one B)) = Ok true.
Proof. exact tw_infinity. Qed.
Print Assumptions C89_twisted_refuted.

(** Accepted: the base points; not accepted: (1 : 1 : 1 : 1), on the curve with d = 1. *)
Example C89_case : forall B, shipped B -> let o := fe_one B in
  ed_is_on_curve B (ed_generator B) = Ok true /\ tw_is_on_curve B (tw_generator B) = Ok true /\
  ed_is_on_curve B (mkEd o o o o) = Ok false /\ tw_is_on_curve B (mkTw o o o o) = Ok false.
Proof. exact checks_case. Qed.
