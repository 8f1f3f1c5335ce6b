(** Property C84: which sets of Cargo features build, and that the choice makes no difference to callers.

    Reading guide.  [request]: what one dependent asks for, the features it names and whether it leaves the default ones on;
    Cargo unites the requests.  [enabled rs f] (SpecFeatures.v): feature f is on.  [resolves rs] (FeatureModel.v): every name used
    in what is compiled has exactly one definition and every external crate used is there.  [has rs n]: the item n is
    offered.  [backend_of P rs]: the field backend of the build, over the fiat-crypto functions P.  [api], [api_run]: programs
    over the public functions (ApiExpr.v). *)
Require Import List Bool String.
From Verif Require Import Base FieldBackend FieldFiatModel Backends FeatureModel SpecFeatures ApiExpr ApiRun ApiCases FeatureMain.
Import ListNotations.
Open Scope string_scope.

(** Exactly one of the two backends. *)
Theorem C84_builds : forall rs, resolves rs = true <->
  (enabled rs F_fiat_u64_backend /\ ~ enabled rs F_u32_backend) \/ (enabled rs F_u32_backend /\ ~ enabled rs F_fiat_u64_backend).
Proof. exact builds. Qed.
Print Assumptions C84_builds.

(** In terms of what is asked for: some dependent names the 32-bit backend exactly when all of them switch the other off. *)
Theorem C84_builds_asked : forall rs, resolves rs = true <->
  ((exists r, In r rs /\ In F_u32_backend (named r)) <->
   (forall r, In r rs -> default_features r = false /\ ~ In F_default (named r) /\ ~ In F_fiat_u64_backend (named r))).
Proof. exact builds_asked. Qed.
Print Assumptions C84_builds_asked.

(** Features are meant to be additive: what builds goes on building when another dependent asks for more.  Here it does not. *)
Theorem C84_additive_refuted : exists r r', resolves [r] = true /\ resolves [r'] = true /\ resolves [r; r'] = false /\
  r = {| default_features := true; named := [] |} /\ r' = {| default_features := false; named := [F_u32_backend] |}.
Proof. exact not_additive. Qed.
Print Assumptions C84_additive_refuted.

Theorem C84_optional_items : forall rs,
  (has rs "Scalar::random" = true <-> exists r, In r rs /\ In F_rand (named r)) /\
  (has rs "MontgomeryPoint::zeroize" = true <-> exists r, In r rs /\ In F_zeroize (named r)).
Proof. exact optional_items. Qed.
Print Assumptions C84_optional_items.

(** Programs return the same data whichever build they are linked with. *)
Theorem C84_builds_agree : forall P, fiat_contract P -> forall rs rs', resolves rs = true -> resolves rs' = true ->
  forall d (e : api (TData d)), api_ok e -> exists o, api_run (backend_of P rs) e = Ok o /\ api_run (backend_of P rs') e = Ok o.
Proof. exact builds_agree. Qed.
Print Assumptions C84_builds_agree.

(** The default build, the 32-bit build with random scalars and zeroize, naming the 32-bit backend and leaving the default on, and no
    backend at all. *)
Example C84_case :
  resolves [{| default_features := true; named := [] |}] = true /\
  resolves [{| default_features := false; named := [F_u32_backend; F_rand] |}; {| default_features := false; named := [F_zeroize] |}] = true /\
  resolves [{| default_features := true; named := [F_u32_backend] |}] = false /\
  resolves [{| default_features := false; named := [F_rand] |}] = false.
Proof. repeat split; vm_compute; reflexivity. Qed.
