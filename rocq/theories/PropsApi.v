(** C17, C52 and C60: programs over the whole public API (ApiExpr.v); what they mean is in SpecApi.v. *)
Require Import ZArith List Bool.
From Verif Require Import Base SpecCurve SpecEncoding FieldBackend FieldFiatModel Backends ScalarModel ApiExpr SpecApi ApiRun ApiCases ApiMeaning.
Import ListNotations.

(** ** C17 *)
(** Whatever a program returns as data - bytes, booleans, scalars, anything computed from them - is the same with either
    backend, for every implementation of the fiat primitives that meets their documented contract. *)
Theorem C17_backends_agree : forall P, fiat_contract P -> forall d (e : api (TData d)), api_ok e ->
  exists o, api_run u32_backend e = Ok o /\ api_run (fiat_backend P) e = Ok o.
Proof. exact (fun P H => api_backends _ _ shipped_u32 (shipped_fiat P H)). Qed.
Print Assumptions C17_backends_agree.

(** Two implementations of the primitives meeting the contract are interchangeable too. *)
Theorem C17_primitives_agree : forall P P', fiat_contract P -> fiat_contract P' -> forall d (e : api (TData d)), api_ok e ->
  exists o, api_run (fiat_backend P) e = Ok o /\ api_run (fiat_backend P') e = Ok o.
Proof. exact (fun P P' H H' => api_backends _ _ (shipped_fiat P H) (shipped_fiat P' H')). Qed.
Print Assumptions C17_primitives_agree.

Example C17_case : forall k, is_scalar k -> api_ok (sample k).
Proof. exact sample_ok. Qed.

(** ** C52 *)
(** No program over the public API without the three [todo!()] functions panics; in Rust terms, with overflow checks
    on, for every input a caller can supply.  C80 adds [subtle]'s debug assertion, C79 turns the overflow checks off. *)
Theorem C52_no_panic : forall B, shipped B -> forall s (e : api s), api_ok e -> exists o, api_run B e = Ok o.
Proof. exact api_no_panic. Qed.
Print Assumptions C52_no_panic.

(** Data come back as values of their Rust types. *)
Theorem C52_well_typed : forall B, shipped B -> forall d (e : api (TData d)), api_ok e ->
  forall v, api_run B e = Ok (Some v) -> dok d v.
Proof. exact api_typed. Qed.
Print Assumptions C52_well_typed.

Example C52_case : forall B, shipped B -> forall k, is_scalar k -> exists b, bytes 56 b /\ api_run B (sample k) = Ok (Some b).
Proof. exact sample_returns. Qed.

(** ** C60 *)
(** Data: the very bytes, booleans and scalars of the meaning, and failure exactly when the meaning fails. *)
Theorem C60_data : forall B, shipped B -> forall d (e : api (TData d)), api_ok e -> api_run B e = Ok (meaning e).
Proof. exact data_meaning. Qed.
Print Assumptions C60_data.

(** Points: valid coordinates of the affine point of the meaning. *)
Theorem C60_values : forall B, shipped B -> forall s (e : api s), api_ok e -> exists o, api_run B e = Ok o /\ returns B o (meaning e).
Proof. exact value_meaning. Qed.
Print Assumptions C60_values.

(** The equation of a signature check, on points given by their encodings. *)
Example C60_case : forall B, shipped B -> forall a r s h, bytes 57 a -> bytes 57 r -> is_scalar s -> is_scalar h ->
  api_run B (AEdEq (AEdMul AEdGenerator s) (AEdAdd (AEdDecompress r) (AEdMul (AEdDecompress a) h))) =
  Ok (match ed_decode r, ed_decode a with
      | Some R, Some A => Some (peq (pmul ed_a ed_d (sval s) G) (padd ed_a ed_d R (pmul ed_a ed_d (sval h) A)))
      | _, _ => None
      end).
Proof. exact check_meaning. Qed.
