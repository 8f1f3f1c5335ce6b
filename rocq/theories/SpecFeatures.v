(** What the features of a build should be, independently of how the model computes them. *)
Require Import List.
From Verif Require Import FieldBackend Backends FieldFiatModel FeatureModel.
Import ListNotations.

(** A feature is on if some dependent names it or leaves the default on, or if a feature that is on implies it. *)
Inductive enabled (rs : list request) : feature -> Prop :=
| enabled_named : forall r f, In r rs -> In f (named r) -> enabled rs f
| enabled_default : forall r, In r rs -> default_features r = true -> enabled rs F_default
| enabled_implied : forall f g, enabled rs f -> In g (implies f) -> enabled rs g.

(** The backend a build uses, for given fiat-crypto functions. *)
Definition backend_of (P : fiat_prims) (rs : list request) : backend :=
  if on rs F_u32_backend then u32_backend else fiat_backend P.
