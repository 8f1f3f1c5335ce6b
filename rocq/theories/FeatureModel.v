(** Cargo features and conditional compilation.

    What Cargo does with the features asked for, which items of the crate are then compiled, and when the names of the
    crate can be resolved.  Only the items that carry a [cfg] attribute and the names that hang on them are listed; the
    rest of the crate is one item that is always there and uses them. *)
Require Import List Bool String.
Import ListNotations.
Open Scope string_scope.

(** Cargo.toml:27-31, and the features that Cargo adds for the optional dependencies of lines 18-25. *)
Inductive feature := F_default | F_fiat_u64_backend | F_u32_backend | F_rand | F_fiat_crypto | F_rand_core | F_zeroize.
Scheme Equality for feature.

(** Cargo.toml:28-31: what each feature switches on in turn. *)
Definition implies (f : feature) : list feature :=
  match f with
  | F_default => [F_fiat_u64_backend]
  | F_fiat_u64_backend => [F_fiat_crypto]
  | F_u32_backend => []
  | F_rand => [F_rand_core]
  | F_fiat_crypto | F_rand_core | F_zeroize => []
  end.

(** One line of a dependent's Cargo.toml (or one cargo command): the features it names and whether it leaves
    [default-features] on. *)
Record request := { default_features : bool; named : list feature }.

(** Cargo compiles the crate once, with the union of what all the dependents ask for. *)
Definition asked (rs : list request) : list feature :=
  flat_map (fun r => if default_features r then F_default :: named r else named r) rs.

(** The longest chain of [implies] has two steps. *)
Definition once (l : list feature) : list feature := l ++ flat_map implies l.
Definition features (rs : list request) : list feature := once (once (asked rs)).
Definition on (rs : list request) (f : feature) : bool := existsb (feature_beq f) (features rs).

(** An item under [cfg(all(cfg))]: the name it defines, the names of the crate it uses, the external crates it uses. *)
Record item := { cfg : list feature; defines : string; uses : list string; crates : list feature }.

Definition backend_constants (home : string) (c : feature) : list item :=
  map (fun n => {| cfg := [c]; defines := "constants::" ++ n; uses := [home]; crates := [] |})
    ["DECAF_FACTOR"; "EDWARDS_D"; "NEG_EDWARDS_D"; "NEG_FOUR_TIMES_TWISTED_D"; "A_PLUS_TWO_OVER_FOUR";
     "TWISTED_D"; "TWO_TIMES_TWISTED_D"; "GOLDILOCKS_BASE_POINT"; "TWISTED_EDWARDS_BASE_POINT"].

Definition source : list item :=
  [ (* field/mod.rs:1-2; field/fiat_u64/prime_field.rs:1 and constants.rs:1 use the crate fiat_crypto *)
    {| cfg := [F_fiat_u64_backend]; defines := "field::fiat_u64"; uses := []; crates := [F_fiat_crypto] |};
    (* field/mod.rs:4-5 *)
    {| cfg := [F_u32_backend]; defines := "field::u32"; uses := []; crates := [] |};
    (* field/mod.rs:11-12 *)
    {| cfg := [F_u32_backend]; defines := "field::FieldElement"; uses := ["field::u32"]; crates := [] |};
    (* field/mod.rs:14-15 *)
    {| cfg := [F_fiat_u64_backend]; defines := "field::FieldElement"; uses := ["field::fiat_u64"]; crates := [] |};
    (* field/scalar.rs:3-4 *)
    {| cfg := [F_rand]; defines := "scalar::RngCore"; uses := []; crates := [F_rand_core] |};
    (* field/scalar.rs:337-342 *)
    {| cfg := [F_rand]; defines := "Scalar::random"; uses := ["scalar::RngCore"]; crates := [] |};
    (* curve/montgomery/montgomery.rs:20-21 *)
    {| cfg := [F_zeroize]; defines := "montgomery::Zeroize"; uses := []; crates := [F_zeroize] |};
    (* curve/montgomery/montgomery.rs:44-45 *)
    {| cfg := [F_zeroize]; defines := "MontgomeryPoint::zeroize"; uses := ["montgomery::Zeroize"]; crates := [] |} ]
  (* constants.rs:3-4 *)
  ++ backend_constants "field::u32" F_u32_backend
  (* constants.rs:6-7 *)
  ++ backend_constants "field::fiat_u64" F_fiat_u64_backend
  (* field/mod.rs:17 on, constants.rs:9, and every other file: no cfg *)
  ++ [ {| cfg := []; defines := "the rest";
          uses := "field::FieldElement" :: map (fun n => "constants::" ++ n)
            ["DECAF_FACTOR"; "EDWARDS_D"; "NEG_EDWARDS_D"; "NEG_FOUR_TIMES_TWISTED_D"; "A_PLUS_TWO_OVER_FOUR";
             "TWISTED_D"; "TWO_TIMES_TWISTED_D"; "GOLDILOCKS_BASE_POINT"; "TWISTED_EDWARDS_BASE_POINT"];
          crates := [] |} ].

(** The rest depends on the features only through which are on. *)
Section Compile.
Variable o : feature -> bool.

Definition active_in : list item := filter (fun i => forallb o (cfg i)) source.

(** How many items compiled define the name. *)
Definition definitions_in (n : string) : nat := List.length (filter (fun i => String.eqb n (defines i)) active_in).

(** rustc finds exactly one definition of every name used, and every external crate used is there. *)
Definition resolves_in : bool :=
  forallb (fun i => forallb (fun n => Nat.eqb (definitions_in n) 1) (uses i) && forallb o (crates i)) active_in.
End Compile.

Definition resolves (rs : list request) : bool := resolves_in (on rs).

(** Whether a caller finds the item. *)
Definition has (rs : list request) (n : string) : bool := Nat.eqb (definitions_in (on rs) n) 1.
