(** Programs over the whole public API.  A program is a tree of calls; what a call returns as plain data (bytes, booleans,
    scalars) may be examined by arbitrary further code ([ABind]), so branching on results and feeding outputs back as
    inputs are covered.  The curve and field types are opaque to callers (their fields are private to the crate): they can
    only be passed to other calls.

    src/lib.rs:11-17 exports curve::{edwards, montgomery}, decaf, ristretto and Scalar.  The twisted types live in a
    crate-private module but the public method [to_twisted] (edwards/extended.rs:268) hands one out, and its public
    methods lead to the extensible and cached forms; they are included.

    Not in the language: the three [todo!()] functions (MontgomeryPoint::to_edwards, RistrettoPoint::encode,
    CompressedRistretto::decode), [Debug] output (it prints limbs), and ExtensiblePoint::add_affine_niels (no caller
    outside the crate can construct its argument).  [AddAssign] and the other assigning operators are the operators they
    call; [ConditionallySelectable] gives conditional_assign and conditional_swap from conditional_select. *)
Require Import ZArith List Bool.
From Verif Require Import Base FieldBackend ScalarModel TwistedModel EdwardsModel EdwardsExpr MontgomeryModel DecafModel.
Import ListNotations.
Open Scope Z_scope.
Open Scope res_scope.

(** Plain data.  [DAny A]: any type of results a caller may assemble. *)
Inductive dty : Type := DBytes (n : nat) | DBool | DScalar | DAny (A : Type).
Definition dval (d : dty) : Type :=
  match d with DBytes _ => list Z | DBool => bool | DScalar => scalar | DAny A => A end.
(** Values of the Rust types [[u8; n]] and [[u32; 14]]. *)
Definition dok (d : dty) : dval d -> Prop :=
  match d with DBytes n => fun b => bytes n b | DBool => fun _ => True | DScalar => is_scalar | DAny _ => fun _ => True end.

Inductive sort : Type :=
| TData (d : dty)
| TEd                    (** edwards::ExtendedPoint *)
| TEdAffine              (** edwards::affine::AffinePoint *)
| TEdList                (** the items of an iterator given to [Sum] *)
| TTw                    (** twedwards::extended::ExtendedPoint *)
| TXt                    (** ExtensiblePoint *)
| TPn                    (** ProjectiveNielsPoint *)
| TPm                    (** ProjectiveMontgomeryPoint *)
| TDc                    (** DecafPoint *)
| TRs.                   (** RistrettoPoint *)

(** MontgomeryPoint, CompressedEdwardsY, CompressedDecaf and CompressedRistretto are their bytes. *)
Inductive api : sort -> Type :=
(* the caller's own code *)
| ARet (d : dty) (v : dval d) : api (TData d)
| ABind (d : dty) (s : sort) (x : api (TData d)) (k : dval d -> api s) : api s
| AIsSome (s : sort) (x : api s) : api (TData DBool)
(* Scalar *)
| AScAdd (a b : scalar) : api (TData DScalar)
| AScSub (a b : scalar) : api (TData DScalar)
| AScMul (a b : scalar) : api (TData DScalar)
| AScInvert (a : scalar) : api (TData DScalar)
| AScHalve (a : scalar) : api (TData DScalar)
| AScCanonical (b : list Z) : api (TData DScalar)
| AScWide (b : list Z) : api (TData DScalar)
(* edwards::ExtendedPoint *)
| AEdIdentity : api TEd
| AEdGenerator : api TEd
| AEdDecompress (b : list Z) : api TEd
| AEdAdd (x y : api TEd) : api TEd
| AEdSub (x y : api TEd) : api TEd
| AEdNeg (x : api TEd) : api TEd
| AEdDouble (x : api TEd) : api TEd
| AEdTorque (x : api TEd) : api TEd
| AEdMul (x : api TEd) (s : scalar) : api TEd
| AEdModFour (x : api TEd) (s : scalar) : api TEd
| AEdSelect (x y : api TEd) (c : bool) : api TEd
| ANil : api TEdList
| ACons (x : api TEd) (l : api TEdList) : api TEdList
| AEdSum (l : api TEdList) : api TEd
| AEdUntwist (x : api TTw) : api TEd
| AEdOfAffine (x : api TEdAffine) : api TEd
| AEdAffineIdentity : api TEdAffine
| AEdToAffine (x : api TEd) : api TEdAffine
| AEdCompress (x : api TEd) : api (TData (DBytes 57))
| AEdEq (x y : api TEd) : api (TData DBool)
| AEdTorsionFree (x : api TEd) : api (TData DBool)
| AEdToMontgomery (x : api TEd) : api (TData (DBytes 56))
(* twisted points *)
| ATwIdentity : api TTw
| ATwGenerator : api TTw
| ATwist (x : api TEd) : api TTw
| ATwNeg (x : api TTw) : api TTw
| ATwTorque (x : api TTw) : api TTw
| ATwSelect (x y : api TTw) (c : bool) : api TTw
| ATwOfXt (x : api TXt) : api TTw
| ATwOfPn (x : api TPn) : api TTw
| ATwEq (x y : api TTw) : api (TData DBool)
| AXtIdentity : api TXt
| AXtOfTw (x : api TTw) : api TXt
| AXtDouble (x : api TXt) : api TXt
| AXtAddXt (x y : api TXt) : api TXt
| AXtAddTw (x : api TXt) (y : api TTw) : api TXt
| AXtSubTw (x : api TXt) (y : api TTw) : api TXt
| AXtAddPn (x : api TXt) (y : api TPn) : api TXt
| AXtEq (x y : api TXt) : api (TData DBool)
| APnIdentity : api TPn
| APnOfXt (x : api TXt) : api TPn
| APnSelect (x y : api TPn) (c : bool) : api TPn
| APnNegate (x : api TPn) (c : bool) : api TPn
| APnEq (x y : api TPn) : api (TData DBool)
(* Montgomery points *)
| AMpMul (b : list Z) (s : scalar) : api (TData (DBytes 56))
| APmOf (b : list Z) : api TPm
| APmIdentity : api TPm
| APmSelect (x y : api TPm) (c : bool) : api TPm
| APmToAffine (x : api TPm) : api (TData (DBytes 56))
(* Decaf and Ristretto *)
| ADcIdentity : api TDc
| ADcGenerator : api TDc
| ADcDecompress (b : list Z) : api TDc
| ADcAdd (x y : api TDc) : api TDc
| ADcSub (x y : api TDc) : api TDc
| ADcNeg (x : api TDc) : api TDc
| ADcMul (x : api TDc) (s : scalar) : api TDc
| ADcCompress (x : api TDc) : api (TData (DBytes 56))
| ADcEq (x y : api TDc) : api (TData DBool)
| ARsIdentity : api TRs
| ARsEq (x y : api TRs) : api (TData DBool).

(** The only condition: literal inputs are values of their Rust types, whatever results the program has seen. *)
Fixpoint api_ok {s} (e : api s) : Prop :=
  match e with
  | ARet d v => dok d v
  | ABind d s x k => api_ok x /\ forall v, dok d v -> api_ok (k v)
  | AIsSome s x => api_ok x
  | AScAdd a b | AScSub a b | AScMul a b => is_scalar a /\ is_scalar b
  | AScInvert a | AScHalve a => is_scalar a
  | AScCanonical b => bytes 57 b
  | AScWide b => bytes 114 b
  | AEdDecompress b => bytes 57 b
  | AEdMul x t | AEdModFour x t => api_ok x /\ is_scalar t
  | AEdAdd x y | AEdSub x y | AEdSelect x y _ | AEdEq x y => api_ok x /\ api_ok y
  | AEdNeg x | AEdDouble x | AEdTorque x | AEdToAffine x | AEdCompress x | AEdTorsionFree x | AEdToMontgomery x => api_ok x
  | ACons x l => api_ok x /\ api_ok l
  | AEdSum l => api_ok l
  | AEdUntwist x => api_ok x
  | AEdOfAffine x => api_ok x
  | ATwist x => api_ok x
  | ATwNeg x | ATwTorque x => api_ok x
  | ATwSelect x y _ | ATwEq x y => api_ok x /\ api_ok y
  | ATwOfXt x => api_ok x
  | ATwOfPn x => api_ok x
  | AXtOfTw x => api_ok x
  | AXtDouble x => api_ok x
  | AXtAddXt x y | AXtEq x y => api_ok x /\ api_ok y
  | AXtAddTw x y | AXtSubTw x y => api_ok x /\ api_ok y
  | AXtAddPn x y => api_ok x /\ api_ok y
  | APnOfXt x => api_ok x
  | APnSelect x y _ | APnEq x y => api_ok x /\ api_ok y
  | APnNegate x _ => api_ok x
  | AMpMul b t => bytes 56 b /\ is_scalar t
  | APmOf b => bytes 56 b
  | APmSelect x y _ => api_ok x /\ api_ok y
  | APmToAffine x => api_ok x
  | ADcDecompress b => bytes 56 b
  | ADcAdd x y | ADcSub x y | ADcEq x y => api_ok x /\ api_ok y
  | ADcNeg x | ADcCompress x => api_ok x
  | ADcMul x t => api_ok x /\ is_scalar t
  | ARsEq x y => api_ok x /\ api_ok y
  | _ => True
  end.

Section Run.
Variable B : backend.
Definition val (s : sort) : Type :=
  match s with
  | TData d => dval d | TEd => EdPoint B | TEdAffine => EdAffine B | TEdList => list (EdPoint B) | TTw => TwPoint B
  | TXt => XtPoint B | TPn => PNiels B | TPm => PMPoint B | TDc => TwPoint B | TRs => TwPoint B
  end.
(** [Ok None]: some decompression (or canonical decoding of a scalar) failed and the program did not ask with [AIsSome];
    [Panic] propagates. *)
Fixpoint api_run {s} (e : api s) : res (option (val s)) :=
  match e in api s return res (option (val s)) with
  | ARet d v => Ok (Some v)
  | ABind d s x k => obind (api_run x) (fun v => api_run (k v))
  | AIsSome s x => r <- api_run x ;; Ok (Some (match r with Some _ => true | None => false end))
  | AScAdd a b => osome (scalar_add a b)
  | AScSub a b => osome (scalar_sub a b)
  | AScMul a b => osome (scalar_mul a b)
  | AScInvert a => osome (scalar_invert a)
  | AScHalve a => osome (scalar_halve a)
  | AScCanonical b => scalar_from_canonical_bytes b
  | AScWide b => osome (scalar_from_bytes_mod_order_wide b)
  | AEdIdentity => Ok (Some (ed_identity B))
  | AEdGenerator => Ok (Some (ed_generator B))
  | AEdDecompress b => ed_decompress B b
  | AEdAdd x y => obind (api_run x) (fun P => obind (api_run y) (fun Q => osome (ed_add B P Q)))
  | AEdSub x y => obind (api_run x) (fun P => obind (api_run y) (fun Q => osome (ed_sub B P Q)))
  | AEdNeg x => obind (api_run x) (fun P => osome (ed_negate B P))
  | AEdDouble x => obind (api_run x) (fun P => osome (ed_double B P))
  | AEdTorque x => obind (api_run x) (fun P => osome (ed_torque B P))
  | AEdMul x t => obind (api_run x) (fun P => osome (ed_scalar_mul B P t))
  | AEdModFour x t => obind (api_run x) (fun P => osome (ed_scalar_mod_four B P t))
  | AEdSelect x y c => obind (api_run x) (fun P => obind (api_run y) (fun Q => osome (ed_select B P Q c)))
  | ANil => Ok (Some [])
  | ACons x l => obind (api_run x) (fun P => obind (api_run l) (fun ps => Ok (Some (P :: ps))))
  | AEdSum l => obind (api_run l) (fun ps => osome (ed_sum B ps))
  | AEdUntwist x => obind (api_run x) (fun P => osome (tw_to_untwisted B P))
  | AEdOfAffine x => obind (api_run x) (fun P => osome (eda_to_extended B P))
  | AEdAffineIdentity => Ok (Some (eda_identity B))
  | AEdToAffine x => obind (api_run x) (fun P => osome (ed_to_affine B P))
  | AEdCompress x => obind (api_run x) (fun P => osome (ed_compress B P))
  | AEdEq x y => obind (api_run x) (fun P => obind (api_run y) (fun Q => osome (ed_ct_eq B P Q)))
  | AEdTorsionFree x => obind (api_run x) (fun P => osome (ed_is_torsion_free B P))
  | AEdToMontgomery x => obind (api_run x) (fun P => osome (ed_to_montgomery B P))
  | ATwIdentity => Ok (Some (tw_identity B))
  | ATwGenerator => Ok (Some (tw_generator B))
  | ATwist x => obind (api_run x) (fun P => osome (ed_to_twisted B P))
  | ATwNeg x => obind (api_run x) (fun P => osome (tw_negate B P))
  | ATwTorque x => obind (api_run x) (fun P => osome (tw_torque B P))
  | ATwSelect x y c => obind (api_run x) (fun P => obind (api_run y) (fun Q => osome (tw_select B P Q c)))
  | ATwOfXt x => obind (api_run x) (fun P => osome (xt_to_extended B P))
  | ATwOfPn x => obind (api_run x) (fun P => osome (pn_to_extended B P))
  | ATwEq x y => obind (api_run x) (fun P => obind (api_run y) (fun Q => osome (tw_ct_eq B P Q)))
  | AXtIdentity => Ok (Some (xt_identity B))
  | AXtOfTw x => obind (api_run x) (fun P => Ok (Some (tw_to_extensible B P)))
  | AXtDouble x => obind (api_run x) (fun P => osome (xt_double B P))
  | AXtAddXt x y => obind (api_run x) (fun P => obind (api_run y) (fun Q => osome (xt_add_extensible B P Q)))
  | AXtAddTw x y => obind (api_run x) (fun P => obind (api_run y) (fun Q => osome (xt_add_extended B P Q)))
  | AXtSubTw x y => obind (api_run x) (fun P => obind (api_run y) (fun Q => osome (xt_sub_extended B P Q)))
  | AXtAddPn x y => obind (api_run x) (fun P => obind (api_run y) (fun Q => osome (xt_add_projective_niels B P Q)))
  | AXtEq x y => obind (api_run x) (fun P => obind (api_run y) (fun Q => osome (xt_ct_eq B P Q)))
  | APnIdentity => osome (pn_identity B)
  | APnOfXt x => obind (api_run x) (fun P => osome (xt_to_projective_niels B P))
  | APnSelect x y c => obind (api_run x) (fun P => obind (api_run y) (fun Q => osome (pn_select B P Q c)))
  | APnNegate x c => obind (api_run x) (fun P => osome (pn_cond_negate B P c))
  | APnEq x y => obind (api_run x) (fun P => obind (api_run y) (fun Q => osome (pn_eq B P Q)))
  | AMpMul b t => osome (mp_mul B b t)
  | APmOf b => osome (mp_to_projective B b)
  | APmIdentity => Ok (Some (pm_identity B))
  | APmSelect x y c => obind (api_run x) (fun P => obind (api_run y) (fun Q => osome (pm_select B P Q c)))
  | APmToAffine x => obind (api_run x) (fun P => osome (pm_to_affine B P))
  | ADcIdentity => Ok (Some (dc_identity B))
  | ADcGenerator => Ok (Some (dc_generator B))
  | ADcDecompress b => dc_decompress B b
  | ADcAdd x y => obind (api_run x) (fun P => obind (api_run y) (fun Q => osome (dc_add B P Q)))
  | ADcSub x y => obind (api_run x) (fun P => obind (api_run y) (fun Q => osome (dc_sub B P Q)))
  | ADcNeg x => obind (api_run x) (fun P => osome (dc_neg B P))
  | ADcMul x t => obind (api_run x) (fun P => osome (dc_mul B P t))
  | ADcCompress x => obind (api_run x) (fun P => osome (dc_compress B P))
  | ADcEq x y => obind (api_run x) (fun P => obind (api_run y) (fun Q => osome (dc_equals B P Q)))
  | ARsIdentity => Ok (Some (rs_identity B))
  | ARsEq x y => obind (api_run x) (fun P => obind (api_run y) (fun Q => osome (rs_equals B P Q)))
  end.
End Run.
