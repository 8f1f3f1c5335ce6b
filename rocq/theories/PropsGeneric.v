(** Property C100: every program over the public API is a program over integers.

    Reading guide.  ApiExpr.v: [api s]: a caller's program over the whole API, which may branch on the data it gets; [api_ok]: its bytes and scalars have the
    lengths their Rust types give; [api_run]: what the code does.  SpecGeneric.v: [integers e]: the same program with integers for the points: modulo 4 l for
    Edwards points, 2 l for the twisted curve, l for Decaf and Ristretto; [log_ed], [log_dc]: the integer behind a received string.
    [multiple n], [string_ed n] (SpecExponentEd.v): n times G + (1, 0) and its encoding; [tw_multiple n]: n times D + (0, -1); [string_of n] (SpecExponent.v): the
    Decaf encoding of n times D. *)
Require Import ZArith List Bool.
From Verif Require Import Base SpecParams SpecField SpecCurve SpecEncoding SpecDecaf FieldBackend Backends ScalarModel PointSpec ApiExpr SpecExponent SpecExponentEd SpecGeneric GenericMain.
Import ListNotations.
Open Scope Z_scope.

(** ** Programs *)
(** No program panics, and what one returns is what the integers give.  So nothing but encodings, the Montgomery coordinate and what received
    strings stand for tells these groups from integers. *)
Theorem C100_program : forall B, shipped B -> forall d (e : api (TData d)), api_ok e -> api_run B e = Ok (integers e).
Proof. exact program_run. Qed.
Print Assumptions C100_program.
(** The same where a program returns a point. *)
Theorem C100_edwards_point : forall B, shipped B -> forall e : api TEd, api_ok e ->
  match integers e with
  | Some n => exists P, api_run B e = Ok (Some P) /\ ed_valid B P /\ ed_affine B P = multiple n
  | None => api_run B e = Ok None
  end.
Proof. exact point_run_ed. Qed.
Print Assumptions C100_edwards_point.
Theorem C100_twisted_point : forall B, shipped B -> forall e : api TTw, api_ok e ->
  match integers e with
  | Some n => exists P, api_run B e = Ok (Some P) /\ tw_valid B P /\ tw_affine B P = tw_multiple n
  | None => api_run B e = Ok None
  end.
Proof. exact point_run_tw. Qed.
Print Assumptions C100_twisted_point.
Theorem C100_decaf_point : forall B, shipped B -> forall e : api TDc, api_ok e ->
  match integers e with
  | Some n => exists P, api_run B e = Ok (Some P) /\ tw_valid B P /\ decaf_encode (tw_affine B P) = string_of n
  | None => api_run B e = Ok None
  end.
Proof. exact point_run_dc. Qed.
Print Assumptions C100_decaf_point.

(** ** What the integers stand for *)
Theorem C100_log_edwards : forall b n, log_ed b = Some n <-> 0 <= n < 4 * ell /\ ed_decode b = Some (multiple n).
Proof. exact log_ed_iff. Qed.
Print Assumptions C100_log_edwards.
Theorem C100_log_decaf : forall b n, log_dc b = Some n <-> 0 <= n < ell /\ b = string_of n.
Proof. exact log_dc_iff. Qed.
Print Assumptions C100_log_decaf.
Theorem C100_twisted_order : forall m n, tw_multiple m = tw_multiple n <-> m mod (2 * ell) = n mod (2 * ell).
Proof. exact tw_multiple_inj. Qed.
Print Assumptions C100_twisted_order.
(** The multiples are the points that the crate's twisted points hold. *)
Theorem C100_twisted_all : forall P, (on_curve tw_a tw_d P /\ is_square (1 + fst P * fst P)%F) <-> exists n, P = tw_multiple n.
Proof. exact tw_multiple_all. Qed.
Print Assumptions C100_twisted_all.

(** Cases: programs that branch on what they are told, over Edwards points and over a received Decaf string. *)
Example C100_case : forall B, shipped B -> (api_ok branching /\ api_run B branching = Ok (Some true)) /\
  (forall n, api_ok (branching_received (string_of n)) /\
     api_run B (branching_received (string_of n)) = Ok (Some (string_of (if n mod ell =? 1 then 3 else - n)))) /\
  string_of 3 <> string_of (- (2)).
Proof. exact generic_cases. Qed.
Print Assumptions C100_case.
