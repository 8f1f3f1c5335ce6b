(** C69: the crate's own unit tests, transcribed over the model, pass in every build. *)
Require Import ZArith List.
From Verif Require Import Base FieldFiatModel FieldBackend Backends DecafModel RepoTests RepoTestsMain.
Import ListNotations.
Open Scope Z_scope.
Open Scope res_scope.

(** ** C69 *)
(** The 21 tests on points, for the 32-bit code and for every implementation of fiat-crypto that meets its documentation. *)
Theorem C69_curve_tests_pass : forall B, shipped B -> Forall (fun t => t = Ok tt) (tests_curve B).
Proof. exact curve_pass. Qed.
Print Assumptions C69_curve_tests_pass.

(** The test of the 64-bit field. *)
Theorem C69_fiat_test_passes : forall P, fiat_contract P -> test_negate56 P = Ok tt.
Proof. exact negate_pass. Qed.
Print Assumptions C69_fiat_test_passes.

(** The 14 tests of scalars and the 4 of the 32-bit field take no parameter. *)
Example C69_scalar_tests_pass : Forall (fun t => t = Ok tt) tests_scalar.
Proof. exact scalar_pass. Qed.
Print Assumptions C69_scalar_tests_pass.
Example C69_u32_tests_pass : Forall (fun t => t = Ok tt) tests_u32.
Proof. exact u32_pass. Qed.
Print Assumptions C69_u32_tests_pass.

(** The transcribed tests can fail: any wrong first vector makes the last test panic. *)
Theorem C69_tests_can_fail : forall B, shipped B -> forall b, b <> repeat 0 56 ->
  vector_loop B [b] (dc_identity B) (dc_generator B) = Panic.
Proof. exact vector_fail. Qed.
Print Assumptions C69_tests_can_fail.
Example C69_case : repeat 1 56 <> repeat 0 56 /\ shipped u32_backend /\ length (tests_curve u32_backend) = 21%nat.
Proof. split; [intro X; discriminate X|]. split; [exact shipped_u32|reflexivity]. Qed.
