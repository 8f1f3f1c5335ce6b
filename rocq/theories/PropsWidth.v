(** C85: how wide the integers of the 32-bit multiplication have to be. *)
Require Import ZArith List Bool Lia.
From Verif Require Import Base SpecParams FieldU32Model Steps StepU32 WidthSpec WidthMain.
Import ListNotations.
Open Scope Z_scope.

(** The multiplication with w-bit integers in place of i128 returns what the code returns, on all operands that occur, exactly
    if w is at least 63.  So i64 would do, with a bit to spare. *)
Theorem C85_bits : forall w, w <= 128 ->
  ((forall a b, wf28 a -> wf28 b -> exists c, mul28S panics (narrow w) a b = Ok c /\ mul28 a b = Ok c) <-> 63 <= w).
Proof. exact bits_reduced. Qed.
Print Assumptions C85_bits.
Example C85_bits_case : wf28 full28 /\ mul28S panics (narrow 62) full28 full28 = Panic /\ exists c, mul28S panics (narrow 64) full28 full28 = Ok c.
Proof.
  split; [split; [reflexivity|]; repeat constructor; discriminate|]. split; [apply full28_fails; discriminate|]. eexists. vm_compute. reflexivity.
Qed.

(** With limbs that are any u32 whatsoever it takes 70 bits; in particular i128 never overflows and [mul] never panics. *)
Theorem C85_bits_any : forall w, w <= 128 ->
  ((forall a b, words16 a -> words16 b -> exists c, mul28S panics (narrow w) a b = Ok c /\ mul28 a b = Ok c) <-> 70 <= w).
Proof. exact bits_any. Qed.
Print Assumptions C85_bits_any.
Example C85_bits_any_case : words16 full32 /\ mul28S panics (narrow 64) full32 full32 = Panic.
Proof. split; [split; [reflexivity|]; repeat constructor; discriminate|]. apply full32_fails. discriminate. Qed.

(** But then the result need not be the product: the sums of two limbs wrap in u32. *)
Theorem C85_any_refuted : exists a b c, words16 a /\ words16 b /\ mul28 a b = Ok c /\ val28 c mod p <> (val28 a * val28 b) mod p.
Proof. exact any_wrong. Qed.
Print Assumptions C85_any_refuted.
