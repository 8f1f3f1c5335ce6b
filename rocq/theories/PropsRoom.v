(** Property C87: what the functions of the 32-bit backend return on limbs out of range.

    Reading guide.  [room L a], [halves_fit a], [right r v], [square_room] (RoomSpec.v); [words16] (WidthSpec.v): sixteen u32 limbs;
    [val28 a]: the number with these limbs.  The limbs that occur are below 2^28 + 2^9; the bounds below say how much more the
    functions stand, and that they do not stand one more. *)
Require Import ZArith List Bool Lia.
From Verif Require Import Base SpecParams FieldU32Model FieldU32Proofs WidthSpec RoomSpec RoomMain.
Import ListNotations.
Open Scope Z_scope.

(** weak_reduce: for all u32 limbs, either it panics, exactly if limb 8 overflows, or it subtracts the top bits of limb 15 times p. *)
Theorem C87_weak_reduce : forall a, words16 a ->
  if nth 8 a 0 + nth 15 a 0 / 2 ^ 28 <? 2 ^ 32
  then exists r, weak_reduce28 a = Ok r /\ room (2 ^ 28 + 15) r /\ val28 r + (nth 15 a 0 / 2 ^ 28) * p = val28 a
  else weak_reduce28 a = Panic.
Proof. exact weak_all. Qed.
Print Assumptions C87_weak_reduce.

(** to_bytes: for all u32 limbs it panics in the same case only; otherwise it returns the canonical encoding, whatever the limbs. *)
Theorem C87_to_bytes : forall a, words16 a ->
  to_bytes28 a = if nth 8 a 0 + nth 15 a 0 / 2 ^ 28 <? 2 ^ 32 then Ok (le_bytes 56 (val28 a mod p)) else Panic.
Proof. exact bytes_exact. Qed.
Print Assumptions C87_to_bytes.
Example C87_to_bytes_case : words16 (repeat (2 ^ 32 - 16) 16) /\ to_bytes28 (repeat (2 ^ 32 - 16) 16) <> Panic /\ to_bytes28 (repeat (2 ^ 32 - 15) 16) = Panic.
Proof. split; [split; [reflexivity|]; repeat constructor; discriminate|]. split; [vm_compute; discriminate|vm_compute; reflexivity]. Qed.

(** Addition is right for all operands with limbs up to L exactly if L <= 2^31 - 8. *)
Theorem C87_add : forall L, 0 <= L < 2 ^ 32 ->
  ((forall a b, room L a -> room L b -> right (add28 a b) (val28 a + val28 b)) <-> L <= 2 ^ 31 - 8).
Proof. exact add_room. Qed.
Print Assumptions C87_add.

(** Subtraction, exactly if the limbs of the minuend are up to 2^32 - 2^29 - 12, those of the subtrahend up to 2^29 - 4. *)
Theorem C87_sub : forall L L', 0 <= L < 2 ^ 32 -> 0 <= L' < 2 ^ 32 ->
  ((forall a b, room L a -> room L' b -> right (sub28 a b) (val28 a - val28 b)) <-> L <= 2 ^ 32 - 2 ^ 29 - 12 /\ L' <= 2 ^ 29 - 4).
Proof. exact sub_room. Qed.
Print Assumptions C87_sub.

(** Multiplication, exactly up to 2^31 - 1: seven unreduced terms could be added before it. *)
Theorem C87_mul : forall L, 0 <= L < 2 ^ 32 ->
  ((forall a b, room L a -> room L b -> right (mul28 a b) (val28 a * val28 b)) <-> L <= 2 ^ 31 - 1).
Proof. exact mul_bound. Qed.
Print Assumptions C87_mul.

(** More precisely: an operand is multiplied rightly by all others exactly if the sums of its halves fit into u32. *)
Theorem C87_mul_operand : forall a, words16 a -> ((forall b, halves_fit b -> right (mul28 a b) (val28 a * val28 b)) <-> halves_fit a).
Proof. exact mul_exact. Qed.
Print Assumptions C87_mul_operand.
Example C87_mul_operand_case : halves_fit (repeat (2 ^ 32 - 1) 8 ++ repeat 0 8) /\ ~ halves_fit (repeat (2 ^ 32 - 1) 8 ++ repeat 1 8).
Proof. exact halves_case. Qed.

(** Squaring, exactly if 38 L^2 < 2^64: two unreduced terms could be added before it, not three. *)
Theorem C87_square : forall L, 0 <= L < 2 ^ 32 -> ((forall a, room L a -> right (square28 a) (val28 a * val28 a)) <-> L <= square_room).
Proof. exact square_bound. Qed.
Print Assumptions C87_square.
Example C87_square_case : 38 * square_room ^ 2 < 2 ^ 64 <= 38 * (square_room + 1) ^ 2 /\ 2 * limb_bound < square_room < 3 * 2 ^ 28.
Proof. vm_compute. repeat split; discriminate. Qed.

(** So "square a = mul a a" is false outside the range: the same limbs, one function right and the other wrong. *)
Theorem C87_square_is_mul_refuted : exists a c, room (2 ^ 31 - 1) a /\ right (mul28 a a) (val28 a * val28 a) /\ square28 a = Ok c /\ val28 c mod p <> (val28 a * val28 a) mod p.
Proof. exact square_not_mul. Qed.
Print Assumptions C87_square_is_mul_refuted.
