(** C85, continued: the integers of the strong reduction and of the serialisation of the 32-bit backend.  [short u i r] (WidthScalarSpec.v): the
    machine whose u64 is u bits wide and whose i64 is i bits wide; [room L a]: sixteen limbs of at most L. *)
Require Import ZArith List Bool Lia.
From Verif Require Import Base SpecParams FieldU32Model Steps StepU32 RoomSpec WidthScalarSpec WidthReduce.
Import ListNotations.
Open Scope Z_scope.

(** [strong_reduce] returns (or panics) as the code does exactly if both have 29 bits, whether for limbs of 28 bits or for any u32. *)
Theorem C85_strong_reduce : forall L u i r, 2 ^ 28 - 1 <= L < 2 ^ 32 -> u <= 64 /\ i <= 64 /\ r <= 8 ->
  ((forall a, room L a -> strong_reduce28S panics (short u i r) a = strong_reduce28 a) <-> 29 <= u /\ 29 <= i).
Proof. exact strong_exact. Qed.
Print Assumptions C85_strong_reduce.
Example C85_strong_reduce_case : room (2 ^ 28 - 1) zero28 /\ strong_reduce28S panics (short 28 64 8) zero28 = Panic /\ strong_reduce28S panics (short 64 28 8) zero28 = Panic /\
  strong_reduce28S panics (short 29 29 0) zero28 = Ok zero28.
Proof. split; [apply zero_room; discriminate|]. repeat split; vm_compute; reflexivity. Qed.

(** [to_bytes] puts two limbs together: 56 bits. *)
Theorem C85_to_bytes : forall L u i r, 2 ^ 28 - 1 <= L < 2 ^ 32 -> u <= 64 /\ i <= 64 /\ r <= 8 ->
  ((forall a, room L a -> to_bytes28S panics (short u i r) a = to_bytes28 a) <-> 56 <= u /\ 29 <= i).
Proof. exact bytes_exact. Qed.
Print Assumptions C85_to_bytes.
Example C85_to_bytes_case : room (2 ^ 28 - 1) high28 /\ to_bytes28S panics (short 55 64 8) high28 = Panic /\ exists c, to_bytes28S panics (short 56 29 0) high28 = Ok c /\ to_bytes28 high28 = Ok c.
Proof. split; [apply high_room; discriminate|]. split; [vm_compute; reflexivity|]. eexists. split; vm_compute; reflexivity. Qed.
