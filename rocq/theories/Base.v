(** Machine integers, the panic monad and positional notation.
    Shared by every model file.  No proofs here. *)
Require Import ZArith List Bool.
Import ListNotations.
Open Scope Z_scope.

(** ** Results: a Rust computation either returns or panics. *)
Inductive res (A : Type) : Type :=
| Ok (a : A)
| Panic.
Arguments Ok {A} a.
Arguments Panic {A}.

Definition bind {A B} (x : res A) (f : A -> res B) : res B :=
  match x with Ok a => f a | Panic => Panic end.

Declare Scope res_scope.
Delimit Scope res_scope with res.
Notation "x <- e ;; f" := (bind e (fun x => f))
  (at level 61, e at next level, right associativity) : res_scope.
Notation "' p <- e ;; f" := (bind e (fun x => let p := x in f))
  (at level 61, p pattern, e at next level, right associativity) : res_scope.
Open Scope res_scope.

(** ** Fixed-width integers, as [Z] with explicit ranges.

    Rust's [+], [-], [*] panic on overflow when overflow checks are on (debug builds) and wrap
    when they are off.  The model takes the checked reading; a theorem that the result is [Ok]
    therefore covers both build modes. *)
Definition chk_u (w x : Z) : res Z := if (0 <=? x) && (x <? 2 ^ w) then Ok x else Panic.
Definition chk_i (w x : Z) : res Z := if (- 2 ^ (w - 1) <=? x) && (x <? 2 ^ (w - 1)) then Ok x else Panic.

Definition u32_add x y := chk_u 32 (x + y).
Definition u32_sub x y := chk_u 32 (x - y).
Definition u32_mul x y := chk_u 32 (x * y).
Definition u64_add x y := chk_u 64 (x + y).
Definition u64_sub x y := chk_u 64 (x - y).
Definition u64_mul x y := chk_u 64 (x * y).
Definition i64_add x y := chk_i 64 (x + y).
Definition i64_sub x y := chk_i 64 (x - y).
Definition i8_add x y := chk_i 8 (x + y).
Definition i8_sub x y := chk_i 8 (x - y).
Definition i128_add x y := chk_i 128 (x + y).
Definition i128_sub x y := chk_i 128 (x - y).
Definition i128_mul x y := chk_i 128 (x * y).

(** [as uN] casts and [wrapping_*] operations reduce modulo 2^N. *)
Definition wrap (w x : Z) : Z := x mod 2 ^ w.
Definition as_u8 x := wrap 8 x.
Definition as_u32 x := wrap 32 x.
Definition as_u64 x := wrap 64 x.

(** [<<] on an N-bit unsigned integer drops the high bits (the shift amounts in the crate are constants below N, so the
    shift itself never panics); [>>] is arithmetic for signed and logical for unsigned types, both [Z.shiftr]. *)
Definition shl_u (w x n : Z) : Z := wrap w (Z.shiftl x n).
Definition shr (x n : Z) : Z := Z.shiftr x n.

(** ** Positional notation: [eval w [x0; x1; ...] = x0 + 2^w x1 + 2^(2w) x2 + ...]. *)
Fixpoint eval (w : Z) (l : list Z) : Z :=
  match l with
  | [] => 0
  | x :: l' => x + 2 ^ w * eval w l'
  end.

(** Little-endian digits of [v] in base 2^w, [n] of them. *)
Fixpoint digits (w : Z) (n : nat) (v : Z) : list Z :=
  match n with
  | O => []
  | S n' => v mod 2 ^ w :: digits w n' (v / 2 ^ w)
  end.

(** A Rust array [[uW; n]]: exactly [n] entries, each in range. *)
Definition array (w : Z) (n : nat) (l : list Z) : Prop :=
  length l = n /\ Forall (fun x => 0 <= x < 2 ^ w) l.

(** Byte strings of fixed length. *)
Definition bytes (n : nat) (b : list Z) : Prop := array 8 n b.
Definition le_val (b : list Z) : Z := eval 8 b.
Definition le_bytes (n : nat) (v : Z) : list Z := digits 8 n v.

Fixpoint list_eqb (a b : list Z) : bool :=
  match a, b with
  | [], [] => true
  | x :: a', y :: b' => (x =? y) && list_eqb a' b'
  | _, _ => false
  end.
