(** The same code without overflow checks (for C79).

    Rust's [+], [-] and [*] panic on overflow in a debug build; in a release build (Cargo.toml has no profile that says otherwise)
    they wrap.  Everything else is the same in both: casts, shifts, bit operations and the [wrapping_*] functions never
    fail; [assert!] and the bounds checks of arrays stay.  The models are debug builds.  Here the code of StepU32.v, StepFiat.v,
    StepScalar.v and StepCurve.v runs as a release build. *)
Require Import ZArith List Bool.
From Verif Require Import Base FieldBackend FieldU32Model FieldFiatModel FiatCode Backends ScalarModel ApiExpr Steps StepU32 StepFiat StepScalar StepCurve TraceSpec TraceSpec64.
Import ListNotations.
Open Scope Z_scope.

(** Integers of [w] bits. *)
Inductive int_type : Type := Unsigned (w : Z) | Signed (w : Z).
(** The integer of that type that is [z] modulo 2^w. *)
Definition wrapped (t : int_type) (z : Z) : Z :=
  match t with
  | Unsigned w => z mod 2 ^ w
  | Signed w => (z + 2 ^ (w - 1)) mod 2 ^ w - 2 ^ (w - 1)
  end.
Definition unchecked (o : chk_op) (x y : Z) : Z :=
  match o with
  | CU32Add => wrapped (Unsigned 32) (x + y) | CU32Sub => wrapped (Unsigned 32) (x - y) | CU32Mul => wrapped (Unsigned 32) (x * y)
  | CU64Add => wrapped (Unsigned 64) (x + y) | CU64Sub => wrapped (Unsigned 64) (x - y) | CU64Mul => wrapped (Unsigned 64) (x * y)
  | CU128Add => wrapped (Unsigned 128) (x + y) | CU128Mul => wrapped (Unsigned 128) (x * y)
  | CI8Add => wrapped (Signed 8) (x + y) | CI8Sub => wrapped (Signed 8) (x - y)
  | CI64Add => wrapped (Signed 64) (x + y) | CI64Sub => wrapped (Signed 64) (x - y)
  | CI128Add => wrapped (Signed 128) (x + y) | CI128Sub => wrapped (Signed 128) (x - y) | CI128Mul => wrapped (Signed 128) (x * y)
  end.
(** As [plain] of Steps.v otherwise. *)
Definition release : cpu panics := mkCpu panics
  Z (fun z => z)
  (fun o x y => Ok (unchecked o x y))
  (fun o x y => Ok (bin_z o x y))
  (fun o x => Ok (un_z o x))
  (fun o x => if negb (guard_z o x) then Panic else Ok tt)
  (fun o x => Ok (test_z o x))
  (fun x => Ok x)
  (fun c => Ok (Z.b2z c))
  (fun c => Ok c).

(** Programs on top of it, with 32-bit limbs and with 64-bit limbs. *)
Definition release32 : backend := limbs panics release.
Definition release64 : backend := limbs64 panics release.
Definition release32_machine : machine panics release32 := word_machine panics release (fun _ _ l => l).
Definition release64_machine : machine panics release64 := word_machine64 panics release (fun _ _ l => l).
Definition release32_run {s} (e : api s) : res (option (val release32 s)) := api_runS panics release32 release32_machine e.
Definition release64_run {s} (e : api s) : res (option (val release64 s)) := api_runS panics release64 release64_machine e.
(** Field elements are lists of limbs on both sides. *)
Definition release32_value {s} : val release32 s -> val u32_backend s := map_val (O := release32) (B := u32_backend) (fun l => l) s.
Definition release64_value {s} : val release64 s -> val (fiat_backend fiat_code) s := map_val (O := release64) (B := fiat_backend fiat_code) (fun l => l) s.

(** Where the debug build returns, so does the release build, and the same. *)
Definition kept {A} (debug rel : res A) : Prop := forall v, debug = Ok v -> rel = Ok v.
