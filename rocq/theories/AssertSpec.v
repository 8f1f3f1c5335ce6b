(** The same code with [subtle]'s debug assertion (for C80).

    [Choice::from(u8)] is [debug_assert!((input == 0u8) | (input == 1u8)); Choice(black_box(input))]: in a debug build, making a
    [Choice] of any other byte panics.  The models return a boolean (the byte is 1) and do not check.  Here the code of
    StepU32.v, StepFiat.v, StepScalar.v, StepSubtle.v and StepCurve.v runs with the check, wherever it makes a [Choice] of a word:
    field/u32/prime_field.rs:125, field/fiat_u64/prime_field.rs:140, curve/scalar_mul/variable_base.rs:29,
    curve/edwards/extended.rs:61, and [ct_eq] on u32 (wnaf), on u8 and on slices of u8.  The other uses of
    [Choice::from] (double_and_add.rs:15, montgomery.rs:89, extended.rs:150-153) are of a [bool] or of the exclusive or of two,
    cast to u8; the model keeps the [bool]. *)
Require Import ZArith List Bool.
From Verif Require Import Base FieldBackend FieldU32Model FieldFiatModel FiatCode Backends ScalarModel ApiExpr Steps StepU32 StepFiat StepScalar StepCurve TraceSpec TraceSpec64.
Import ListNotations.
Open Scope Z_scope.

(** [Choice::from]. *)
Definition choice_from (x : Z) : res bool := if (x =? 0) || (x =? 1) then Ok (x =? 1) else Panic.
(** As [plain] of Steps.v otherwise. *)
Definition strict : cpu panics := mkCpu panics
  Z (fun z => z) chk_z
  (fun o x y => Ok (bin_z o x y))
  (fun o x => Ok (un_z o x))
  (fun o x => if negb (guard_z o x) then Panic else Ok tt)
  (fun o x => match o with TOne => choice_from x | _ => Ok (test_z o x) end)
  (fun x => Ok x)
  (fun c => Ok (Z.b2z c))
  (fun c => Ok c).

(** Programs on top of it, with 32-bit limbs and with 64-bit limbs. *)
Definition strict32 : backend := limbs panics strict.
Definition strict64 : backend := limbs64 panics strict.
Definition strict32_machine : machine panics strict32 := word_machine panics strict (fun _ _ l => l).
Definition strict64_machine : machine panics strict64 := word_machine64 panics strict (fun _ _ l => l).
Definition strict32_run {s} (e : api s) : res (option (val strict32 s)) := api_runS panics strict32 strict32_machine e.
Definition strict64_run {s} (e : api s) : res (option (val strict64 s)) := api_runS panics strict64 strict64_machine e.
(** Field elements are lists of limbs on both sides. *)
Definition strict32_value {s} : val strict32 s -> val u32_backend s := map_val (O := strict32) (B := u32_backend) (fun l => l) s.
Definition strict64_value {s} : val strict64 s -> val (fiat_backend fiat_code) s := map_val (O := strict64) (B := fiat_backend fiat_code) (fun l => l) s.
