(** Property C74: the masks and carries of [subtle] do what the models take them for.

    Reading guide (SubtleModel.v): [subtle] 2 as published, on numbers.  A [Choice] is a byte; [choice_from] is [Choice::from], which
    asserts in debug builds that the byte is 0 or 1 ([Panic] otherwise); [choice_bool] is [bool::from].  [word_select w], [word_swap w],
    [word_ct_eq w]: conditional_select, conditional_swap and ct_eq on words of w bits; [default_swap]: the trait's own method, over any
    conditional_select; [slice_ct_eq]: ct_eq on slices of bytes.  The models use booleans, [if] and equality instead. *)
Require Import ZArith List Bool.
From Verif Require Import Base FieldU32Model ScalarModel Steps StepSubtle SubtleModel SubtleMain.
Import ListNotations.
Open Scope Z_scope.

(** Bytes 0 and 1 behave as booleans, and no other byte becomes a [Choice]. *)
Theorem C74_choices :
  (forall z, (exists c, choice_from z = Ok c) <-> exists b : bool, z = Z.b2z b) /\
  (forall c : bool, choice_from (Z.b2z c) = Ok (Z.b2z c) /\ choice_bool (Z.b2z c) = Ok c) /\
  (forall a b : bool,
    choice_and (Z.b2z a) (Z.b2z b) = Ok (Z.b2z (a && b)) /\ choice_or (Z.b2z a) (Z.b2z b) = Ok (Z.b2z (a || b)) /\
    choice_xor (Z.b2z a) (Z.b2z b) = Ok (Z.b2z (xorb a b)) /\ choice_not (Z.b2z a) = Ok (Z.b2z (negb a))).
Proof. exact (conj choice_only (conj bit_choice choice_ops)). Qed.
Print Assumptions C74_choices.

Theorem C74_selection : forall w a b (c : bool), 0 <= w -> 0 <= a < 2 ^ w -> 0 <= b < 2 ^ w ->
  word_select w a b (Z.b2z c) = (if c then b else a) /\ word_assign w a b (Z.b2z c) = (if c then b else a) /\
  word_swap w a b (Z.b2z c) = (if c then (b, a) else (a, b)).
Proof. exact (fun w a b c Hw Ha Hb => conj (word_select_ok w a b c Hw Ha Hb) (conj (word_select_ok w a b c Hw Ha Hb) (word_swap_ok w a b c Hw Ha Hb))). Qed.
Print Assumptions C74_selection.
Example C74_selection_case : word_select 32 0xdeadbeef 0x12345678 1 = 0x12345678 /\ word_swap 8 200 7 1 = (7, 200) /\ word_select 32 5 6 2 = 7.
Proof. exact (conj eq_refl (conj eq_refl eq_refl)). Qed.

(** Points and field elements are swapped and assigned through their conditional_select. *)
Theorem C74_default_methods : forall T (f : T -> T -> Z -> T), (forall a b (c : bool), f a b (Z.b2z c) = if c then b else a) ->
  forall a b (c : bool), default_assign T f a b (Z.b2z c) = (if c then b else a) /\ default_swap T f a b (Z.b2z c) = if c then (b, a) else (a, b).
Proof. exact default_swap_ok. Qed.
Print Assumptions C74_default_methods.

Theorem C74_equality : forall w a b, 0 < w -> 0 <= a < 2 ^ w -> 0 <= b < 2 ^ w -> word_ct_eq w a b = Ok (Z.b2z (a =? b)).
Proof. exact word_ct_eq_ok. Qed.
Print Assumptions C74_equality.
Example C74_equality_case : word_ct_eq 8 128 0 = Ok 0 /\ word_ct_eq 32 0x80000000 0x80000000 = Ok 1 /\ word_ct_eq 32 0 1 = Ok 0.
Proof. exact (conj eq_refl (conj eq_refl eq_refl)). Qed.

Theorem C74_slices : forall a b, Forall (fun x => 0 <= x < 256) a -> Forall (fun x => 0 <= x < 256) b ->
  (slice_ct_eq a b = Ok 1 <-> a = b) /\ (slice_ct_eq a b = Ok 0 <-> a <> b).
Proof. exact slice_equal. Qed.
Print Assumptions C74_slices.
Example C74_slices_case : slice_ct_eq [1; 2; 3] [1; 2; 3] = Ok 1 /\ slice_ct_eq [1; 2; 3] [1; 0; 3] = Ok 0 /\ slice_ct_eq [1; 2] [1; 2; 3] = Ok 0.
Proof. exact (conj eq_refl (conj eq_refl eq_refl)). Qed.

(** Field elements of the 32-bit backend, limb by limb (u32/prime_field.rs:66-92). *)
Theorem C74_field_selection : forall a b c, array 32 16 a -> array 32 16 b ->
  conditional_select28 a b c = map (fun xy => word_select 32 (fst xy) (snd xy) (Z.b2z c)) (combine a b).
Proof. exact field_select_subtle. Qed.
Print Assumptions C74_field_selection.

(** Every byte the crate makes into a [Choice] is 0 or 1: the low bit of an encoding (is_negative), the top bit of a byte
    (edwards/extended.rs:61), the sign of every digit of every scalar (variable_base.rs:29). *)
Theorem C74_no_bad_choice :
  (forall x, choice_from (Z.land x 1) = Ok (Z.b2z (Z.odd x))) /\
  (forall x, 0 <= x < 256 -> choice_from (shr x 7) = Ok (Z.b2z (128 <=? x))) /\
  (forall s, is_scalar s -> exists d, to_radix_16 s = Ok d /\ Forall (fun x => choice_from (as_u8 (Z.land (shr x 7) 1)) = Ok (Z.b2z (x <? 0))) d).
Proof. exact (conj low_bit (conj top_bit digit_signs)). Qed.
Print Assumptions C74_no_bad_choice.

(** The steps of StepSubtle.v, on which C53 and C67 are built, compute the same. *)
Theorem C74_steps :
  (forall a b c, 0 <= a < 2 ^ 32 -> 0 <= b < 2 ^ 32 -> selectS panics plain c a b = Ok (word_select 32 a b (Z.b2z c))) /\
  (forall w a b, 0 < w -> 0 <= a < 2 ^ w -> 0 <= b < 2 ^ w -> ct_eqS panics plain w a b = bind (word_ct_eq w a b) choice_bool) /\
  (forall a b, Forall (fun x => 0 <= x < 256) a -> Forall (fun x => 0 <= x < 256) b -> ct_eq_sliceS panics plain a b = bind (slice_ct_eq a b) choice_bool).
Proof. exact steps_subtle. Qed.
Print Assumptions C74_steps.
