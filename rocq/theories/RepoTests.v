(** The crate's own unit tests (the [#[test]] functions), transcribed over the model one by one.

    A test passes when it returns.  [assert!] and [assert_eq!] panic on failure, as does [unwrap] on [None].  Equality is
    the [==] of the type at hand.  [hex] is the helper [hex_to_field] of the tests: the byte string of a big-endian
    hexadecimal number, reversed.  A hexadecimal string that a test reverses is written as a number here.  The vectors were
    extracted from the text of the tests by a script. *)
Require Import ZArith List Bool.
From Verif Require Import Base FieldU32Model FieldFiatModel FieldBackend FieldModel Backends ScalarModel ScalarIndex TwistedModel
  ScalarMulModel EdwardsModel MontgomeryModel DecafModel.
Import ListNotations.
Open Scope Z_scope.
Open Scope res_scope.

Definition assert (t : res bool) : res unit := b <- t ;; if b then Ok tt else Panic.
Definition assert_not (t : res bool) : res unit := b <- t ;; if b then Panic else Ok tt.
Definition unwrap {A} (t : res (option A)) : res A := o <- t ;; match o with Some a => Ok a | None => Panic end.
(** [for x in l { body }] *)
Fixpoint for_all {A} (l : list A) (body : A -> res unit) : res unit :=
  match l with [] => Ok tt | x :: l' => _ <- body x ;; for_all l' body end.

(** ** Vectors *)
(** scalar.rs:465-478. *)
Definition mul_a : scalar :=
  [0xffb823a3; 0xc96a3c35; 0x7f8ed27d; 0x087b8fb9; 0x1d9ac30a; 0x74d65764; 0xc0be082e; 0xa8cb0ae8; 0xa8fa552b;
  0x2aae8688; 0x2c3dc273; 0x47cf8cac; 0x3b089f07; 0x1e63e807].

(** scalar.rs:465-478. *)
Definition mul_b : scalar :=
  [0xd8bedc42; 0x686eb329; 0xe416b899; 0x17aa6d9b; 0x1e30b38b; 0x188c6b1a; 0xd099595b; 0xbc343bcb; 0x1adaa0e7;
  0x24e8d499; 0x8e59b308; 0x0a92de2d; 0xcae1cb68; 0x16c5450a].

(** scalar.rs:465-478. *)
Definition mul_exp : scalar :=
  [0xa18d010a; 0x1f5b3197; 0x994c9c2b; 0x6abd26f5; 0x08a3a0e4; 0x36a14920; 0x74e9335f; 0x07bcd931; 0xf2d89c1e;
  0xb9036ff6; 0x203d424b; 0xfccd61b3; 0x4ca389ed; 0x31e055c1].

(** scalar.rs:484-491. *)
Definition square_a : scalar :=
  [0xcf5fac3d; 0x7e56a34b; 0xf640922b; 0x3fa50692; 0x1370f8b8; 0x6f08f331; 0x8dccc486; 0x4bb395e0; 0xf22c6951;
  0x21cc3078; 0xd2391f9d; 0x930392e5; 0x04b3273b; 0x31620816].

(** scalar.rs:484-491. *)
Definition square_exp : scalar :=
  [0x15598f62; 0xb9b1ed71; 0x52fcd042; 0x862a9f10; 0x1e8a309f; 0x9988f8e0; 0xa22347d7; 0xe9ab2c22; 0x38363f74;
  0xfd7c58aa; 0xc49a1433; 0xd9a6c4c3; 0x75d3395e; 0x0d79f6e3].

(** scalar.rs:537-540. *)
Definition serialise_s : scalar :=
  [0x15598f62; 0xb9b1ed71; 0x52fcd042; 0x862a9f10; 0x1e8a309f; 0x9988f8e0; 0xa22347d7; 0xe9ab2c22; 0x38363f74;
  0xfd7c58aa; 0xc49a1433; 0xd9a6c4c3; 0x75d3395e; 0x0d79f6e3].

(** scalar.rs:546-548. *)
Definition debug_k : scalar :=
  [200; 210; 250; 145; 130; 180; 147; 122; 222; 230; 214; 247; 203; 32].

(** variable_base.rs:47-50. *)
Definition window_s : scalar :=
  [0x6ee372b7; 0xe128ae78; 0x1533427c; 0xad0b7015; 0x307f665e; 0xde8026c1; 0xb64629d1; 0xab454c66; 0x3fe5bf1a;
  0x083f8304; 0x3c003777; 0xdef437f6; 0xee2e1b73; 0x05ca185a].

(** karatsuba.rs:408-428. *)
Definition field_x : list Z :=
  [0xf5; 0x81; 0x74; 0xd5; 0x7a; 0x33; 0x72; 0x36; 0x3c; 0x0d; 0x9f; 0xcf; 0xaa; 0x3d; 0xc1; 0x8b; 0x1e; 0xff; 0x7e;
  0x89; 0xbf; 0x76; 0x78; 0x63; 0x65; 0x80; 0xd1; 0x7d; 0xd8; 0x4a; 0x87; 0x3b; 0x14; 0xb9; 0xc0; 0xe1; 0x68; 0x0b;
  0xbd; 0xc8; 0x76; 0x47; 0xf3; 0xc3; 0x82; 0x90; 0x2d; 0x2f; 0x58; 0xd2; 0x75; 0x4b; 0x39; 0xbc; 0xa8; 0x74].

(** karatsuba.rs:408-428. *)
Definition field_y : list Z :=
  [0x74; 0xa8; 0xbc; 0x39; 0x4b; 0x75; 0xd2; 0x58; 0x2f; 0x2d; 0x90; 0x82; 0xc3; 0xf3; 0x47; 0x76; 0xc8; 0xbd; 0x0b;
  0x68; 0xe1; 0xc0; 0xb9; 0x14; 0x3b; 0x87; 0x4a; 0xd8; 0x7d; 0xd1; 0x80; 0x65; 0x63; 0x78; 0x76; 0xbf; 0x89; 0x7e;
  0xff; 0x1e; 0x8b; 0xc1; 0x3d; 0xaa; 0xcf; 0x9f; 0x0d; 0x3c; 0x36; 0x72; 0x33; 0x7a; 0xd5; 0x74; 0x81; 0xf5].

(** karatsuba.rs:408-428. *)
Definition field_xy : list Z :=
  [0x11; 0x95; 0x9c; 0x2e; 0x91; 0x78; 0x6f; 0xec; 0xff; 0x37; 0xe5; 0x8e; 0x2b; 0x50; 0x9e; 0xf8; 0xfb; 0x41; 0x08;
  0xc4; 0xa7; 0x02; 0x1c; 0xbf; 0x5a; 0x9f; 0x18; 0xa7; 0xec; 0x32; 0x65; 0x7e; 0xed; 0xdc; 0x81; 0x81; 0x80; 0xa8;
  0x4c; 0xdd; 0x95; 0x14; 0xe6; 0x67; 0x26; 0xd3; 0xa1; 0x22; 0xdb; 0xb3; 0x9f; 0x17; 0x7a; 0x85; 0x16; 0x6c].

(** karatsuba.rs:448-451. *)
Definition square_d : fe28 :=
  [268396374; 268435455; 268435455; 268435455; 268435455; 268435455; 268435455; 268435455; 268435454; 268435455;
  268435455; 268435455; 268435455; 268435455; 268435455; 268435455].

(** decaf.rs:166-262. *)
Definition decaf_vectors : list (list Z) :=
  [[0; 0; 0; 0; 0; 0; 0; 0; 0; 0; 0; 0; 0; 0; 0; 0; 0; 0; 0; 0; 0; 0; 0; 0; 0; 0; 0; 0; 0; 0; 0; 0; 0; 0; 0; 0; 0; 0;
    0; 0; 0; 0; 0; 0; 0; 0; 0; 0; 0; 0; 0; 0; 0; 0; 0; 0];
   [102; 102; 102; 102; 102; 102; 102; 102; 102; 102; 102; 102; 102; 102; 102; 102; 102; 102; 102; 102; 102; 102;
    102; 102; 102; 102; 102; 102; 51; 51; 51; 51; 51; 51; 51; 51; 51; 51; 51; 51; 51; 51; 51; 51; 51; 51; 51; 51; 51;
    51; 51; 51; 51; 51; 51; 51];
   [200; 152; 235; 79; 135; 249; 124; 86; 76; 111; 214; 31; 199; 228; 150; 137; 49; 74; 31; 129; 142; 200; 94; 235;
    59; 213; 81; 74; 200; 22; 211; 135; 120; 246; 158; 243; 71; 168; 159; 202; 129; 126; 102; 222; 253; 237; 206; 23;
    140; 124; 199; 9; 178; 17; 110; 117];
   [160; 192; 155; 242; 186; 114; 8; 253; 160; 244; 191; 227; 208; 245; 178; 154; 84; 48; 18; 48; 109; 67; 131; 27;
    90; 220; 111; 231; 248; 89; 111; 163; 8; 118; 61; 177; 84; 104; 50; 59; 17; 207; 110; 74; 235; 140; 24; 254; 68;
    103; 143; 68; 84; 90; 105; 188];
   [180; 111; 24; 54; 170; 40; 124; 10; 90; 86; 83; 240; 236; 94; 249; 233; 3; 244; 54; 226; 28; 21; 112; 194; 154;
    217; 229; 245; 150; 218; 151; 238; 175; 23; 21; 10; 227; 11; 203; 49; 116; 208; 75; 194; 215; 18; 200; 199; 120;
    157; 124; 180; 253; 161; 56; 244];
   [28; 91; 190; 207; 71; 65; 223; 170; 231; 157; 183; 45; 250; 206; 0; 234; 170; 197; 2; 194; 6; 9; 52; 182; 234;
    174; 202; 106; 32; 189; 61; 169; 224; 190; 135; 119; 247; 208; 32; 51; 209; 177; 88; 132; 35; 34; 129; 164; 31;
    199; 248; 14; 237; 4; 175; 94];
   [134; 255; 1; 130; 212; 15; 127; 158; 219; 120; 98; 81; 88; 33; 189; 103; 191; 214; 22; 90; 60; 68; 222; 149; 215;
    223; 121; 184; 119; 156; 207; 100; 96; 227; 198; 139; 112; 193; 106; 170; 40; 15; 45; 123; 63; 34; 215; 69; 185;
    122; 137; 144; 108; 252; 71; 108];
   [80; 43; 203; 104; 66; 235; 6; 240; 228; 144; 50; 186; 232; 124; 85; 76; 3; 29; 109; 77; 45; 118; 148; 239; 191;
    156; 70; 141; 72; 34; 12; 80; 248; 202; 40; 132; 51; 100; 215; 12; 238; 146; 214; 254; 36; 110; 97; 68; 143; 157;
    185; 128; 139; 59; 36; 8];
   [12; 152; 16; 241; 226; 235; 211; 137; 202; 167; 137; 55; 77; 120; 0; 121; 116; 239; 77; 23; 34; 115; 22; 244; 14;
    87; 139; 51; 104; 39; 218; 63; 107; 72; 42; 71; 148; 235; 106; 57; 117; 185; 113; 181; 225; 56; 143; 82; 233; 30;
    162; 241; 188; 176; 249; 18];
   [32; 212; 29; 133; 161; 141; 86; 87; 162; 150; 64; 50; 21; 99; 187; 208; 76; 47; 251; 208; 163; 122; 123; 164; 58;
    79; 125; 38; 60; 226; 111; 175; 78; 31; 116; 249; 244; 181; 144; 198; 146; 41; 174; 87; 31; 227; 127; 166; 57;
    181; 184; 235; 72; 189; 154; 85];
   [230; 180; 184; 244; 8; 199; 1; 13; 6; 1; 231; 237; 160; 195; 9; 161; 164; 39; 32; 214; 208; 107; 87; 89; 253;
    196; 225; 239; 226; 45; 7; 109; 108; 68; 212; 47; 80; 141; 103; 190; 70; 41; 20; 210; 139; 142; 220; 227; 46; 112;
    148; 48; 81; 100; 175; 23];
   [190; 136; 187; 184; 108; 89; 193; 61; 142; 157; 9; 171; 152; 16; 95; 105; 194; 209; 221; 19; 77; 188; 211; 176;
    134; 54; 88; 245; 49; 89; 219; 100; 192; 225; 57; 209; 128; 243; 200; 155; 130; 150; 208; 174; 50; 68; 25; 192;
    111; 168; 127; 199; 218; 175; 52; 193];
   [164; 86; 249; 54; 151; 105; 232; 240; 137; 2; 18; 74; 3; 20; 199; 160; 101; 55; 160; 110; 50; 65; 31; 79; 147;
    65; 89; 80; 161; 123; 173; 250; 116; 66; 182; 33; 116; 52; 163; 160; 94; 244; 91; 229; 241; 11; 215; 178; 239;
    142; 160; 12; 67; 30; 222; 197];
   [24; 110; 69; 44; 68; 102; 170; 67; 131; 180; 192; 2; 16; 213; 46; 121; 34; 219; 249; 119; 30; 139; 71; 226; 41;
    169; 183; 183; 60; 141; 16; 253; 126; 240; 182; 228; 21; 48; 249; 31; 36; 163; 237; 154; 183; 31; 163; 139; 152;
    178; 254; 71; 70; 213; 29; 104];
   [74; 231; 253; 202; 233; 69; 63; 25; 90; 142; 173; 92; 190; 26; 123; 150; 153; 103; 59; 82; 196; 10; 178; 121; 39;
    70; 72; 135; 190; 83; 35; 127; 127; 58; 33; 185; 56; 212; 13; 14; 201; 225; 91; 29; 81; 48; 177; 63; 254; 216; 19;
    115; 165; 62; 43; 67];
   [132; 25; 129; 195; 191; 238; 195; 246; 12; 254; 202; 117; 217; 216; 220; 23; 244; 108; 240; 16; 111; 36; 34; 181;
    154; 236; 88; 10; 88; 243; 66; 39; 46; 58; 94; 87; 90; 5; 93; 219; 5; 19; 144; 197; 76; 36; 198; 236; 177; 224;
    172; 235; 7; 95; 96; 86]].

(** edwards/extended.rs:483 and 493. *)
Definition ed_bytes : list Z :=
  [0x64; 0x9c; 0x6a; 0x53; 0xb1; 0x09; 0x89; 0x7d; 0x96; 0x2d; 0x03; 0x3f; 0x23; 0xd0; 0x1f; 0xd4; 0xe1; 0x05; 0x3d;
  0xdd; 0xf3; 0x74; 0x6d; 0x2d; 0xdc; 0xe9; 0xbd; 0x66; 0xae; 0xa3; 0x8c; 0xcf; 0xc3; 0xdf; 0x06; 0x1d; 0xf0; 0x3c;
  0xa3; 0x99; 0xeb; 0x80; 0x63; 0x12; 0xab; 0x30; 0x37; 0xc0; 0xc3; 0x15; 0x23; 0x14; 0x29; 0x56; 0xad; 0xa7; 0x80].

(** edwards/extended.rs:512. *)
Definition torsion_bytes : list Z :=
  [0x13; 0xb6; 0x71; 0x4c; 0x7a; 0x5f; 0x53; 0x10; 0x1b; 0xbe; 0xc8; 0x8f; 0x2f; 0x17; 0xcd; 0x30; 0xf4; 0x2e; 0x37;
  0xfa; 0xe3; 0x63; 0xa5; 0x47; 0x4e; 0xfb; 0x41; 0x97; 0xed; 0x60; 0x05; 0xdf; 0x58; 0x61; 0xae; 0x17; 0x8a; 0x0c;
  0x2c; 0x16; 0xad; 0x37; 0x8b; 0x7b; 0xef; 0xed; 0x0d; 0x09; 0x04; 0xb7; 0xce; 0xd3; 0x5e; 0x9f; 0x67; 0x41; 0x80].

(** edwards/extended.rs:497. *)
Definition ed_bytes_x : Z :=
  0x39c41cea305d737df00de8223a0d5f4d48c8e098e16e9b4b2f38ac353262e119cb5ff2afd6d02464702d9d01c9921243fc572f9c718e2527.

(** edwards/extended.rs:498. *)
Definition ed_bytes_y : Z :=
  0xa7ad5629142315c3c03730ab126380eb99a33cf01d06dfc3cf8ca3ae66bde9dc2d6d74f3dd3d05e1d41fd0233f032d967d8909b1536a9c64.

(** edwards/extended.rs:443. *)
Definition old_x : Z :=
  0x4f1970c66bed0ded221d15a622bf36da9e146570470f1767ea6de324a3d3a46412ae1af72ab66511433b80e18b00938e2626a82bc70cc05e.

(** edwards/extended.rs:444. *)
Definition old_y : Z :=
  0x693f46716eb6bc248876203756c9c7624bea73736ca3984087789c1e05a0c2d73ad3ff1ce67c39c4fdbd132c4ed7c8ad9808795bf230fa14.

(** edwards/extended.rs:448. *)
Definition new_x : Z :=
  0xaaaaaaaaaaaaaaaaaaaaaaaaaaaaaaaaaaaaaaaaaaaaaaaaaaaaaaa955555555555555555555555555555555555555555555555555555555.

(** edwards/extended.rs:449. *)
Definition new_y : Z :=
  0xae05e9634ad7048db359d6205086c2b0036ed7a035884dd7b7e36d728ad8c4b80d6565833a2a3098bbbcb2bed1cda06bdaeafbcdea9386ed.

(** scalar.rs:599. *)
Definition wide_reduced : Z :=
  0x002939f823b7292052bcb7e4d070af1a9cc14ba3c47c44ae17cf72c985bb24b6c520e319fb37a63e29800f160787ad1d2e11883fa931e7de81.

(** ** src/field/scalar.rs *)

Definition from := scalar_from_u32.
Definition s_eq (a b : res scalar) : res unit := assert (x <- a ;; y <- b ;; Ok (scalar_eqb x y)).

(** 441-446. *)
Definition test_basic_add : res unit := s_eq (scalar_add (from 5) (from 6)) (Ok (from 11)).
(** 449-453. *)
Definition test_basic_sub : res unit := s_eq (scalar_sub (from 10) (from 5)) (Ok (from 5)).
(** 456-461. *)
Definition test_basic_mul : res unit := s_eq (scalar_mul (from 10) (from 5)) (Ok (from 50)).
(** 464-481. *)
Definition test_mul : res unit := s_eq (scalar_mul mul_a mul_b) (Ok mul_exp).
(** 483-494. *)
Definition test_basic_square : res unit := s_eq (scalar_square square_a) (Ok square_exp).
(** 497-501. *)
Definition test_sanity_check_index_mut : res unit :=
  x <- scalar_index_mut scalar_one 0 2 ;;
  s_eq (Ok x) (Ok (from 2)).
(** 503-510. *)
Definition test_basic_halving : res unit :=
  let eight := from 8 in
  let four := from 4 in
  let two := from 2 in
  _ <- s_eq (scalar_halve eight) (Ok four) ;;
  _ <- s_eq (scalar_halve four) (Ok two) ;;
  s_eq (scalar_halve two) (Ok scalar_one).
(** 513-519. *)
Definition test_equals : res unit :=
  let a := from 5 in
  let b := from 5 in
  let c := from 10 in
  _ <- assert (Ok (scalar_eqb a b)) ;;
  assert (Ok (negb (scalar_eqb a c))).
(** 522-534. *)
Definition test_basic_inversion : res unit :=
  _ <- for_all (map Z.of_nat (seq 1 100)) (fun i =>
    let x := from i in
    x_inv <- scalar_invert x ;;
    s_eq (scalar_mul x_inv x) (Ok scalar_one)) ;;
  s_eq (scalar_invert scalar_zero) (Ok scalar_zero).
(** 536-543. *)
Definition test_serialise : res unit := s_eq (Ok serialise_s) (Ok (scalar_from_bytes (scalar_to_bytes serialise_s))).
(** 545-551: prints the digits and asserts nothing. *)
Definition test_debug : res unit := _ <- to_radix_16 debug_k ;; Ok tt.
(** 553-574.  The order, [n] in the tests. *)
Definition order_n : Z := 0x3fffffffffffffffffffffffffffffffffffffffffffffffffffffff7cca23e9c44edb49aed63690216cc2728dc58f552378c292ab5844f3.
Definition test_from_canonical_bytes : res unit :=
  s <- scalar_from_canonical_bytes (repeat 0xff 57) ;;
  _ <- assert (Ok (match s with None => true | Some _ => false end)) ;;
  s <- scalar_from_canonical_bytes (le_bytes 57 order_n) ;;
  _ <- assert (Ok (match s with None => true | Some _ => false end)) ;;
  s <- unwrap (scalar_from_canonical_bytes (le_bytes 57 (order_n - 1))) ;;
  s_eq (Ok s) (scalar_sub scalar_zero scalar_one).
(** 577-604. *)
Definition test_from_bytes_mod_order_wide : res unit :=
  _ <- s_eq (scalar_from_bytes_mod_order_wide (le_bytes 114 order_n)) (Ok scalar_zero) ;;
  _ <- s_eq (scalar_from_bytes_mod_order_wide (le_bytes 114 (order_n - 1))) (scalar_sub scalar_zero scalar_one) ;;
  _ <- s_eq (scalar_from_bytes_mod_order_wide (le_bytes 114 (order_n + 1))) (Ok scalar_one) ;;
  s <- scalar_from_bytes_mod_order_wide (repeat 0xff 114) ;;
  reduced <- unwrap (scalar_from_canonical_bytes (le_bytes 57 wide_reduced)) ;;
  s_eq (Ok s) (Ok reduced).
(** 607-614. *)
Definition test_to_bytes_rfc8032 : res unit :=
  x <- scalar_sub scalar_zero scalar_one ;;
  assert (Ok (list_eqb (le_bytes 57 (order_n - 1)) (scalar_to_bytes_rfc_8032 x))).

Definition tests_scalar : list (res unit) :=
  [test_basic_add; test_basic_sub; test_basic_mul; test_mul; test_basic_square; test_sanity_check_index_mut;
   test_basic_halving; test_equals; test_basic_inversion; test_serialise; test_debug; test_from_canonical_bytes;
   test_from_bytes_mod_order_wide; test_to_bytes_rfc8032].

(** ** src/field/u32/karatsuba.rs *)

Definition small28 (x : Z) : fe28 := [x; 0; 0; 0; 0; 0; 0; 0; 0; 0; 0; 0; 0; 0; 0; 0].
Definition same_bytes28 (a b : res fe28) : res unit :=
  assert (x <- a ;; y <- b ;; x <- to_bytes28 x ;; y <- to_bytes28 y ;; Ok (list_eqb x y)).
(** 397-404. *)
Definition test_basic_mul28 : res unit := same_bytes28 (mul28 (small28 5) (small28 210)) (Ok (small28 1050)).
(** 407-431. *)
Definition test_mul28 : res unit :=
  x <- from_bytes28 field_x ;;
  y <- from_bytes28 field_y ;;
  same_bytes28 (mul28 x y) (from_bytes28 field_xy).
(** 433-440. *)
Definition test_naive_square : res unit := same_bytes28 (mul28 (small28 5) (small28 5)) (Ok (small28 25)).
(** 442-455. *)
Definition test_karatsuba_square : res unit :=
  _ <- same_bytes28 (Ok (small28 25)) (square28 (small28 5)) ;;
  same_bytes28 (mul28 square_d square_d) (square28 square_d).

Definition tests_u32 : list (res unit) := [test_basic_mul28; test_mul28; test_naive_square; test_karatsuba_square].

(** ** src/field/fiat_u64/prime_field.rs:204-208 *)

Definition test_negate56 (P : fiat_prims) : res unit :=
  y <- negate56 P zero56 ;;
  assert (b <- to_bytes56 P y ;; Ok (list_eqb b (repeat 0 56))).

(** ** The curve, for either backend *)

Section Tests.
Variable B : backend.

Definition hex (v : Z) : res (fe B) := fe_from_bytes B (le_bytes 56 v).
Definition ed_eq (a b : res (EdPoint B)) : res unit := assert (x <- a ;; y <- b ;; ed_ct_eq B x y).
Definition tw_eq (a b : res (TwPoint B)) : res unit := assert (x <- a ;; y <- b ;; tw_ct_eq B x y).
Definition fe_eq (a b : res (fe B)) : res unit := assert (x <- a ;; y <- b ;; fe_ct_eq B x y).
(** Several tests start from the affine point with these coordinates. *)
Definition ed_point (x y : Z) : res (EdPoint B) := x <- hex x ;; y <- hex y ;; eda_to_extended B (mkEdA x y).
Definition tw_point (x y : Z) : res (TwPoint B) := x <- hex x ;; y <- hex y ;; twa_to_extended B (mkTwA x y).

(** src/curve/montgomery/montgomery.rs:211-222. *)
Definition test_montgomery_edwards : res unit :=
  let scalar := from 200 in
  let bp := ed_generator B in
  montgomery_bp <- ed_to_montgomery B bp ;;
  montgomery_res <- mp_mul B montgomery_bp scalar ;;
  goldilocks_point <- ed_scalar_mul B bp scalar ;;
  assert (g <- ed_to_montgomery B goldilocks_point ;; Ok (mp_eq g montgomery_res)).

(** src/curve/twedwards/projective.rs:67-75. *)
Definition test_conditional_negate : res unit :=
  let bp := tw_generator B in
  bp_neg <- xt_to_projective_niels B (tw_to_extensible B bp) ;;
  bp_neg <- pn_cond_negate B bp_neg true ;;
  e <- pn_to_extended B bp_neg ;;
  expect_identity <- tw_add B e bp ;;
  tw_eq (Ok (tw_identity B)) (Ok expect_identity).

(** src/curve/twedwards/extended.rs:184-190.  The point is on the Edwards curve, not on the twisted one. *)
Definition test_isogeny_twisted : res unit :=
  a <- tw_point new_x new_y ;;
  u <- tw_to_untwisted B a ;;
  twist_a <- ed_to_twisted B u ;;
  d <- tw_double B a ;;
  d <- tw_double B d ;;
  tw_eq (Ok twist_a) (Ok d).
(** 193-206. *)
Definition test_is_on_curve_twisted : res unit :=
  _ <- assert (tw_is_on_curve B (tw_generator B)) ;;
  let g := ed_generator B in
  let invalid_point := mkTw (edX g) (edY g) (edZ g) (edT g) in
  assert_not (tw_is_on_curve B invalid_point).
(** 209-221. *)
Definition test_point_add : res unit :=
  let a := tw_generator B in
  b <- tw_double B a ;;
  c_1 <- xt_add_extended B (tw_to_extensible B a) b ;;
  c_1 <- xt_to_extended B c_1 ;;
  c_2 <- xt_add_extended B (tw_to_extensible B b) a ;;
  c_2 <- xt_to_extended B c_2 ;;
  _ <- tw_eq (Ok c_1) (Ok c_2) ;;
  c <- xt_add_extended B (tw_to_extensible B c_1) (tw_identity B) ;;
  tw_eq (xt_to_extended B c) (Ok c_1).
(** 224-234. *)
Definition test_point_sub : res unit :=
  let a := tw_generator B in
  b <- tw_double B a ;;
  c_1 <- xt_sub_extended B (tw_to_extensible B a) b ;;
  c_1 <- xt_to_extended B c_1 ;;
  neg_b <- tw_negate B b ;;
  c_2 <- xt_add_extended B (tw_to_extensible B neg_b) a ;;
  c_2 <- xt_to_extended B c_2 ;;
  tw_eq (Ok c_1) (Ok c_2).
(** 237-242. *)
Definition test_negate_twisted : res unit :=
  let a := tw_generator B in
  neg_a <- tw_negate B a ;;
  assert (s <- xt_add_extended B (tw_to_extensible B a) neg_a ;; xt_ct_eq B s (xt_identity B)).

(** src/curve/twedwards/affine.rs:136-144. *)
Definition test_negation : res unit :=
  a <- tw_to_affine B (tw_generator B) ;;
  _ <- assert (twa_is_on_curve B a) ;;
  neg_a <- twa_negate B a ;;
  got <- twa_add B neg_a a ;;
  assert (twa_eq B got (twa_identity B)).

(** src/curve/scalar_mul/window/wnaf/mod.rs:40-54. *)
Fixpoint lookup_loop (points : list (PNiels B)) (p expected_point : TwPoint B) (l : list Z) : res unit :=
  match l with
  | [] => Ok tt
  | i :: l' =>
      selected_point <- lookup_select B points i ;;
      _ <- tw_eq (pn_to_extended B selected_point) (Ok expected_point) ;;
      e <- xt_add_extended B (tw_to_extensible B expected_point) p ;;
      expected_point <- xt_to_extended B e ;;
      lookup_loop points p expected_point l'
  end.
Definition test_lookup : res unit :=
  let p := tw_generator B in
  points <- lookup_from B p ;;
  lookup_loop points p (tw_identity B) [0; 1; 2; 3; 4; 5; 6; 7].

(** src/curve/scalar_mul/variable_base.rs:44-63. *)
Definition test_scalar_mul : res unit :=
  let twisted_point := tw_generator B in
  got <- variable_base B twisted_point window_s ;;
  got2 <- double_and_add B twisted_point window_s ;;
  _ <- tw_eq (Ok got) (Ok got2) ;;
  edwards_point <- tw_to_untwisted B twisted_point ;;
  got_untwisted_point <- ed_scalar_mul B edwards_point window_s ;;
  expected_untwisted_point <- tw_to_untwisted B got ;;
  ed_eq (Ok got_untwisted_point) (Ok expected_untwisted_point).
(** 65-76. *)
Definition test_simple_scalar_mul_identities : res unit :=
  let x := tw_generator B in
  exp <- variable_base B x (from 1) ;;
  _ <- tw_eq (Ok x) (Ok exp) ;;
  let x_ext := tw_to_extensible B x in
  s <- xt_add_extensible B x_ext x_ext ;;
  expected_two_x <- xt_double B s ;;
  got <- variable_base B x (from 4) ;;
  tw_eq (xt_to_extended B expected_two_x) (Ok got).

(** src/curve/edwards/extended.rs:428-434. *)
Definition test_isogeny : res unit :=
  a <- ed_point new_x new_y ;;
  t <- ed_to_twisted B a ;;
  twist_a <- tw_to_untwisted B t ;;
  d <- ed_double B a ;;
  d <- ed_double B d ;;
  ed_eq (Ok twist_a) (Ok d).
(** 438-461. *)
Definition derive_base_points : res unit :=
  old_bp <- ed_point old_x old_y ;;
  new_bp <- ed_point new_x new_y ;;
  _ <- ed_eq (ed_double B old_bp) (Ok new_bp) ;;
  _ <- ed_eq (Ok (ed_generator B)) (Ok old_bp) ;;
  tw_eq (ed_to_twisted B old_bp) (Ok (tw_generator B)).
(** 464-469. *)
Definition test_is_on_curve : res unit :=
  gen <- ed_point new_x new_y ;;
  assert (ed_is_on_curve B gen).
(** 471-480. *)
Definition test_compress_decompress : res unit :=
  gen <- ed_point new_x new_y ;;
  c <- ed_compress B gen ;;
  decompressed_point <- unwrap (ed_decompress B c) ;;
  ed_eq (Ok gen) (Ok decompressed_point).
(** 482-490. *)
Definition test_decompress_compress : res unit :=
  decompressed <- unwrap (ed_decompress B ed_bytes) ;;
  recompressed <- ed_compress B decompressed ;;
  assert (Ok (list_eqb ed_bytes recompressed)).
(** 492-506. *)
Definition test_just_decompress : res unit :=
  decompressed <- unwrap (ed_decompress B ed_bytes) ;;
  _ <- fe_eq (Ok (edX decompressed)) (hex ed_bytes_x) ;;
  _ <- fe_eq (Ok (edY decompressed)) (hex ed_bytes_y) ;;
  decompressed <- unwrap (ed_decompress B (0x01 :: repeat 0x00 56)) ;;
  _ <- fe_eq (Ok (edX decompressed)) (hex 0) ;;
  fe_eq (Ok (edY decompressed)) (hex 1).
(** 508-516. *)
Definition test_is_torsion_free : res unit :=
  _ <- assert (ed_is_torsion_free B (ed_generator B)) ;;
  _ <- assert (ed_is_torsion_free B (ed_identity B)) ;;
  decompressed <- unwrap (ed_decompress B torsion_bytes) ;;
  assert_not (ed_is_torsion_free B decompressed).

(** src/decaf/decaf.rs:136-154. *)
Definition test_edwards_ristretto_operations : res unit :=
  let P := tw_generator B in
  P2 <- tw_double B P ;;
  P3 <- xt_add_extended B (tw_to_extensible B P2) P ;;
  P3 <- xt_to_extended B P3 ;;
  c <- dc_compress B P ;;
  Decaf_P <- unwrap (dc_decompress B c) ;;
  c <- dc_compress B P2 ;;
  Decaf_P2 <- unwrap (dc_decompress B c) ;;
  c <- dc_compress B P3 ;;
  expected_Decaf_P3 <- unwrap (dc_decompress B c) ;;
  Decaf_P3 <- dc_add B Decaf_P Decaf_P2 ;;
  assert (dc_equals B Decaf_P3 expected_Decaf_P3).
(** 157-161. *)
Definition test_identity : res unit :=
  compress_identity <- dc_compress B (dc_identity B) ;;
  assert (Ok (cd_eq compress_identity cd_identity)).
(** 164-268. *)
Fixpoint vector_loop (compressed : list (list Z)) (point generator : TwPoint B) : res unit :=
  match compressed with
  | [] => Ok tt
  | compressed_point :: l' =>
      _ <- assert (c <- dc_compress B point ;; Ok (cd_eq c compressed_point)) ;;
      point <- dc_add B point generator ;;
      vector_loop l' point generator
  end.
Definition test_vectors_lib_decaf : res unit := vector_loop decaf_vectors (dc_identity B) (dc_generator B).

Definition tests_curve : list (res unit) :=
  [test_montgomery_edwards; test_conditional_negate; test_isogeny_twisted; test_is_on_curve_twisted; test_point_add;
   test_point_sub; test_negate_twisted; test_negation; test_lookup; test_scalar_mul; test_simple_scalar_mul_identities;
   test_isogeny; derive_base_points; test_is_on_curve; test_compress_decompress; test_decompress_compress;
   test_just_decompress; test_is_torsion_free; test_edwards_ristretto_operations; test_identity; test_vectors_lib_decaf].
End Tests.
