(** Encodings listed in RFC 9496, appendix B.1: 2B and 3B for the generator B of decaf448. *)
Require Import ZArith List.
Import ListNotations.

Definition vector_2 : list Z :=
  [0xc8; 0x98; 0xeb; 0x4f; 0x87; 0xf9; 0x7c; 0x56; 0x4c; 0x6f; 0xd6; 0x1f; 0xc7; 0xe4;
  0x96; 0x89; 0x31; 0x4a; 0x1f; 0x81; 0x8e; 0xc8; 0x5e; 0xeb; 0x3b; 0xd5; 0x51; 0x4a;
  0xc8; 0x16; 0xd3; 0x87; 0x78; 0xf6; 0x9e; 0xf3; 0x47; 0xa8; 0x9f; 0xca; 0x81; 0x7e;
  0x66; 0xde; 0xfd; 0xed; 0xce; 0x17; 0x8c; 0x7c; 0xc7; 0x09; 0xb2; 0x11; 0x6e; 0x75]%Z.
Definition vector_3 : list Z :=
  [0xa0; 0xc0; 0x9b; 0xf2; 0xba; 0x72; 0x08; 0xfd; 0xa0; 0xf4; 0xbf; 0xe3; 0xd0; 0xf5;
  0xb2; 0x9a; 0x54; 0x30; 0x12; 0x30; 0x6d; 0x43; 0x83; 0x1b; 0x5a; 0xdc; 0x6f; 0xe7;
  0xf8; 0x59; 0x6f; 0xa3; 0x08; 0x76; 0x3d; 0xb1; 0x54; 0x68; 0x32; 0x3b; 0x11; 0xcf;
  0x6e; 0x4a; 0xeb; 0x8c; 0x18; 0xfe; 0x44; 0x67; 0x8f; 0x44; 0x54; 0x5a; 0x69; 0xbc]%Z.
