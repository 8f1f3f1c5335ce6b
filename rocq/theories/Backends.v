(** The two backends that src/field/mod.rs:11-15 chooses between, with their constants
    (src/field/u32/constants.rs:8-78 and src/field/fiat_u64/constants.rs:10-146). *)
Require Import ZArith List.
From Verif Require Import Base SpecField FieldBackend FieldU32Model FieldFiatModel.
Import ListNotations.
Open Scope Z_scope.
Open Scope res_scope.

Definition u32_backend : backend := {|
  fe := fe28;
  fe_zero := zero28; fe_one := one28; fe_minus_one := minus_one28;
  fe_add := add28; fe_sub := sub28; fe_mul := mul28;
  fe_square := square28; fe_negate := negate28; fe_strong_reduce := strong_reduce28;
  fe_select a b c := Ok (conditional_select28 a b c);
  fe_cond_negate := conditional_negate28;
  fe_is_negative := is_negative28;
  fe_from_bytes := from_bytes28; fe_to_bytes := to_bytes28;
  NEG_FOUR_TIMES_TWISTED_D := [156327; 268435456; 268435455; 268435455; 268435455; 268435455; 268435455; 268435455;
    268435454; 268435455; 268435455; 268435455; 268435455; 268435455; 268435455; 268435455];
  EDWARDS_D := [268396374; 268435455; 268435455; 268435455; 268435455; 268435455; 268435455; 268435455; 268435454;
    268435455; 268435455; 268435455; 268435455; 268435455; 268435455; 268435455];
  NEG_EDWARDS_D := [39081; 0; 0; 0; 0; 0; 0; 0; 0; 0; 0; 0; 0; 0; 0; 0];
  TWISTED_D := [268396373; 268435455; 268435455; 268435455; 268435455; 268435455; 268435455; 268435455; 268435454;
    268435455; 268435455; 268435455; 268435455; 268435455; 268435455; 268435455];
  TWO_TIMES_TWISTED_D := [268357291; 268435455; 268435455; 268435455; 268435455; 268435455; 268435455; 268435455;
    268435454; 268435455; 268435455; 268435455; 268435455; 268435455; 268435455; 268435455];
  DECAF_FACTOR := [0x05572736; 0x042ef0f4; 0x00ce5296; 0x07bf6aa2; 0x0ed26033; 0x0f4fd6ed; 0x0a839a66; 0x0968c14b;
    0x04a2d780; 0x0b8d54b6; 0x01a7b8a5; 0x06aa0a1f; 0x0d722fa2; 0x0683bf68; 0x0beb24f7; 0x022d962f];
  A_PLUS_TWO_OVER_FOUR := [39082; 0; 0; 0; 0; 0; 0; 0; 0; 0; 0; 0; 0; 0; 0; 0];
  BASE_X := [118276190; 40534716; 9670182; 135141552; 85017403; 259173222; 68333082; 171784774; 174973732; 15824510;
    73756743; 57518561; 94773951; 248652241; 107736333; 82941708];
  BASE_Y := [36764180; 8885695; 130592152; 20104429; 163904957; 30304195; 121295871; 5901357; 125344798; 171541512;
    175338348; 209069246; 3626697; 38307682; 24032956; 110359655];
  BASE_Z := [1; 0; 0; 0; 0; 0; 0; 0; 0; 0; 0; 0; 0; 0; 0; 0];
  BASE_T := [45061619; 6694120; 103620075; 168286294; 228718479; 151739175; 150043102; 237197013; 14095975;
    138747174; 90839103; 152869968; 221073549; 114093113; 183378460; 209054552];
  TWBASE_X := [0; 268435456; 268435455; 268435455; 268435455; 268435455; 268435455; 134217727; 268435454; 268435455;
    268435455; 268435455; 268435455; 268435455; 268435455; 134217727];
  TWBASE_Y := [266160740; 101161805; 74490312; 12706731; 149232027; 72184820; 68425752; 84169329; 64300076;
    80170041; 105082960; 37781586; 19953866; 222875756; 82854534; 139496929];
  TWBASE_Z := [1; 0; 0; 0; 0; 0; 0; 0; 0; 0; 0; 0; 0; 0; 0; 0];
  TWBASE_T := [202998021; 238846317; 66379923; 102789507; 54662147; 81652110; 85576069; 171023191; 104342404;
    127188629; 141403663; 236837931; 109226495; 84812757; 24364708; 114517662];
  fe_val := val28; fe_tight := wf28; fe_loose := wf28
|}.

Definition fiat_backend (P : fiat_prims) : backend := {|
  fe := fe56;
  fe_zero := zero56; fe_one := one56; fe_minus_one := minus_one56;
  fe_add := add56 P; fe_sub := sub56 P; fe_mul := mul56 P;
  fe_square := square56 P; fe_negate := negate56 P; fe_strong_reduce := strong_reduce56 P;
  fe_select := conditional_select56 P;
  fe_cond_negate := conditional_negate56 P;
  fe_is_negative := is_negative56 P;
  fe_from_bytes := from_bytes56 P; fe_to_bytes := to_bytes56 P;
  NEG_FOUR_TIMES_TWISTED_D := [156327; 0; 0; 0; 72057594037927935; 72057594037927935; 72057594037927935;
    72057594037927935];
  EDWARDS_D := [144115188075816789; 144115188075855870; 144115188075855870; 144115188075855870; 144115188075855868;
    144115188075855870; 144115188075855870; 144115188075855870];
  NEG_EDWARDS_D := [39081; 0; 0; 0; 0; 0; 0; 0];
  TWISTED_D := [144115188075816788; 144115188075855870; 144115188075855870; 144115188075855870; 144115188075855868;
    144115188075855870; 144115188075855870; 144115188075855870];
  TWO_TIMES_TWISTED_D := [144115188075777706; 144115188075855870; 144115188075855870; 144115188075855870;
    144115188075855868; 144115188075855870; 144115188075855870; 144115188075855870];
  DECAF_FACTOR := [0x42ef0f45572736; 0x7bf6aa20ce5296; 0xf4fd6eded26033; 0x968c14ba839a66; 0xb8d54b64a2d780;
    0x6aa0a1f1a7b8a5; 0x683bf68d722fa2; 0x22d962fbeb24f7];
  A_PLUS_TWO_OVER_FOUR := [39082; 0; 0; 0; 0; 0; 0; 0];
  BASE_X := [10880955091566686; 36276784145337894; 69571282115576635; 46113124210880026; 4247859732800292;
    15440021224255559; 66747077793030847; 22264495316135181];
  BASE_Y := [2385235625966100; 5396741696826776; 8134720567442877; 1584133578609663; 46047824121994270;
    56121598560924524; 10283140089599689; 29624444337960636];
  BASE_Z := [1; 0; 0; 0; 0; 0; 0; 0];
  BASE_T := [1796939199780339; 45174008172060139; 40732174862907279; 63672088496536030; 37244660935497319;
    41035719659624511; 30626637035688077; 56117654178374172];
  TWBASE_X := [0; 72057594037927936; 72057594037927935; 36028797018963967; 72057594037927934; 72057594037927935;
    72057594037927935; 36028797018963967];
  TWBASE_Y := [27155415521118820; 3410937204744648; 19376965222209947; 22594032279754776; 21520481577673772;
    10141917371396176; 59827755213158602; 37445921829569158];
  TWBASE_Z := [1; 0; 0; 0; 0; 0; 0; 0];
  TWBASE_T := [64114820220813573; 27592348249940115; 21918321435874307; 45908688348236165; 34141937727972228;
    63575698147485199; 22766751209138687; 30740600843388580];
  fe_val := val56; fe_tight := tight56; fe_loose := loose56
|}.

(** A build of the crate: either feature, with fiat-crypto meeting its documentation in the second case. *)
Inductive shipped : backend -> Prop :=
| shipped_u32 : shipped u32_backend
| shipped_fiat : forall P, fiat_contract P -> shipped (fiat_backend P).
