(** Property C75: the arithmetic of fiat-crypto behind the 64-bit backend (FiatCode.v), limb by limb.

    Reading guide. A field element is a list of 8 limbs, [val56 a] the number they spell in radix 2^56; [tight56]: every limb at
    most 2^56; [loose56]: at most 3 * 2^56. [Ok r]: returns r; a checked operation that leaves its type would be [Panic]. *)
Require Import ZArith List Bool.
From Verif Require Import Base SpecParams FieldBackend FieldFiatModel FiatCode Backends ApiExpr SpecApi ApiRun ApiCases ApiMeaning FiatMain.
Import ListNotations.
Open Scope Z_scope.

Theorem C75_carry_mul : forall a b, loose56 a -> loose56 b ->
  exists r, fcode_carry_mul a b = Ok r /\ tight56 r /\ val56 r mod p = (val56 a * val56 b) mod p.
Proof. exact (fc_carry_mul fiat_code fiat_code_contract). Qed.
Print Assumptions C75_carry_mul.

Theorem C75_carry_square : forall a, loose56 a ->
  exists r, fcode_carry_square a = Ok r /\ tight56 r /\ val56 r mod p = (val56 a * val56 a) mod p.
Proof. exact (fc_carry_square fiat_code fiat_code_contract). Qed.
Print Assumptions C75_carry_square.

Theorem C75_carry : forall a, loose56 a -> exists r, fcode_carry a = Ok r /\ tight56 r /\ val56 r mod p = val56 a mod p.
Proof. exact (fc_carry fiat_code fiat_code_contract). Qed.
Print Assumptions C75_carry.

Theorem C75_add_sub_opp : forall a b, tight56 a -> tight56 b ->
  (exists r, fcode_add a b = Ok r /\ loose56 r /\ val56 r mod p = (val56 a + val56 b) mod p) /\
  (exists r, fcode_sub a b = Ok r /\ loose56 r /\ val56 r mod p = (val56 a - val56 b) mod p) /\
  (exists r, fcode_opp a = Ok r /\ loose56 r /\ val56 r mod p = (- val56 a) mod p).
Proof. exact fiat_code_linear. Qed.
Print Assumptions C75_add_sub_opp.

Theorem C75_selectznz : forall n c a b, array 64 n a -> array 64 n b -> c = 0 \/ c = 1 -> fcode_selectznz c a b = Ok (if c =? 0 then a else b).
Proof. exact fiat_code_select. Qed.
Print Assumptions C75_selectznz.

(** [to_bytes] gives the canonical encoding, [from_bytes] accepts every 56 bytes. *)
Theorem C75_bytes : (forall a, tight56 a -> fcode_to_bytes a = Ok (le_bytes 56 (val56 a mod p))) /\
  (forall b, bytes 56 b -> exists r, fcode_from_bytes b = Ok r /\ tight56 r /\ val56 r = le_val b).
Proof. exact fiat_code_bytes. Qed.
Print Assumptions C75_bytes.

(** Operands at the bounds. *)
Example C75_case :
  let a := repeat 0x300000000000000 8 in
  let t := repeat 0x100000000000000 8 in
  loose56 a /\ tight56 t /\
  (exists r, fcode_carry_mul a a = Ok r /\ fcode_carry_square a = Ok r /\ val56 r mod p = (val56 a * val56 a) mod p) /\
  fcode_sub (repeat 0 8) t = Ok (map (fun x => x - 0x100000000000000) two_p_limbs) /\
  ~ tight56 minus_one56 /\ fcode_to_bytes minus_one56 = Ok (le_bytes 56 (p - 1)) /\
  fcode_to_bytes t = Ok (le_bytes 56 (val56 t mod p)) /\ val56 t > p.
Proof. exact fiat_code_case. Qed.

(** The contract asked of the primitives elsewhere (C15 to C18 and every theorem about [shipped] backends) holds of this code. *)
Theorem C75_contract : fiat_contract fiat_code.
Proof. exact fiat_code_contract. Qed.
Print Assumptions C75_contract.

Theorem C75_shipped : shipped (fiat_backend fiat_code).
Proof. exact (shipped_fiat fiat_code fiat_code_contract). Qed.
Print Assumptions C75_shipped.

(** So the two backends give the same bytes, booleans and scalars, the ones of the meaning, with nothing assumed. *)
Theorem C75_backends_agree : forall d (e : api (TData d)), api_ok e ->
  api_run u32_backend e = Ok (meaning e) /\ api_run (fiat_backend fiat_code) e = Ok (meaning e).
Proof. exact fiat_code_agrees. Qed.
Print Assumptions C75_backends_agree.

Example C75_agree_case : forall k, ScalarModel.is_scalar k -> api_ok (sample k).
Proof. exact sample_ok. Qed.
