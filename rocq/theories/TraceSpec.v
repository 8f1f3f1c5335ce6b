(** What a run of the code does, step by step (for C53).

    StepCurve.v, StepU32.v and StepScalar.v are the code of the models, cut into steps; StepPlain.v proves that they are.  Here
    they run so that every step is written down, in order: which operation, on which operands, and at every branch that
    depends on data the way taken.  This is done twice: with the operations of the field interface as steps (any backend),
    and with operations on machine words as steps (the 32-bit backend and the scalars).

    An operand is known by the expression that produced it, down to inputs and constants.  Not written down are the data
    themselves: numbers, bytes, choices. *)
Require Import ZArith List Bool.
From Verif Require Import Base SpecParams FieldBackend Backends ScalarModel TwistedModel EdwardsModel MontgomeryModel DecafModel ApiExpr
  Steps StepSubtle StepU32 StepScalar StepCurve.
Import ListNotations.
Open Scope Z_scope.

(** A step: an operation, or a branch and the way taken. *)
Inductive event (E : Type) : Type := Does (e : E) | Goes (b : bool).
Arguments Does {E}. Arguments Goes {E}.
(** The ways taken. *)
Fixpoint branches {E} (t : list (event E)) : list bool :=
  match t with [] => [] | Does _ :: t' => branches t' | Goes b :: t' => b :: branches t' end.
Definition tracing (E : Type) : steps := traced (event E).
Definition does {E A} (e : E) (r : res A) : run (tracing E) A := ([Does e], r).
Definition goes {E} (b : bool) : run (tracing E) bool := ([Goes b], Ok b).

(** A backend that only offers a type of field elements and the constants of the crate (StepCurve.v uses nothing else). *)
Definition carrier (F : Type) (c : nat -> F) : backend := {|
  fe := F; fe_zero := c 0%nat; fe_one := c 1%nat; fe_minus_one := c 2%nat;
  fe_add _ _ := Panic; fe_sub _ _ := Panic; fe_mul _ _ := Panic; fe_square _ := Panic; fe_negate _ := Panic; fe_strong_reduce _ := Panic;
  fe_select _ _ _ := Panic; fe_cond_negate _ _ := Panic; fe_is_negative _ := Panic; fe_from_bytes _ := Panic; fe_to_bytes _ := Panic;
  NEG_FOUR_TIMES_TWISTED_D := c 3%nat; EDWARDS_D := c 4%nat; NEG_EDWARDS_D := c 5%nat; TWISTED_D := c 6%nat; TWO_TIMES_TWISTED_D := c 7%nat;
  DECAF_FACTOR := c 8%nat; A_PLUS_TWO_OVER_FOUR := c 9%nat;
  BASE_X := c 10%nat; BASE_Y := c 11%nat; BASE_Z := c 12%nat; BASE_T := c 13%nat;
  TWBASE_X := c 14%nat; TWBASE_Y := c 15%nat; TWBASE_Z := c 16%nat; TWBASE_T := c 17%nat;
  fe_val _ := 0; fe_tight _ := False; fe_loose _ := False
|}.
Definition constant (B : backend) (i : nat) : fe B :=
  nth i [fe_zero B; fe_one B; fe_minus_one B; NEG_FOUR_TIMES_TWISTED_D B; EDWARDS_D B; NEG_EDWARDS_D B; TWISTED_D B; TWO_TIMES_TWISTED_D B;
         DECAF_FACTOR B; A_PLUS_TWO_OVER_FOUR B; BASE_X B; BASE_Y B; BASE_Z B; BASE_T B; TWBASE_X B; TWBASE_Y B; TWBASE_Z B; TWBASE_T B] (fe_zero B).

(** ** Branches *)
(** The branches each decoder takes, from what it is given. *)
(** src/field/scalar.rs:277-292: the last byte is not zero; the top two bits of the one before are not zero; the number is below l. *)
Definition scalar_branches (b : list Z) : list bool :=
  if 2 ^ 448 <=? le_val b then [true] else if 2 ^ 446 <=? le_val b then [false; true] else [false; false; le_val b <? ell].
(** src/curve/edwards/extended.rs:41-66: return [None]. *)
Definition edwards_branches (B : backend) (b : list Z) : list bool :=
  match ed_decompress B b with Ok (Some _) => [false] | _ => [true] end.
(** src/decaf/decaf.rs:91-128: not the canonical encoding; odd; no such point. *)
Inductive verdict : Type := TooLarge | IsOdd | NoPoint | Accepted.
Definition dc_verdict (B : backend) (b : list Z) : verdict :=
  if p <=? le_val b then TooLarge else if Z.odd (le_val b) then IsOdd else
  match dc_decompress B b with Ok (Some _) => Accepted | _ => NoPoint end.
Definition decaf_branches (B : backend) (b : list Z) : list bool :=
  match dc_verdict B b with TooLarge => [true] | IsOdd => [false; true] | NoPoint => [false; false; true] | Accepted => [false; false; false] end.

(** The branches a whole program takes: those of the decodings it performs.  A program goes on after a call that returned a value. *)
Definition after {A} (r : res (option A)) (d : A -> list bool) : list bool := match r with Ok (Some a) => d a | _ => [] end.
Fixpoint decisions (B : backend) {s} (e : api s) : list bool :=
  match e with
  | AScCanonical b => scalar_branches b
  | AEdDecompress b => edwards_branches B b
  | ADcDecompress b => decaf_branches B b
  | ABind d s x k => decisions B x ++ after (api_run B x) (fun v => decisions B (k v))
  | AIsSome s x => decisions B x
  | AEdNeg x => decisions B x
  | AEdDouble x => decisions B x
  | AEdTorque x => decisions B x
  | AEdMul x _ => decisions B x
  | AEdModFour x _ => decisions B x
  | AEdSum l => decisions B l
  | AEdUntwist x => decisions B x
  | AEdOfAffine x => decisions B x
  | AEdToAffine x => decisions B x
  | AEdCompress x => decisions B x
  | AEdTorsionFree x => decisions B x
  | AEdToMontgomery x => decisions B x
  | ATwist x => decisions B x
  | ATwNeg x => decisions B x
  | ATwTorque x => decisions B x
  | ATwOfXt x => decisions B x
  | ATwOfPn x => decisions B x
  | AXtOfTw x => decisions B x
  | AXtDouble x => decisions B x
  | APnOfXt x => decisions B x
  | APnNegate x _ => decisions B x
  | APmToAffine x => decisions B x
  | ADcNeg x => decisions B x
  | ADcMul x _ => decisions B x
  | ADcCompress x => decisions B x
  | AEdAdd x y => decisions B x ++ after (api_run B x) (fun _ => decisions B y)
  | AEdSub x y => decisions B x ++ after (api_run B x) (fun _ => decisions B y)
  | AEdSelect x y _ => decisions B x ++ after (api_run B x) (fun _ => decisions B y)
  | ACons x l => decisions B x ++ after (api_run B x) (fun _ => decisions B l)
  | AEdEq x y => decisions B x ++ after (api_run B x) (fun _ => decisions B y)
  | ATwSelect x y _ => decisions B x ++ after (api_run B x) (fun _ => decisions B y)
  | ATwEq x y => decisions B x ++ after (api_run B x) (fun _ => decisions B y)
  | AXtAddXt x y => decisions B x ++ after (api_run B x) (fun _ => decisions B y)
  | AXtAddTw x y => decisions B x ++ after (api_run B x) (fun _ => decisions B y)
  | AXtSubTw x y => decisions B x ++ after (api_run B x) (fun _ => decisions B y)
  | AXtAddPn x y => decisions B x ++ after (api_run B x) (fun _ => decisions B y)
  | AXtEq x y => decisions B x ++ after (api_run B x) (fun _ => decisions B y)
  | APnSelect x y _ => decisions B x ++ after (api_run B x) (fun _ => decisions B y)
  | APnEq x y => decisions B x ++ after (api_run B x) (fun _ => decisions B y)
  | APmSelect x y _ => decisions B x ++ after (api_run B x) (fun _ => decisions B y)
  | ADcAdd x y => decisions B x ++ after (api_run B x) (fun _ => decisions B y)
  | ADcSub x y => decisions B x ++ after (api_run B x) (fun _ => decisions B y)
  | ADcEq x y => decisions B x ++ after (api_run B x) (fun _ => decisions B y)
  | ARsEq x y => decisions B x ++ after (api_run B x) (fun _ => decisions B y)
  | _ => []
  end.

(** The decoders, and the branches of each. *)
Inductive decoder : Type := OfScalars | OfEdwards | OfDecaf.
Definition branching (B : backend) (d : decoder) (b : list Z) : list bool :=
  match d with OfScalars => scalar_branches b | OfEdwards => edwards_branches B b | OfDecaf => decaf_branches B b end.

(** Two programs with the same calls.  Scalars, byte strings and choices given to the calls, and data returned by the caller's
    code, may differ; the strings given to decoders must be related by [D]; and the caller's own code must not choose calls by
    the data it sees ([SC_bind]).  (Parts of a program without secrets may do as they like: [SC_same].) *)
Section Programs.
Variable D : decoder -> list Z -> list Z -> Prop.
Inductive same_calls : forall s, api s -> api s -> Prop :=
| SC_same s (e : api s) : same_calls s e e
| SC_ret d v v' : same_calls _ (ARet d v) (ARet d v')
| SC_bind d s x x' k k' : same_calls _ x x' -> (forall v v', dok d v -> dok d v' -> same_calls s (k v) (k' v')) -> same_calls s (ABind d s x k) (ABind d s x' k')
| SC_is_some s x x' : same_calls _ x x' -> same_calls _ (AIsSome s x) (AIsSome s x')
| SC_sc_add a a' b b' : same_calls _ (AScAdd a b) (AScAdd a' b')
| SC_sc_sub a a' b b' : same_calls _ (AScSub a b) (AScSub a' b')
| SC_sc_mul a a' b b' : same_calls _ (AScMul a b) (AScMul a' b')
| SC_sc_invert a a' : same_calls _ (AScInvert a) (AScInvert a')
| SC_sc_halve a a' : same_calls _ (AScHalve a) (AScHalve a')
| SC_sc_canonical b b' : D OfScalars b b' -> same_calls _ (AScCanonical b) (AScCanonical b')
| SC_sc_wide b b' : same_calls _ (AScWide b) (AScWide b')
| SC_ed_decompress b b' : D OfEdwards b b' -> same_calls _ (AEdDecompress b) (AEdDecompress b')
| SC_ed_add x x' y y' : same_calls _ x x' -> same_calls _ y y' -> same_calls _ (AEdAdd x y) (AEdAdd x' y')
| SC_ed_sub x x' y y' : same_calls _ x x' -> same_calls _ y y' -> same_calls _ (AEdSub x y) (AEdSub x' y')
| SC_ed_neg x x' : same_calls _ x x' -> same_calls _ (AEdNeg x) (AEdNeg x')
| SC_ed_double x x' : same_calls _ x x' -> same_calls _ (AEdDouble x) (AEdDouble x')
| SC_ed_torque x x' : same_calls _ x x' -> same_calls _ (AEdTorque x) (AEdTorque x')
| SC_ed_mul x x' s s' : same_calls _ x x' -> same_calls _ (AEdMul x s) (AEdMul x' s')
| SC_ed_mod_four x x' s s' : same_calls _ x x' -> same_calls _ (AEdModFour x s) (AEdModFour x' s')
| SC_ed_select x x' y y' c c' : same_calls _ x x' -> same_calls _ y y' -> same_calls _ (AEdSelect x y c) (AEdSelect x' y' c')
| SC_cons x x' l l' : same_calls _ x x' -> same_calls _ l l' -> same_calls _ (ACons x l) (ACons x' l')
| SC_ed_sum l l' : same_calls _ l l' -> same_calls _ (AEdSum l) (AEdSum l')
| SC_ed_untwist x x' : same_calls _ x x' -> same_calls _ (AEdUntwist x) (AEdUntwist x')
| SC_ed_of_affine x x' : same_calls _ x x' -> same_calls _ (AEdOfAffine x) (AEdOfAffine x')
| SC_ed_to_affine x x' : same_calls _ x x' -> same_calls _ (AEdToAffine x) (AEdToAffine x')
| SC_ed_compress x x' : same_calls _ x x' -> same_calls _ (AEdCompress x) (AEdCompress x')
| SC_ed_eq x x' y y' : same_calls _ x x' -> same_calls _ y y' -> same_calls _ (AEdEq x y) (AEdEq x' y')
| SC_ed_torsion_free x x' : same_calls _ x x' -> same_calls _ (AEdTorsionFree x) (AEdTorsionFree x')
| SC_ed_to_montgomery x x' : same_calls _ x x' -> same_calls _ (AEdToMontgomery x) (AEdToMontgomery x')
| SC_twist x x' : same_calls _ x x' -> same_calls _ (ATwist x) (ATwist x')
| SC_tw_neg x x' : same_calls _ x x' -> same_calls _ (ATwNeg x) (ATwNeg x')
| SC_tw_torque x x' : same_calls _ x x' -> same_calls _ (ATwTorque x) (ATwTorque x')
| SC_tw_select x x' y y' c c' : same_calls _ x x' -> same_calls _ y y' -> same_calls _ (ATwSelect x y c) (ATwSelect x' y' c')
| SC_tw_of_xt x x' : same_calls _ x x' -> same_calls _ (ATwOfXt x) (ATwOfXt x')
| SC_tw_of_pn x x' : same_calls _ x x' -> same_calls _ (ATwOfPn x) (ATwOfPn x')
| SC_tw_eq x x' y y' : same_calls _ x x' -> same_calls _ y y' -> same_calls _ (ATwEq x y) (ATwEq x' y')
| SC_xt_of_tw x x' : same_calls _ x x' -> same_calls _ (AXtOfTw x) (AXtOfTw x')
| SC_xt_double x x' : same_calls _ x x' -> same_calls _ (AXtDouble x) (AXtDouble x')
| SC_xt_add_xt x x' y y' : same_calls _ x x' -> same_calls _ y y' -> same_calls _ (AXtAddXt x y) (AXtAddXt x' y')
| SC_xt_add_tw x x' y y' : same_calls _ x x' -> same_calls _ y y' -> same_calls _ (AXtAddTw x y) (AXtAddTw x' y')
| SC_xt_sub_tw x x' y y' : same_calls _ x x' -> same_calls _ y y' -> same_calls _ (AXtSubTw x y) (AXtSubTw x' y')
| SC_xt_add_pn x x' y y' : same_calls _ x x' -> same_calls _ y y' -> same_calls _ (AXtAddPn x y) (AXtAddPn x' y')
| SC_xt_eq x x' y y' : same_calls _ x x' -> same_calls _ y y' -> same_calls _ (AXtEq x y) (AXtEq x' y')
| SC_pn_of_xt x x' : same_calls _ x x' -> same_calls _ (APnOfXt x) (APnOfXt x')
| SC_pn_select x x' y y' c c' : same_calls _ x x' -> same_calls _ y y' -> same_calls _ (APnSelect x y c) (APnSelect x' y' c')
| SC_pn_negate x x' c c' : same_calls _ x x' -> same_calls _ (APnNegate x c) (APnNegate x' c')
| SC_pn_eq x x' y y' : same_calls _ x x' -> same_calls _ y y' -> same_calls _ (APnEq x y) (APnEq x' y')
| SC_mp_mul b b' s s' : same_calls _ (AMpMul b s) (AMpMul b' s')
| SC_pm_of b b' : same_calls _ (APmOf b) (APmOf b')
| SC_pm_select x x' y y' c c' : same_calls _ x x' -> same_calls _ y y' -> same_calls _ (APmSelect x y c) (APmSelect x' y' c')
| SC_pm_to_affine x x' : same_calls _ x x' -> same_calls _ (APmToAffine x) (APmToAffine x')
| SC_dc_decompress b b' : D OfDecaf b b' -> same_calls _ (ADcDecompress b) (ADcDecompress b')
| SC_dc_add x x' y y' : same_calls _ x x' -> same_calls _ y y' -> same_calls _ (ADcAdd x y) (ADcAdd x' y')
| SC_dc_sub x x' y y' : same_calls _ x x' -> same_calls _ y y' -> same_calls _ (ADcSub x y) (ADcSub x' y')
| SC_dc_neg x x' : same_calls _ x x' -> same_calls _ (ADcNeg x) (ADcNeg x')
| SC_dc_mul x x' s s' : same_calls _ x x' -> same_calls _ (ADcMul x s) (ADcMul x' s')
| SC_dc_compress x x' : same_calls _ x x' -> same_calls _ (ADcCompress x) (ADcCompress x')
| SC_dc_eq x x' y y' : same_calls _ x x' -> same_calls _ y y' -> same_calls _ (ADcEq x y) (ADcEq x' y')
| SC_rs_eq x x' y y' : same_calls _ x x' -> same_calls _ y y' -> same_calls _ (ARsEq x y) (ARsEq x' y').
End Programs.
(** Anything goes; or strings on which the decoder takes the same branches (which includes equal ones). *)
Definition any (d : decoder) (b b' : list Z) : Prop := True.
Definition alike (B : backend) (d : decoder) (b b' : list Z) : Prop := branching B d b = branching B d b'.

(** ** Steps of the field interface *)
Inductive shape : Type :=
| SIn (n : Z)                     (** an input *)
| SConst (n : nat)                (** a constant of the crate *)
| SAdd (a b : shape) | SSub (a b : shape) | SMul (a b : shape)
| SSquare (a : shape) | SNegate (a : shape) | SReduce (a : shape)
| SSelect (a b : shape)           (** conditional_select; which of the two is not recorded *)
| SCondNegate (a : shape)         (** conditional_negate; whether it negates is not recorded *)
| SFromBytes.
(** Operations: those that deliver a field element are known by its expression. *)
Inductive operation : Type :=
| OField (s : shape) | OIsNegative (s : shape) | OToBytes (s : shape)
| OSign | OSignByte
| OScAdd | OScSub | OScMul | OScInvert | OScHalve | OScWide | ODiv4 | OBits | ORadix16 | OModFour
| ODigitAbs | ODigitChoice | ODigitCtEq (n : Z) | ODigitEq (n : Z) | OBytesEq.

Section Fields.
Variable B : backend.
Definition tagged : backend := carrier (fe B * shape) (fun i => (constant B i, SConst i)).
Definition field (s : shape) (r : res (fe B)) : run (tracing operation) (fe tagged) :=
  does (OField s) (match r with Ok v => Ok (v, s) | Panic => Panic end).
Definition field_machine : machine (tracing operation) tagged := mkMachine (tracing operation) tagged
  (fun a b => field (SAdd (snd a) (snd b)) (fe_add B (fst a) (fst b)))
  (fun a b => field (SSub (snd a) (snd b)) (fe_sub B (fst a) (fst b)))
  (fun a b => field (SMul (snd a) (snd b)) (fe_mul B (fst a) (fst b)))
  (fun a => field (SSquare (snd a)) (fe_square B (fst a)))
  (fun a => field (SNegate (snd a)) (fe_negate B (fst a)))
  (fun a => field (SReduce (snd a)) (fe_strong_reduce B (fst a)))
  (fun a b c => field (SSelect (snd a) (snd b)) (fe_select B (fst a) (fst b) c))
  (fun a c => field (SCondNegate (snd a)) (fe_cond_negate B (fst a) c))
  (fun a => does (OIsNegative (snd a)) (fe_is_negative B (fst a)))
  (fun b => field SFromBytes (fe_from_bytes B b))
  (fun a => does (OToBytes (snd a)) (fe_to_bytes B (fst a)))
  goes
  (fun b => does OSign (Ok (shr (last b 0) 7 =? 1)))
  (fun c => does OSignByte (Ok (shl_u 8 (Z.b2z c) 7)))
  (fun a b => does OScAdd (scalar_add a b))
  (fun a b => does OScSub (scalar_sub a b))
  (fun a b => does OScMul (scalar_mul a b))
  (fun a => does OScInvert (scalar_invert a))
  (fun a => does OScHalve (scalar_halve a))
  (fun b => (map Goes (scalar_branches b), scalar_from_canonical_bytes b))    (** see the word level for its steps *)
  (fun b => does OScWide (scalar_from_bytes_mod_order_wide b))
  (fun a => does ODiv4 (Ok (scalar_div_by_four a)))
  (fun a => does OBits (Ok (scalar_bits a)))
  Z
  (fun a => does ORadix16 (to_radix_16 a))
  (fun a => does OModFour (Ok (Z.land (hd 0 a) 3)))
  (fun d => does ODigitAbs (t <- i8_add d (shr d 7) ;; Ok (as_u32 (Z.lxor t (shr d 7)), Z.land (shr d 7) 1))%res)
  (fun s => does ODigitChoice (Ok (as_u8 s =? 1)))
  (fun d n => does (ODigitCtEq n) (Ok (d =? n)))
  (fun d n => does (ODigitEq n) (Ok (d =? n)))
  (fun a b => does OBytesEq (Ok (list_eqb a b))).
(** A program, run: its steps and its result. *)
Definition field_run {s} (e : api s) : list (event operation) * res (option (val tagged s)) := api_runS (tracing operation) tagged field_machine e.
End Fields.

(** ** Steps of the word code *)
Inductive wshape : Type :=
| WIn (n : nat)                          (** an input *)
| WLit (z : Z)                           (** a constant of the crate *)
| WChk (o : chk_op) (a b : wshape)
| WBin (o : bin_op) (a b : wshape)
| WUn (o : un_op) (a : wshape)
| WUnwrap.                               (** a choice made into a word *)
Inductive word_op : Type :=
| OWord (s : wshape)                     (** an operation that delivers a word *)
| OGuard (o : guard_op) (s : wshape)     (** an assertion *)
| OTest (o : test_op) (s : wshape)       (** a word becomes a boolean *)
| OReveal (s : wshape).                  (** a word is handed out *)
Definition wordop (s : wshape) (r : res Z) : run (tracing word_op) (Z * wshape) :=
  does (OWord s) (match r with Ok v => Ok (v, s) | Panic => Panic end).
Definition watched : cpu (tracing word_op) := mkCpu (tracing word_op)
  (Z * wshape)
  (fun z => (z, WLit z))
  (fun o x y => wordop (WChk o (snd x) (snd y)) (chk_z o (fst x) (fst y)))
  (fun o x y => wordop (WBin o (snd x) (snd y)) (Ok (bin_z o (fst x) (fst y))))
  (fun o x => wordop (WUn o (snd x)) (Ok (un_z o (fst x))))
  (fun o x => does (OGuard o (snd x)) (if negb (guard_z o (fst x)) then Panic else Ok tt))
  (fun o x => does (OTest o (snd x)) (Ok (test_z o (fst x))))
  (fun x => does (OReveal (snd x)) (Ok (fst x)))
  (fun c => wordop WUnwrap (Ok (Z.b2z c)))
  goes.

(** Field elements and scalars made of words.  Scalars and byte strings go in as inputs and come out as numbers. *)
Section Words.
Variable M : steps.
Variable W : cpu M.
Variable enter : nat -> nat -> list Z -> list (word W).   (** [enter k n l]: the n words of l, as inputs number k .. k+n-1 *)
Open Scope step_scope.
Definition limbs : backend := carrier (list (word W)) (fun i => map (lit W) (constant u32_backend i)).
Definition out (r : run M (list (word W))) : run M (list Z) := x <- r ;; reveal_all W x.
Definition word_machine : machine M limbs := mkMachine M limbs
  (add28S M W) (sub28S M W) (mul28S M W) (square28S M W) (negate28S M W) (strong_reduce28S M W)
  (conditional_select28S M W) (conditional_negate28S M W) (is_negative28S M W)
  (fun b => from_bytes28S M W (enter 0%nat 56%nat b))
  (fun a => out (to_bytes28S M W a))
  (branch W)
  (fun b => x <- indexS (enter 0%nat 57%nat b) 56 ;; sign_bitS M W x)
  (fun c => x <- sign_byteS M W c ;; reveal W x)
  (fun a b => out (scalar_addS M W (enter 0%nat 14%nat a) (enter 14%nat 14%nat b)))
  (fun a b => out (scalar_subS M W (enter 0%nat 14%nat a) (enter 14%nat 14%nat b)))
  (fun a b => out (scalar_mulS M W (enter 0%nat 14%nat a) (enter 14%nat 14%nat b)))
  (fun a => out (scalar_invertS M W (enter 0%nat 14%nat a)))
  (fun a => out (scalar_halveS M W (enter 0%nat 14%nat a)))
  (fun b => r <- scalar_from_canonical_bytesS M W (enter 0%nat 57%nat b) ;;
            match r with Some s => t <- reveal_all W s ;; ret (Some t) | None => ret None end)
  (fun b => out (scalar_from_bytes_mod_order_wideS M W (enter 0%nat 114%nat b)))
  (fun a => out (scalar_div_by_fourS M W (enter 0%nat 14%nat a)))
  (fun a => scalar_bitsS M W (enter 0%nat 14%nat a))
  (word W)
  (fun a => to_radix_16S M W (enter 0%nat 14%nat a))
  (fun a => mod_fourS M W (enter 0%nat 14%nat a))
  (digit_absS M W)
  (digit_choiceS M W)
  (fun d n => ct_eqS M W 32 d (lit W n))
  (fun d n => test W (TEqual n) d)
  (fun a b => ct_eq_sliceS M W (enter 0%nat 56%nat a) (enter 56%nat 56%nat b)).
End Words.
Definition inputs (k n : nat) (l : list Z) : list (Z * wshape) := map (fun i => (nth i l 0, WIn (k + i))) (seq 0 n).
Definition words : backend := limbs (tracing word_op) watched.
Definition words_machine : machine (tracing word_op) words := word_machine (tracing word_op) watched inputs.
Definition word_run {s} (e : api s) : list (event word_op) * res (option (val words s)) := api_runS (tracing word_op) words words_machine e.

(** ** Results *)
(** The field elements in a value of the API, and a value with its field elements replaced. *)
Definition coords {O : backend} (s : sort) : val O s -> list (fe O) :=
  match s with
  | TData _ => fun _ => []
  | TEd => fun P => [edX P; edY P; edZ P; edT P]
  | TEdAffine => fun P => [edAx P; edAy P]
  | TEdList => fun l => flat_map (fun P : EdPoint O => [edX P; edY P; edZ P; edT P]) l
  | TTw | TDc | TRs => fun P => [twX P; twY P; twZ P; twT P]
  | TXt => fun P => [xtX P; xtY P; xtZ P; xtT1 P; xtT2 P]
  | TPn => fun P => [pnYpX P; pnYmX P; pnTd P; pnZ P]
  | TPm => fun P => [pmU P; pmW P]
  end.
Definition map_val {O B : backend} (f : fe O -> fe B) (s : sort) : val O s -> val B s :=
  match s with
  | TData _ => fun v => v
  | TEd => fun P => mkEd (f (edX P)) (f (edY P)) (f (edZ P)) (f (edT P))
  | TEdAffine => fun P => mkEdA (f (edAx P)) (f (edAy P))
  | TEdList => fun l => map (fun P : EdPoint O => mkEd (f (edX P)) (f (edY P)) (f (edZ P)) (f (edT P))) l
  | TTw | TDc | TRs => fun P => mkTw (f (twX P)) (f (twY P)) (f (twZ P)) (f (twT P))
  | TXt => fun P => mkXt (f (xtX P)) (f (xtY P)) (f (xtZ P)) (f (xtT1 P)) (f (xtT2 P))
  | TPn => fun P => mkPN (f (pnYpX P)) (f (pnYmX P)) (f (pnTd P)) (f (pnZ P))
  | TPm => fun P => mkPM (f (pmU P)) (f (pmW P))
  end.

(** Expressions of a result, and the result without them. *)
Definition field_shapes {B s} (v : val (tagged B) s) : list shape := map snd (coords (O := tagged B) s v).
Definition field_values {B s} : val (tagged B) s -> val B s := map_val (O := tagged B) (B := B) fst s.
Definition word_shapes {s} (v : val words s) : list (list wshape) := map (map snd) (coords (O := words) s v).
Definition word_values {s} : val words s -> val u32_backend s := map_val (O := words) (B := u32_backend) (map fst) s.

(** Two runs of a function that differ in secrets only: neither branches, and if both return, both did the same and results
    are made alike ([sh] is what is known of a result). *)
Definition same_steps {E A C} (sh : A -> C) (x y : list (event E) * res A) : Prop :=
  branches (fst x) = [] /\ branches (fst y) = [] /\ forall r r', snd x = Ok r -> snd y = Ok r' -> fst x = fst y /\ sh r = sh r'.

(** A traced run and a plain one with the same end. *)
Definition computes {E A C} (value : A -> C) (x : list (event E) * res A) (y : res C) : Prop :=
  match snd x, y with Ok r, Ok v => value r = v | Panic, Panic => True | _, _ => False end.
