# Ed448-Goldilocks: machine-checked model and proofs

Source: `/repo` (crate-crypto/Ed448-Goldilocks, pinned commit), read as text only.
Prover: Coq 8.16.1. All Coq files are in `rocq/theories`, logical prefix `Verif`.

## Method

1. **Spec** (small, separate from the model): the prime p = 2^448 - 2^224 - 1, the order l, the field of
   integers in [0, p), the affine Edwards curve E (x^2+y^2 = 1-39081 x^2y^2), the twisted curve T
   (-x^2+y^2 = 1-39082 x^2y^2), Curve448 u-coordinates, repeated addition [n]P, little-endian byte strings.
2. **Model**: one Gallina function per Rust function, total and computable, each citing file and lines.
   Machine integers are `Z` with explicit ranges. Every Rust arithmetic operation that panics on overflow in
   debug builds is a checked operation in a result monad (`Ok v | Panic`); `wrapping_*` and `as` casts are
   explicit reductions modulo 2^n. `Option` results stay `option`. `assert!` and `todo!` are `Panic`.
   A theorem that the result is `Ok v` therefore proves both absence of panics and that debug and release
   builds agree; the second is C79, with the release build written out.
3. **Backends.** The curve code is modelled once, over a record of field operations. Two instances:
   * `u32`: all limb arithmetic of `field/u32` modelled and proved (no contract assumed);
   * `fiat_u64`: the repo's wrapper `field/fiat_u64/prime_field.rs` modelled over a record of the
     `fiat_p448_*` functions, which live in the external `fiat-crypto` crate and are not in `/repo`. Their
     documented pre/postconditions are an explicit hypothesis (a record of statements, not an axiom). An executable
     reference implementation is proved to meet that contract, so the hypothesis is satisfiable; the published code of
     fiat-crypto, written down from memory in `FiatCode.v`, is proved to meet it too (C75).
   Theorems about points quantify over both.
4. **Properties**: theorem files contain only statements closed by `exact`, a concrete instance beside each, and
   `Print Assumptions`.

## Trusted base

* Coq's kernel (coqc and coqchk; coqchk re-checks `vm_compute` casts without the VM).
* The correspondence between the Rust text and the Gallina model (read side by side through the citations).
* For the `fiat_u64` backend only: the documented contract of the fiat-crypto functions, as an explicit hypothesis. C75 proves it of
  the code in `FiatCode.v`; what stays trusted there is that this text, written from memory, is the published one.
* `subtle`'s `Choice`, `conditional_select`, `ct_eq`, modelled as booleans, `if` and equality. C74 proves this of the published
  code of `subtle` 2, which is not in `/repo` and is written down in `SubtleModel.v` from its publication. C80: its debug
  assertion in `Choice::from` never fails.
* Axioms: none of ours. `Print Assumptions` under each theorem is the reference; the summary is at the end.

## What is modelled

| Rust | Coq |
|---|---|
| `src/field/scalar.rs` | `ScalarModel.v`, `ScalarIndex.v` |
| `src/field/u32/prime_field.rs`, `karatsuba.rs` | `FieldU32Model.v` |
| `src/field/fiat_u64/prime_field.rs` | `FieldFiatModel.v` |
| `src/field/{u32,fiat_u64}/constants.rs`, the choice of backend in `src/field/mod.rs:11-15` | `Backends.v` |
| `src/field/mod.rs` | `FieldModel.v` (over the interface of `FieldBackend.v`) |
| `src/curve/edwards/*.rs` | `EdwardsModel.v` |
| `src/curve/twedwards/*.rs` | `TwistedModel.v` |
| `src/curve/scalar_mul/**` | `ScalarMulModel.v` |
| `src/curve/montgomery/montgomery.rs` | `MontgomeryModel.v` |
| `src/decaf/*.rs`, `src/ristretto/*.rs` | `DecafModel.v` |
| none: Ed448 signatures as a user would write them over the API (for C66) | `Signature.v` |
| none: signature checks with a step left out, over the API (for C95) | `SignatureVariants.v` |
| none: many signatures checked at once, over the API (for C96) | `SignatureBatch.v` |
| none: protocols over Decaf, over the API (for C97) | `SpecProtocols.v` |
| none: a shared secret, over the API (for C98) | `SpecShares.v` |
| none: programs over Edwards points, over the API (for C99) | `SpecExponentEd.v` |
| none: programs over the whole API, with integers for the points (for C100) | `SpecGeneric.v` |
| none: the u-coordinates of Curve448 and its twist as integers up to sign (for C101) | `SpecLine.v` |
| none: Edwards points and u-coordinates as the same integers (for C102) | `SpecBridge.v` |
| the 40 `#[test]` functions (for C69) | `RepoTests.v` |
| operator implementations and `macros.rs`: every spelling of an operator, and Rust's rules for choosing among them (for C72) | `OpModel.v` |
| `Debug` implementations, derived and written (for C73) | `DebugModel.v` |
| derived `Hash` and `Zeroize` of `MontgomeryPoint` (for C83): what core and zeroize do with an array of bytes, that is the length and one `write`, and zeros | `HashModel.v` |
| Cargo features and `cfg` attributes (for C84): the closure Cargo computes and the items each backend defines; of rustc's name resolution only that each used name has one definition | `FeatureModel.v` |
| A machine whose i128 is `w` bits wide (for C85), not part of the code | `WidthSpec.v` |
| A machine whose u64, i64 and i8 have other widths (for C90), not part of the code | `WidthScalarSpec.v` |
| `fiat-crypto` 0.2, module `p448_solinas_64`, what the crate calls of it (for C75) | `FiatCode.v` |
| `subtle` 2, what the crate calls of it (for C74) | `SubtleModel.v`; as steps `StepSubtle.v` |
| all of the above again, as sequences of steps (for C53, C67) | `Steps.v`, `StepSubtle.v`, `StepU32.v`, `StepFiat.v`, `StepScalar.v`, `StepCurve.v`; `StepPlain.v` and `StepRelFiat.v` prove them equal to the models above |

Not modelled: the RNG (an arbitrary byte string stands for its output), the bodies of external crates
(`rand_core`, `zeroize` but for its effect on the bytes), format flags other than `{:?}` and `{:#?}`, real time, caches and compiled code. The models call the function behind an
operator directly; that every spelling of the operator gets there is C72.

Simplifications are named where they are made. The main ones: arrays are lists of the right length; `for` loops are
recursions in the same order; unrolled code with one pattern is a recursion over the limbs; a `Choice` is a boolean.

## Where things are

| | specification | theory (no code) | proofs about the model | properties and cases |
|---|---|---|---|---|
| numbers | `SpecParams`, `SpecField` | `NumTheory`, `HexNum`, `HexP`, `Pock`, `Primes`, `FieldTheory` | | |
| scalars | `SpecParams` | | `ScalarProofs`, `ScalarProofs2`, `ScalarMain`, `ValueMain` | `PropsScalar` |
| field | `SpecField` | | `Wp`, `FieldU32*`, `BackendLaws`, `FieldProofs`, `FieldExpr`, `FieldMain` | `PropsField` |
| Edwards | `SpecCurve`, `SpecEncoding`, `PointSpec`, `EdwardsExpr` | `EdwardsTheory`, `CurveTheory`, `PhiHat`, `EdSigns`, `AbGroup`, `Order`, `GroupOrder` | `TwistedProofs`, `ScalarMulProofs`, `EdwardsProofs`, `EdwardsRun`, `*Main` | `PropsEdwards` |
| Montgomery | `SpecMontgomery` | `MontTheory`, `Ladder`, `LadderMont`, `MontCurves` | `MontgomeryProofs`, `MontgomeryMain` | `PropsMontgomery` |
| Decaf | `SpecDecaf`, `DecafExpr` | `DecafTheory`, `DecafGroup` | `DecafProofs`, `DecafRun`, `DecafMain` | `PropsDecaf` |
| RFC 9496 | `SpecDecaf`, `RfcExpr`, `RfcVectors` | `DecafRfc` | `RfcMain` | `PropsRfc` |
| RFC 7748, RFC 8032 | `SpecRfc7748`, `SpecRfc8032` | | `Rfc7748Main`, `Rfc8032Main`, `SignatureMain`, `RfcCases`, `SignatureCases` | `PropsStandards` |
| whole API | `ApiExpr`, `SpecApi` | | `ApiRun`, `ApiMeaning`, `ApiCases` | `PropsApi` |
| smaller types | `PointSpec` | | `ScalarIndexFacts`, `AffineFacts`, `EncodingFacts` | `PropsTypes` |
| secrets | `TraceSpec`, `TraceSpec64` | | `StepPlain`, `StepRelWords`, `StepRelCurve`, `StepRelFiat`, `TraceLogic`, `TraceLogicWords`, `TraceScalar`, `TraceFacts`, `TraceMain`, `TraceWords`, `TraceFiat`, `TraceCases`, `TraceFiatCases` | `PropsTrace` |
| Decaf and integers modulo l | `SpecExponent` | | `ExponentMain` | `PropsExponent` |
| orders, zeros and keys | `SpecTwist`, `SpecExponent` | `Bls`, `TwistPrime`, `EdStructure`, `MontOrder` | `TwistMain` | `PropsTwist` |
| the crate's tests | | `DecafNum` | `RepoVectors`, `RepoTestsMain` | `PropsTests` |
| spellings of operators | `SpecOps` | | `OpMain` | `PropsOps` |
| Debug output | `SpecDebug` | | `DebugMain` | `PropsDebug` |
| `subtle` | | | `SubtleMain` | `PropsSubtle` |
| `fiat-crypto` | | | `FiatMain` | `PropsFiat` |
| operation counts | `CostSpec` | | `CostMain`, `CostFiat`, `CostCases` | `PropsCost` |
| word operations of whole functions | `CostSpec` | | `WeighLogic`, `WeighLogic64`, `WeighMain`, `WeighScalar`, `WeighInst`, `WeighCases` | `PropsWeigh` |
| release builds | `ReleaseSpec` | | `ReleaseLogic`, `ReleaseMain` | `PropsRelease` |
| steps of release builds | `ReleaseStepsSpec` | | `ReleaseSteps` | `PropsReleaseSteps` |
| debug assertion of `subtle` | `AssertSpec` | | `AssertMain` | `PropsAssert` |
| maps between the curves | | `MapTheory` | `MapMain` | `PropsMaps` |
| == and Hash | `EqSpec` | | `EqMain` | `PropsEq` |
| features | `SpecFeatures` | | `FeatureMain` | `PropsFeatures` |
| width of integers | `WidthSpec` | | `WidthMain` | `PropsWidth` |
| what a signature shows | `Signature`, `SpecSignature` | | `SignatureLog` | `PropsSignature` |
| limbs out of range | `RoomSpec` | | `RoomMul`, `RoomSquare`, `RoomOne`, `RoomMain` | `PropsRoom` |
| strings of a value | `SpecCount` | | `CountStrings`, `CountTotals` | `PropsCount` |
| tests for being on the curve | | | `CurveChecks` | `PropsOnCurve` |
| what a Montgomery multiplication loses | `SpecFibre`, `SpecCount` | `FibreTheory` | `FibreMain` | `PropsFibre` |
| what Edwards and Decaf multiplications lose | `SpecCount`, `SpecExponent`, `SpecRfc8032` | | `FibreGroup` | `PropsFibreGroup` |
| secrets behind one key | `SpecCount`, `SpecTwist`, `SpecMontgomery` | | `KeyCount` | `PropsKeyCount` |
| key agreement among several parties | `SpecChain`, `SpecTwist`, `SpecMontgomery` | | `ChainMain` | `PropsChain` |
| signature checks with a step left out | `SpecVariants`, `SpecRfc8032`, `SpecCount` | `SignatureVariants` | `VariantMain` | `PropsVariants` |
| many signatures checked at once | `SpecBatch`, `SpecRfc8032`, `SpecSignature`, `SpecCount` | `SignatureBatch` | `BatchMain` | `PropsBatch` |
| protocols over Decaf | `SpecProtocols`, `SpecExponent`, `SpecCount` | | `ProtocolMain` | `PropsProtocols` |
| a shared secret | `SpecShares`, `SpecExponent` | | `PolyTheory`, `SharesMain` | `PropsShares` |
| Edwards programs modulo 4 l | `SpecExponentEd` | | `ExponentEd` | `PropsExponentEd` |
| Every program as integers | `SpecGeneric` | | `GenericMain` | `PropsGeneric` |
| width of integers, strong reduction | `WidthScalarSpec` | | `WidthReduce` | `PropsWidthReduce` |
| width of integers, scalars | `WidthScalarSpec` | | `WidthScalar` | `PropsWidthScalar` |
| remarks in comments | | | `DocsField`, `DocsCurve`, `DocsMain`, `DocsCost`, `DocsCases` | `PropsDocs` |

There was no network: the constants and the two test vectors of RFC 9496 in `SpecDecaf.v` and `RfcVectors.v` were written
down from memory. Every constant is pinned by an equation proved beside it (e.g. the square of the inverse square
root), and the two vectors are proved to be the encodings of 2B and 3B, so a slip of memory could not go unnoticed there.

RFC 7748 and RFC 8032 were also written down from memory. Outside the build, the definitions of `SpecRfc7748.v` were evaluated
in Coq on the first X448 vector and gave the published result. The first Ed448 signature vector was recomputed by a separate
script (public key, R and S all agree); inside the build, `C66_case` proves its S.

## Plan per property

* C01, C12: limbs and bytes as lists of `Z`; induction on lists.
* C02: byte value < l iff `sub_extra` leaves the candidate unchanged.
* C03-C06: ripple-carry lemma for the two loops; exact value of `sub_extra` for every input and carry. C05 and C06 are
  false in general: exact domain theorem plus `_refuted` witness.
* C07: Montgomery loop invariant `2^(32 i) * acc = x_low * y + k*l`; final bound < 2l. R2 by computation.
* C08: loop control of `invert` does not depend on the scalar; exponent tracking gives s^(l-2); Fermat for prime l.
* C09, C10: same lemmas. C11: counting byte strings by residue class.
* C13: part of every scalar theorem (results are `Ok`).
* C14: from C03, C04, C07, C08.
* C15, C16: limb bounds invariant (each limb < 2^28 + 2^9), value lemma per operation, lifted to expression trees.
* C17: an API program (a tree of public calls, plain data may be fed back through arbitrary caller code, `ApiExpr.v`)
  returns the same data over both backends.
* C18: exponents of both addition chains, Fermat and Euler criterion for p.
* C19-C24: completeness from d non-square; polynomial identities by `field`/`ring`.
* C25, C33-C35: isogeny identities, digit recoding, table invariant; twisted-curve arithmetic is shown safe on the
  subgroup of points with 1+x^2 a square ("even" points).
* C26, C31, C32: order of the generator by computation, primality of l, counting of points.
* C27-C30: square root spec and sign choice; C30 is false, refuted with a generic family of witnesses.
* C36-C41: Montgomery curve group via complete Edwards curves; ladder invariant. C37 and the general form of C41 are
  false, refuted.
* C42-C50: Jacobi-quartic parametrisation of even points modulo the 2-torsion point.
* C51: `todo!()` is `Panic`. C52: no API program panics.
* C53: a run-to-output model has no notion of time. So the code is written once more as a sequence of steps over an interface
  (`Steps.v`): an operation on field elements or machine words is a step, and so is each `if`, `&&`, `||` and early `return` on data.
  Over the plain interface this is the code of the models (proved). Over the tracing one a run leaves the list of its steps in
  order, each operation with the expressions of its operands, and computes the same results (proved). Relational
  interpretations (one lemma per function) give: two runs that differ in secrets leave the same list. Once at the level of
  field operations (any backend), once at the level of machine words (both backends, the 64-bit one with fiat-crypto as in
  `FiatCode.v`; scalars; `subtle`). For the decoders, whose
  branches do depend on the string, an exact statement of what the list shows. Partial: says nothing of compiled code or of time itself.
* C54: evaluation of the constants. C55: as C34. C56: false, refuted.
* C57, C58: consequences of the ladder theorem (bits 0, 1 of a clamped secret are clear, so the missing swap is not missed).
* C59: the RFC's decaf448 lives on Ed448, the crate's on the twist; the isogeny between them carries one encoding to the
  other.
* C60: `SpecApi.meaning` gives each API program a value using only integers modulo l, curve points and byte strings (no
  model function); the run of the program returns something that stands for that value.
* C61: induction on the words. C62: as C19, on affine coordinates.
* C63: uniqueness of the Decaf encoding (C43, C44). False for `MontgomeryPoint`: exact theorem and refutation.
* C64: the crate's ladder and the RFC's go through the same values; the missing swap does not matter for even scalars.
* C65: the crate's square root against the RFC's candidate root `u^3 v (u^5 v^3)^((p-3)/4)` and its check; exactness from uniqueness of encodings.
* C66: C25, C65 and the scalar theorems; [4][k]A only depends on k modulo l because [4]A has order dividing l.
* C67: by C53 a run leaves the same list of steps as the run over field elements that carry nothing, which can be computed and counted.
* C68: C60 and the group of classes (C48): induction on the element, one congruence per operation.
* C69: each test follows from the theorems about the functions it calls, applied to its vectors; equations between literals are
  checked by computation. It validates the model against what the authors expect of the code.
* C70, C71: Curve448 and its twist are isomorphic to complete Edwards curves. l annihilates four times the point with u = 5 (the
  ladder on Ed448 says so), which fixes the order of the curve; the two curves have 2p + 2 points together, which gives the order of
  the twist; Lagrange and the primality of l' then give the structure of the twist. l' - 1 is factored only in part, hence `Bls.v`.
* C72: a small evaluator with Rust's rules (implementation by operand types; methods of the type before those of traits; receiver as it is,
  borrowed, dereferenced); all implementations are run through by cases, expressions by induction.
* C73: texts are sequences of constant pieces and numbers; a number is always followed by a non-digit.
* C74: masks and borrows, for every width of word.
* C75: bounds of each limb through products, sums and carries; values by `ring` modulo p = X^8 - X^4 - 1, X = 2^56.
* C78: a third logic for the lemmas behind C53: a run on words against a computation that only adds up what each function of the field and of the
  scalars costs (from C67), and is told which way branches go. That computation can be carried out.
* C79: a fourth logic for the same lemmas: where the debug run returns, the release run returns the same. Programs return by C52.
* C80: the same logic, for a run that checks every `Choice::from` against one that does not. Only seven functions make a
  `Choice` of a word; the rest of the code is convertible with the unchecked one.
* C81: a fifth logic: where the debug run returns, the release run left the same list of steps. What C53 shows of that list carries over.
* C82: kernels and images of the three maps, from the structure of the two groups (C77) and, for the u-coordinate, from the quadratic equation
  u gives for x^2: the product of its roots is not a square.
* C83: every comparison compares images under a function, so it is an equivalence; a hasher that records its input separates different points.
* C84: the features that are on are closed under implication; name resolution depends on seven booleans, and all cases are computed.
* C85: the code of `mul28` runs on a machine with `w`-bit integers in place of i128; intervals, in units of the square of the limb bound, for every intermediate value; one operand each shows that a bit less is not enough.
* C86: the curve is the group of the base point times the torsion of order 4, so acceptance is a linear equation modulo l in the logarithms; the rest is arithmetic modulo the prime l.
* C87: the steps of the proofs for C15 again, with wider bounds; one operand each just beyond the bound; for the operands of `mul` the product with one, whose error is a small combination of powers of two and so no multiple of p.
* C88: numbers below 2^448 with a given residue are counted; C29, C42 to C44, C57, C07 and C02 say which strings those are. The totals from C31 and C68. The distance in C11 from the exact count for each scalar.
* C89: with Z = 0 the two equations leave a square equal to d times a square, and d is not one (on the twisted curve -d).
* C90: the code of StepScalar.v on a machine with narrower integers; the carry chains stay in {0, 1} or {-1, 0}; what a narrow machine returns a wider one returns (relation of ReleaseLogic), and l - 2, 0 and 1 show that a bit less is not enough.
* C91: points with the same multiple differ, up to sign, by a point of order 2 or 4 (kernel of C70); adding the point of order 2 inverts u; fibres of one size give the number of results.
* C92: the points are the multiples of G + T4, of order 4 l, and the Decaf strings those of the generator, of order l; the rest is arithmetic modulo the order.
* C93: clamping is arithmetic on the value (the low two bits go, bit 447 is set), so eight strings clamp to each value; the two secrets of one result are known from C71, and one of each pair is chosen to count the results.
* C94: each multiplication takes a point of the curve or the twist to a multiple, so a chain multiplies by the product; the rest is C70 and C71 for the product. `chain` is written over the crate's operator and is not in the crate.
* C95: points split into a multiple of the base point and a multiple of the point (1, 0) of order 4, which the direct equation sees and the one times 4 does not; the numbers are those of C88 added up over the four points. The three checks are written over the crate's API and are not in the crate.
* C96: the two sums have logarithms that differ by the weighted sum of what the signatures miss by; l is prime, so one scalar solves the equation. The check is written over the API and is not in the crate, and how a user draws the scalars is not modelled.
* C97: C68 turns each protocol into an equation modulo l; linear equations modulo a prime have one solution. The protocols are written over the API and are not in the crate, and how a user draws scalars is not modelled.
* C98: a polynomial modulo a prime has no more roots than its degree, so Lagrange's formula and the coefficients behind given shares are unique (`PolyTheory.v`); C68 carries this to strings. The sharing is written over the API and is not in the crate, and how a user draws coefficients is not modelled.
* C99: the curve is cyclic of order 4 l (C48, C92), so by C60 a program over Edwards points is an integer expression modulo 4 l. Sums of iterators are not in these programs (C23 has them), and the programs do not branch on results (C60 has those).
* C100: the specification (`integers`) is C60's `meaning` with each point replaced by its integer; a received string becomes the integer it stands for, found by search, which no one can run. Points given to a program are its own results or received strings, so every point has such an integer. Points in projective Montgomery form have no integer and stay as C60 has them.
* C101: both curves are cyclic of order 4 l (a point of order l and one of order 4, counted in C70), so a u-coordinate is an integer modulo 4 l up to sign, with 0 and 2 l sharing the coordinate 0. Generators exist but are not computed: the integer behind a string cannot be found in practice. The multiplier is the next even number, the ladder's known fault (C37).
* C102: the ladder's step doubles and adds on both forms (Ladder.v, LadderMont.v), so by induction the Edwards multiples of a point and the Montgomery multiples of its image have the same coordinates; comparing which integers they identify (C99, C101) shows that the image of the Edwards generator is twice a generator of Curve448. That generator exists and is not computed. Mixed key agreement (Edwards public keys, ladder secrets) follows by comparing the two integers.
* C76, C77: remarks in comments, taken as statements. The twisted curve is counted by its classes modulo (0, -1) and by adding a point at
  infinity, which exchanges points with 1 + x^2 a square and the others.

## Seeded faults

`seeded/LOG.jsonl` records edits of a scratch copy of the model. In that copy every lemma whose proof breaks is closed by a
scratch axiom, and a property theorem counts as failed when `Print Assumptions` then shows that axiom: its proof no longer
goes through for the edited program.

How to read it: `theorems_failed` lists more than the theorems that the edit makes false. A theorem is listed as soon as its
proof uses a lemma that broke, also if its own statement stays true (with edit O02, for example, `C102_mixed_even` is still
true and is listed). An entry therefore shows that the edit does not pass unnoticed; that the statement named in `claim` is
false of the edited program was judged by reading, not proved. Entries whose `file` is a `Spec*.v` edit a specification, not
the code's model: they check that the theorems pin the specification down. A proof can also break for an edit that
changes nothing; such edits were avoided when choosing them. A proof step that takes longer than 200 seconds in the scratch
build counts as broken. Three edits whose run did not
finish (Z12, J13, NB05) show nothing either way and are marked inconclusive. M61, T09 and U40 survived at first, and the theorems in
`theorems_tightened` were added because of them.

## Axioms

`Print Assumptions` says "Closed under the global context" for every theorem named in `MANIFEST.json`: no axioms, neither
ours nor the standard library's.

## Found in the code

* The Montgomery ladder misses the last conditional swap: wrong for scalars whose lowest bit is set (C37); harmless for X448 (C58).
* Scalar addition and subtraction do not reduce unreduced operands (C05, C06).
* `CompressedEdwardsY::decompress` accepts non-canonical encodings (C30, C65).
* `MontgomeryPoint::is_low_order` misses the encodings p and p+1 (C41).
* `AffineNielsPoint` is missing a factor two and converts back wrongly (C56; unused).
* `==` on scalars compares representatives; three public functions are `todo!()` (C51).
* `==` on `MontgomeryPoint` compares bytes: u and u + p differ under it although every operation treats them alike (C63).
* A rejected Decaf encoding shows why it was turned down: not below p, odd, or no such point, because checks return early (C53).
* `Debug` of `Scalar` prints the secret in full (C73).
* Comments only: `BASEPOINT_ORDER` in constants.rs is described as 2^446 + 0x8335..., it is minus; the table of wnaf/mod.rs is
  described as odd multiples, it holds P, 2P, ..., 8P.
* Tests only: `test_isogeny` of twedwards/extended.rs takes a point of the Edwards curve as a point of the twisted one, where it does
  not lie; the compared formulas happen to agree there too (C69).
