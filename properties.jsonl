{"id": "C01", "title": "Scalar byte encoding is a bijection", "statement": "Scalar::to_bytes(Scalar::from_bytes(b)) == b for every 56-byte string, Scalar::from_bytes(s.to_bytes()) gives back s for every scalar, the bytes are the little-endian encoding of the scalar's integer value, and two scalars compare equal with == exactly when they hold the same integer.", "quantifier": "every 56-byte string; every scalar value, reduced or not", "why_tests_cant": "there are 2^448 encodings; tests sample a handful", "anchors": ["src/field/scalar.rs:Scalar::from_bytes", "src/field/scalar.rs:Scalar::to_bytes", "src/field/scalar.rs:ConstantTimeEq for Scalar", "src/field/scalar.rs:PartialEq for Scalar"]}
{"id": "C02", "title": "from_canonical_bytes accepts exactly the canonical encodings", "statement": "Scalar::from_canonical_bytes(b) is Some(s) exactly when the 57-byte little-endian integer b is below the group order l, and then s holds that integer; to_bytes_rfc_8032 of the result returns b. For every scalar below l, to_bytes_rfc_8032 followed by from_canonical_bytes gives it back.", "quantifier": "every 57-byte string; every scalar", "why_tests_cant": "the acceptance boundary sits at one integer out of 2^456; a sampled test cannot establish an exact if-and-only-if", "anchors": ["src/field/scalar.rs:Scalar::from_canonical_bytes", "src/field/scalar.rs:Scalar::to_bytes_rfc_8032"]}
{"id": "C03", "title": "Scalar addition is addition modulo the group order", "statement": "For canonical scalars a and b, a + b is the canonical scalar (a + b) mod l.", "quantifier": "every pair of scalars below l", "why_tests_cant": "limb carries and the conditional subtraction depend on rare limb patterns", "anchors": ["src/field/scalar.rs:Add for Scalar", "src/field/scalar.rs:add", "src/field/scalar.rs:sub_extra"]}
{"id": "C04", "title": "Scalar subtraction is subtraction modulo the group order", "statement": "For canonical scalars a and b, a - b is the canonical scalar (a - b) mod l.", "quantifier": "every pair of scalars below l", "why_tests_cant": "borrow propagation across 14 limbs has rare patterns", "anchors": ["src/field/scalar.rs:Sub for Scalar", "src/field/scalar.rs:sub_extra"]}
{"id": "C05", "title": "Scalar addition on unreduced scalars", "statement": "For any scalars built by the public Scalar::from_bytes, a + b is congruent to the integer sum modulo l. (False in general: the model gives the exact set of inputs on which it holds.)", "quantifier": "every pair of 448-bit scalars", "why_tests_cant": "the failing inputs need a + b >= 2^448 + l, which random tests on reduced scalars never reach", "anchors": ["src/field/scalar.rs:Add for Scalar", "src/field/scalar.rs:sub_extra", "src/field/scalar.rs:Scalar::from_bytes"]}
{"id": "C06", "title": "Scalar subtraction on unreduced scalars", "statement": "For any scalars built by the public Scalar::from_bytes, a - b is congruent to the integer difference modulo l. (False in general: the model gives the exact set of inputs on which it holds.)", "quantifier": "every pair of 448-bit scalars", "why_tests_cant": "the failing inputs need b > a + l, never reached from reduced scalars", "anchors": ["src/field/scalar.rs:Sub for Scalar", "src/field/scalar.rs:sub_extra", "src/field/scalar.rs:Scalar::from_bytes"]}
{"id": "C07", "title": "Scalar multiplication is exact and canonical for every input", "statement": "For all scalars a and b, reduced or not, a * b is the canonical scalar (a * b) mod l.", "quantifier": "every pair of 448-bit scalars", "why_tests_cant": "Montgomery reduction's final carry and conditional subtraction are hit with negligible probability by random tests", "anchors": ["src/field/scalar.rs:Mul for Scalar", "src/field/scalar.rs:montgomery_multiply"]}
{"id": "C08", "title": "Scalar inversion", "statement": "For every scalar s that is not a multiple of l, s.invert() * s == Scalar::one() and s.invert() is canonical; for multiples of l, invert returns zero.", "quantifier": "every 448-bit scalar", "why_tests_cant": "correctness is an algebraic identity over the whole field", "anchors": ["src/field/scalar.rs:Scalar::invert", "src/field/scalar.rs:montgomery_multiply"]}
{"id": "C09", "title": "Scalar halving", "statement": "For every scalar s, 2 * s.halve() is congruent to s modulo l, with no lost carry; if s is canonical then s.halve() is canonical.", "quantifier": "every 448-bit scalar", "why_tests_cant": "the top carry bit only matters for unreduced inputs", "anchors": ["src/field/scalar.rs:Scalar::halve"]}
{"id": "C10", "title": "Wide reduction", "statement": "Scalar::from_bytes_mod_order_wide(b) is the canonical scalar congruent modulo l to the 912-bit little-endian integer b.", "quantifier": "every 114-byte string", "why_tests_cant": "2^912 inputs; the two top bytes and internal unreduced halves need case coverage no test gives", "anchors": ["src/field/scalar.rs:Scalar::from_bytes_mod_order_wide"]}
{"id": "C11", "title": "Random scalars are as uniform as 114 uniform bytes allow", "statement": "Scalar::random maps the 114 bytes drawn from the RNG so that every canonical scalar is hit by either floor(2^912/l) or floor(2^912/l)+1 byte strings, and no other scalar is ever produced. The statistical distance from uniform is exactly r (l - r) / (l 2^912) with r = 2^912 mod l, less than 2^-468.", "quantifier": "every canonical scalar; all byte strings the RNG can return", "why_tests_cant": "a distributional claim over 2^912 strings", "anchors": ["src/field/scalar.rs:Scalar::random", "src/field/scalar.rs:Scalar::from_bytes_mod_order_wide"]}
{"id": "C12", "title": "bits() is the binary expansion", "statement": "s.bits() has exactly 448 entries, least significant first, and they are the binary digits of the scalar's integer value.", "quantifier": "every 448-bit scalar", "why_tests_cant": "2^448 inputs", "anchors": ["src/field/scalar.rs:Scalar::bits"]}
{"id": "C13", "title": "Scalar operations never overflow or panic", "statement": "In debug mode (overflow checks on) no public scalar operation panics, so debug and release builds compute the same results: from_bytes, to_bytes, +, -, *, halve, invert, bits, from_canonical_bytes, from_bytes_mod_order_wide.", "quantifier": "every scalar and byte string", "why_tests_cant": "overflow checks trip only on extreme limb values", "anchors": ["src/field/scalar.rs:add", "src/field/scalar.rs:sub_extra", "src/field/scalar.rs:montgomery_multiply", "src/field/scalar.rs:Scalar::invert", "src/field/scalar.rs:Scalar::halve"]}
{"id": "C14", "title": "Canonical scalars form the field Z/l", "statement": "Under the public +, -, *, invert, zero and one, canonical scalars satisfy the field laws: associativity, commutativity, distributivity, identities, additive and multiplicative inverses.", "quantifier": "every triple of canonical scalars", "why_tests_cant": "algebraic laws over all triples", "anchors": ["src/field/scalar.rs:Add for Scalar", "src/field/scalar.rs:Sub for Scalar", "src/field/scalar.rs:Mul for Scalar", "src/field/scalar.rs:Scalar::invert", "src/field/scalar.rs:Scalar::one", "src/field/scalar.rs:Scalar::zero"]}
{"id": "C15", "title": "Field arithmetic is exact for every sequence of operations (u32 backend)", "statement": "Starting from any decoded bytes, any finite sequence of add, sub, mul, square, negate, conditional negate/select computes the exact result in the integers modulo p = 2^448 - 2^224 - 1, with no overflow, no panic and no lost carry.", "quantifier": "every expression tree over field operations and every leaf value", "why_tests_cant": "limb-size invariants must hold for all operation sequences; the source itself says 'need to check bounds'", "anchors": ["src/field/u32/prime_field.rs:Add", "src/field/u32/prime_field.rs:Sub", "src/field/u32/prime_field.rs:negate", "src/field/u32/prime_field.rs:bias", "src/field/u32/prime_field.rs:weak_reduce", "src/field/u32/prime_field.rs:add_no_reduce", "src/field/u32/prime_field.rs:sub_no_reduce", "src/field/u32/karatsuba.rs:mul", "src/field/u32/karatsuba.rs:square"]}
{"id": "C16", "title": "Field serialisation is canonical and its assertions never fire (u32 backend)", "statement": "to_bytes of any reachable field element is the 56-byte little-endian encoding of its value in [0, p), so equality is exactly equality of values, and the two assert! checks in strong_reduce never fail; from_bytes decodes any 56 bytes to their value modulo p.", "quantifier": "every reachable field element; every 56-byte string", "why_tests_cant": "values in [p, 2p) after weak reduction are hit with probability about 2^-224", "anchors": ["src/field/u32/prime_field.rs:to_bytes", "src/field/u32/prime_field.rs:from_bytes", "src/field/u32/prime_field.rs:strong_reduce", "src/field/u32/prime_field.rs:is_negative", "src/field/mod.rs:ConstantTimeEq for FieldElement"]}
{"id": "C17", "title": "The two field backends are interchangeable", "statement": "For every public operation and every input, a build with u32_backend and a build with fiat_u64_backend return the same bytes and the same booleans, given that the fiat-crypto primitives meet their documented contract.", "quantifier": "all inputs of every public operation, both backends", "why_tests_cant": "tests compile one backend at a time", "anchors": ["src/field/u32/prime_field.rs:FieldElement28", "src/field/fiat_u64/prime_field.rs:FieldElement56", "src/field/mod.rs:FieldElement", "src/field/u32/constants.rs:*", "src/field/fiat_u64/constants.rs:*"]}
{"id": "C18", "title": "Field inversion and square roots", "statement": "invert returns the inverse of every non-zero element and zero for zero; inverse_square_root reports residue exactly for non-zero squares and then returns r with r^2 * x = 1; sqrt_ratio(u, v) reports success exactly when u = 0 or u/v is a non-zero square, and then returns r with v * r^2 = u (v non-zero).", "quantifier": "every field element (pair)", "why_tests_cant": "algebraic identity over 2^448 elements; relies on the exponents computed by long addition chains", "anchors": ["src/field/mod.rs:invert", "src/field/mod.rs:inverse_square_root", "src/field/mod.rs:sqrt_ratio", "src/field/mod.rs:square_n"]}
{"id": "C19", "title": "Every point the API can produce is a valid curve point", "statement": "Every ExtendedPoint obtained from identity, generator, decompress and any sequence of add, sub, negate, double, torque, scalar multiplication and sums satisfies the curve equation with Z non-zero and T*Z = X*Y; in particular the affine conversion is always defined.", "quantifier": "every finite sequence of API calls and every input", "why_tests_cant": "invariant over unbounded call sequences", "anchors": ["src/curve/edwards/extended.rs:ExtendedPoint", "src/curve/edwards/extended.rs:CompressedEdwardsY::decompress", "src/curve/edwards/extended.rs:is_on_curve"]}
{"id": "C20", "title": "Edwards points form an abelian group under the public operators", "statement": "Under ==, + is associative and commutative, identity is neutral, and P + (-P) == identity.", "quantifier": "all triples of reachable points, including points with torsion", "why_tests_cant": "associativity of the Edwards law is a polynomial identity no sample establishes", "anchors": ["src/curve/edwards/extended.rs:Add for ExtendedPoint", "src/curve/edwards/extended.rs:Neg for ExtendedPoint", "src/curve/edwards/extended.rs:identity"]}
{"id": "C21", "title": "== on Edwards points is equality of points and a congruence", "statement": "P == Q holds exactly when they are the same affine point; == is an equivalence and replacing an argument by an equal point (other projective representative) never changes the outcome of any public operation up to ==, nor any byte output.", "quantifier": "all pairs of reachable points and all operations", "why_tests_cant": "projective representatives are infinite in number per point", "anchors": ["src/curve/edwards/extended.rs:ConstantTimeEq for ExtendedPoint", "src/curve/edwards/extended.rs:PartialEq for ExtendedPoint"]}
{"id": "C22", "title": "Point addition implements the Edwards law with no exceptional case", "statement": "P + Q is the affine Edwards sum for every pair of valid points: equal points, opposite points, the identity and low-order points included.", "quantifier": "all pairs of valid points", "why_tests_cant": "completeness depends on d being a non-square; tests cannot enumerate pairs", "anchors": ["src/curve/edwards/extended.rs:ExtendedPoint::add", "src/curve/edwards/extended.rs:ExtendedPoint::double"]}
{"id": "C23", "title": "Subtraction, doubling, assignment operators and sums agree with addition", "statement": "P - Q == P + (-Q), P.double() == P + P, and iter.sum() is the sum of all elements independent of order and grouping.", "quantifier": "all points; all finite sequences of points", "why_tests_cant": "quantifies over lists of every length", "anchors": ["src/curve/edwards/extended.rs:Sub for ExtendedPoint", "src/curve/edwards/extended.rs:Sum for ExtendedPoint", "src/curve/edwards/extended.rs:double"]}
{"id": "C24", "title": "torque adds the 2-torsion point", "statement": "P.torque() == P + (0,-1), and torque twice is the identity map.", "quantifier": "all points", "why_tests_cant": "universal claim", "anchors": ["src/curve/edwards/extended.rs:ExtendedPoint::torque"]}
{"id": "C25", "title": "Scalar multiplication computes [s]P exactly", "statement": "P.scalar_mul(s), P * s and s * P give P added to itself s times, for every valid point including those with a torsion component and every 448-bit scalar, reduced or not.", "quantifier": "all points, all 448-bit scalars", "why_tests_cant": "2^896 input pairs; mixes isogenies, signed digits, table lookups and a mod-4 correction", "anchors": ["src/curve/edwards/extended.rs:scalar_mul", "src/curve/edwards/extended.rs:scalar_mod_four", "src/curve/edwards/extended.rs:Mul<&Scalar> for &ExtendedPoint", "src/curve/scalar_mul/variable_base.rs:variable_base"]}
{"id": "C26", "title": "Scalar arithmetic matches point arithmetic on the prime-order subgroup", "statement": "For torsion-free P and canonical scalars a, b: P*(a+b) == P*a + P*b, P*(a*b) == (P*a)*b, P*(a-b) == P*a - P*b, and for a non-zero P*a*(a.invert()) == P.", "quantifier": "all torsion-free points, all canonical scalars", "why_tests_cant": "universal algebraic claim; depends on the order of the subgroup", "anchors": ["src/curve/edwards/extended.rs:scalar_mul", "src/field/scalar.rs:Add for Scalar", "src/field/scalar.rs:Mul for Scalar", "src/field/scalar.rs:Sub for Scalar", "src/field/scalar.rs:Scalar::invert"]}
{"id": "C27", "title": "Edwards compression round trip", "statement": "P.compress().decompress() is Some(Q) with Q == P for every valid point, and compress returns 57 bytes whose first 56 are the canonical y and whose last is 0x00 or 0x80.", "quantifier": "every valid point", "why_tests_cant": "sign and square-root choices over the whole curve", "anchors": ["src/curve/edwards/extended.rs:compress", "src/curve/edwards/extended.rs:CompressedEdwardsY::decompress"]}
{"id": "C28", "title": "Edwards compression is injective", "statement": "P.compress() and Q.compress() are the same bytes exactly when P == Q.", "quantifier": "all pairs of valid points", "why_tests_cant": "injectivity over 2^446 points", "anchors": ["src/curve/edwards/extended.rs:compress", "src/curve/edwards/extended.rs:PartialEq for ExtendedPoint"]}
{"id": "C29", "title": "Edwards decompression acceptance is exactly characterised", "statement": "decompress(b) is Some exactly when the curve has a point whose y is the first 56 bytes modulo p; the result is the point with that y whose x has the requested sign (when x is not zero).", "quantifier": "every 57-byte string", "why_tests_cant": "exact accept/reject frontier over 2^456 strings", "anchors": ["src/curve/edwards/extended.rs:CompressedEdwardsY::decompress"]}
{"id": "C30", "title": "Edwards decompression rejects non-canonical encodings", "statement": "Every accepted 57-byte string re-encodes to itself (as RFC 8032 decoding requires). (False: y >= p, stray low bits in the last byte, and a sign bit with x = 0 are accepted; the model shows exactly which accepted strings re-encode to themselves.)", "quantifier": "every 57-byte string", "why_tests_cant": "needs inputs no honest encoder produces", "anchors": ["src/curve/edwards/extended.rs:CompressedEdwardsY::decompress", "src/curve/edwards/extended.rs:compress"]}
{"id": "C31", "title": "is_torsion_free decides membership in the prime-order subgroup", "statement": "P.is_torsion_free() is true exactly when P is a multiple of the generator, equivalently when [l]P is the identity; the curve has exactly 4*l points.", "quantifier": "every valid point", "why_tests_cant": "order of the group is a global fact", "anchors": ["src/curve/edwards/extended.rs:is_torsion_free", "src/constants.rs:BASEPOINT_ORDER"]}
{"id": "C32", "title": "The generator has order l", "statement": "ExtendedPoint::generator() is a valid point, [n]generator is the identity exactly when l divides n, and is the same affine point in both backends (the RFC 8032 base point).", "quantifier": "every integer n", "why_tests_cant": "requires proving the order, not sampling multiples", "anchors": ["src/field/u32/constants.rs:GOLDILOCKS_BASE_POINT", "src/field/fiat_u64/constants.rs:GOLDILOCKS_BASE_POINT", "src/curve/edwards/extended.rs:generator"]}
{"id": "C33", "title": "The isogeny pair multiplies by four", "statement": "P.to_twisted().to_untwisted() == [4]P for every valid point, both maps respect addition, and their denominators never vanish.", "quantifier": "every valid point", "why_tests_cant": "rational-function identity on the curve", "anchors": ["src/curve/edwards/extended.rs:to_twisted", "src/curve/edwards/extended.rs:edwards_isogeny", "src/curve/twedwards/extended.rs:to_untwisted", "src/curve/twedwards/extended.rs:edwards_isogeny"]}
{"id": "C34", "title": "Windowed and bitwise scalar multiplication agree", "statement": "The signed radix-16 window method and plain double-and-add give the same multiple [s]P of every twisted-curve point they are called on, for every scalar; the recoding is exact with digits in [-8, 8) (top digit 0 or 1), and table lookup returns exactly the requested multiple.", "quantifier": "all scalars, all points, all table indices", "why_tests_cant": "digit recoding carries chain across 112 positions", "anchors": ["src/curve/scalar_mul/variable_base.rs:variable_base", "src/curve/scalar_mul/double_and_add.rs:double_and_add", "src/field/scalar.rs:to_radix_16", "src/curve/scalar_mul/window/wnaf/mod.rs:LookupTable"]}
{"id": "C35", "title": "scalar_mod_four selects the right multiple", "statement": "P.scalar_mod_four(s) == [s mod 4]P.", "quantifier": "all points, all scalars", "why_tests_cant": "universal claim", "anchors": ["src/curve/edwards/extended.rs:scalar_mod_four"]}
{"id": "C36", "title": "Montgomery ladder agrees with Edwards scalar multiplication", "statement": "(P.to_montgomery()) * s == (P * s).to_montgomery() for every valid point and every even scalar.", "quantifier": "all points, all even 448-bit scalars", "why_tests_cant": "links two curve models through a 4-isogeny", "anchors": ["src/curve/montgomery/montgomery.rs:Mul<&Scalar> for &MontgomeryPoint", "src/curve/montgomery/montgomery.rs:differential_add_and_double", "src/curve/edwards/extended.rs:to_montgomery"]}
{"id": "C37", "title": "Montgomery ladder is correct for odd scalars", "statement": "(P.to_montgomery()) * s == (P * s).to_montgomery() for every odd scalar. (False: the final conditional swap is missing, so the ladder returns the multiple by s + 1.)", "quantifier": "all points, all odd scalars", "why_tests_cant": "the crate's only ladder test uses the even scalar 200", "anchors": ["src/curve/montgomery/montgomery.rs:Mul<&Scalar> for &MontgomeryPoint"]}
{"id": "C38", "title": "Exact behaviour of the Montgomery ladder", "statement": "For every 56-byte u and every scalar s, u * s is the u-coordinate of [s + (s mod 2)] times any point of Curve448 or its twist with that u, where the point at infinity is written as 0.", "quantifier": "every 56-byte string, every 448-bit scalar", "why_tests_cant": "both the curve and its twist, low-order and non-canonical inputs", "anchors": ["src/curve/montgomery/montgomery.rs:Mul<&Scalar> for &MontgomeryPoint", "src/curve/montgomery/montgomery.rs:differential_add_and_double", "src/curve/montgomery/montgomery.rs:ProjectiveMontgomeryPoint::to_affine"]}
{"id": "C39", "title": "Montgomery Diffie-Hellman agreement", "statement": "(u * a) * b == (u * b) * a for every u and all scalars a, b.", "quantifier": "every 56-byte string, all pairs of scalars", "why_tests_cant": "2^1344 input triples, with infinity and low-order edge cases", "anchors": ["src/curve/montgomery/montgomery.rs:Mul<&Scalar> for &MontgomeryPoint"]}
{"id": "C40", "title": "Montgomery multiplication depends only on u mod p and has canonical output", "statement": "u * s equals u' * s whenever u and u' decode to the same value mod p, and the returned bytes encode an integer below p.", "quantifier": "every pair of 56-byte strings, every scalar", "why_tests_cant": "non-canonical encodings are never produced by honest code", "anchors": ["src/curve/montgomery/montgomery.rs:Mul<&Scalar> for &MontgomeryPoint", "src/curve/montgomery/montgomery.rs:to_projective"]}
{"id": "C41", "title": "is_low_order detects every input that a multiplication can collapse", "statement": "is_low_order(u) is true exactly when u * s is zero for every scalar s. (False for the two non-canonical encodings of 0 and 1; the model proves it for canonical encodings and refutes it in general.)", "quantifier": "every 56-byte string, every scalar", "why_tests_cant": "needs a universally quantified property of the ladder", "anchors": ["src/curve/montgomery/montgomery.rs:is_low_order", "src/curve/montgomery/montgomery.rs:LOW_A", "src/curve/montgomery/montgomery.rs:LOW_B", "src/curve/montgomery/montgomery.rs:LOW_C"]}
{"id": "C42", "title": "Decaf compression round trip", "statement": "P.compress().decompress() is Some(Q) with Q.equals(P) for every decaf point the API can produce.", "quantifier": "every reachable decaf point", "why_tests_cant": "sign choices and isogeny kernel make this a global algebraic fact", "anchors": ["src/decaf/decaf.rs:DecafPoint::compress", "src/decaf/decaf.rs:CompressedDecaf::decompress"]}
{"id": "C43", "title": "Decaf encoding is a function of the group element", "statement": "P.equals(Q) exactly when P.compress() and Q.compress() are the same bytes.", "quantifier": "all pairs of reachable decaf points", "why_tests_cant": "four curve points per group element, infinitely many projective representatives", "anchors": ["src/decaf/decaf.rs:DecafPoint::compress", "src/decaf/decaf.rs:DecafPoint::equals"]}
{"id": "C44", "title": "Decaf decoding accepts only canonical encodings", "statement": "If decompress(b) is Some(P) then P.compress() == b: there is one accepted encoding per group element.", "quantifier": "every 56-byte string", "why_tests_cant": "exact frontier over 2^448 strings", "anchors": ["src/decaf/decaf.rs:CompressedDecaf::decompress", "src/decaf/decaf.rs:DecafPoint::compress"]}
{"id": "C45", "title": "Decaf decoding acceptance is exactly characterised", "statement": "decompress(b) is Some exactly when b is the little-endian encoding of an integer s with 0 <= s < p, s even, s^2 != 1 mod p, and (1 - s^2)^2 + 156328 s^2 a non-zero square modulo p; these are exactly the encodings of decaf points and all other strings are rejected.", "quantifier": "every 56-byte string", "why_tests_cant": "exact accept/reject frontier", "anchors": ["src/decaf/decaf.rs:CompressedDecaf::decompress"]}
{"id": "C46", "title": "Decaf points form an abelian group under equals", "statement": "equals is an equivalence relation respected by +, -, negation and scalar multiplication; + is associative and commutative with neutral identity and inverses by negation.", "quantifier": "all triples of reachable decaf points", "why_tests_cant": "quotient group laws", "anchors": ["src/decaf/decaf.rs:DecafPoint::equals", "src/decaf/decaf.rs:DecafPoint::sub", "src/decaf/ops.rs:Add", "src/decaf/ops.rs:Sub", "src/decaf/ops.rs:Neg", "src/decaf/ops.rs:Mul"]}
{"id": "C47", "title": "Decaf scalar multiplication", "statement": "s * P is P added to itself s times for every 448-bit scalar; it depends only on s modulo l, and (a+b)*P equals a*P + b*P, (a*b)*P equals a*(b*P) for canonical scalars.", "quantifier": "all scalars, all reachable decaf points", "why_tests_cant": "universal claim", "anchors": ["src/decaf/ops.rs:Mul<&Scalar> for &DecafPoint", "src/curve/scalar_mul/double_and_add.rs:double_and_add"]}
{"id": "C48", "title": "The decaf group has prime order l", "statement": "[l]P equals the identity for every decaf point and every decaf point is a multiple of the generator.", "quantifier": "every reachable decaf point", "why_tests_cant": "global group-order fact", "anchors": ["src/decaf/decaf.rs:DecafPoint::generator", "src/constants.rs:DECAF_BASEPOINT"]}
{"id": "C49", "title": "Decaf arithmetic never meets an exceptional case", "statement": "The twisted curve's addition formulas are not complete, but every point the decaf API can produce lies in the subgroup on which all denominators are non-zero, so Z is never zero and results are valid points.", "quantifier": "every finite sequence of decaf API calls", "why_tests_cant": "the curve does have exceptional pairs; only an invariant excludes them", "anchors": ["src/curve/twedwards/extensible.rs:add_extended", "src/curve/twedwards/extensible.rs:sub_extended", "src/curve/twedwards/extensible.rs:double", "src/decaf/decaf.rs:DecafPoint"]}
{"id": "C50", "title": "The all-zero decaf string is the identity and only the identity", "statement": "DecafPoint::identity().compress() is all zeros, decompressing all zeros gives the identity, and P.compress() is all zeros only if P equals the identity.", "quantifier": "every reachable decaf point", "why_tests_cant": "uniqueness claim", "anchors": ["src/decaf/decaf.rs:CompressedDecaf::identity", "src/decaf/decaf.rs:DecafPoint::identity", "src/decaf/decaf.rs:compress", "src/decaf/decaf.rs:decompress"]}
{"id": "C51", "title": "Unimplemented functions", "statement": "MontgomeryPoint::to_edwards, RistrettoPoint::encode and CompressedRistretto::decode panic on every input; RistrettoPoint::equals is the same relation as decaf equality; the identities of RistrettoPoint and CompressedRistretto are the neutral element and its encoding, 56 zero bytes.", "quantifier": "every input", "why_tests_cant": "universal claim about a panic", "anchors": ["src/curve/montgomery/montgomery.rs:to_edwards", "src/ristretto/ristretto.rs:encode", "src/ristretto/ristretto.rs:decode", "src/ristretto/ristretto.rs:equals", "src/ristretto/ristretto.rs:identity"]}
{"id": "C52", "title": "No other public function panics", "statement": "Every public operation on field-backed types other than the three todo!() functions returns normally, with overflow checks on, for every input the API can supply (u32 backend; fiat backend given its contract).", "quantifier": "every public operation, every reachable input", "why_tests_cant": "absence of panics over all inputs", "anchors": ["src/curve/edwards/extended.rs:*", "src/decaf/decaf.rs:*", "src/curve/montgomery/montgomery.rs:*", "src/field/u32/prime_field.rs:strong_reduce", "src/field/u32/karatsuba.rs:mul", "src/field/u32/karatsuba.rs:square"]}
{"id": "C53", "title": "Constant-time execution", "statement": "Secret-dependent inputs do not influence timing or memory access patterns.", "quantifier": "all pairs of secret inputs, all programs over the public API, all observers", "why_tests_cant": "No test compares what two runs do between their inputs and outputs, let alone for every pair of secrets and every observer.", "anchors": ["src/curve/scalar_mul/window/wnaf/mod.rs:LookupTable::select", "src/curve/edwards/extended.rs:scalar_mod_four"]}
{"id": "C54", "title": "Curve constants are right in both backends", "statement": "d = -39081, the twisted d = -39082, their derived constants, both base points (on their curves, T = XY/Z) and the decaf factor have the documented values in both backends, and all constants meet the limb bounds the arithmetic needs.", "quantifier": "every constant, both backends", "why_tests_cant": "hard-coded limbs; wrong-by-a-carry limbs decode to plausible values", "anchors": ["src/field/u32/constants.rs:*", "src/field/fiat_u64/constants.rs:*"]}
{"id": "C55", "title": "Double-base multiplication", "statement": "double_base_scalar_mul(a, A, b) is [a]A + [b]B for the twisted base point B.", "quantifier": "all scalars, all points of the subgroup used", "why_tests_cant": "universal claim", "anchors": ["src/curve/scalar_mul/double_base.rs:double_base_scalar_mul"]}
{"id": "C56", "title": "Affine Niels points are a faithful cache", "statement": "Adding to_affine_niels(P) gives Q + P and converting back gives P. (False: the cached form is missing a factor two and its conversion to extended coordinates has a wrong T; crate-internal, currently unused.)", "quantifier": "all pairs of points", "why_tests_cant": "unused code, no test", "anchors": ["src/curve/twedwards/affine.rs:AffineNielsPoint", "src/curve/twedwards/affine.rs:to_affine_niels", "src/curve/twedwards/extensible.rs:add_affine_niels"]}
{"id": "C57", "title": "The Montgomery generator and the projective conversions", "statement": "ExtendedPoint::generator().to_montgomery() == MontgomeryPoint::generator(), and u.to_projective().to_affine() is the canonical encoding of u mod p for every 56-byte u.", "quantifier": "every 56-byte string", "why_tests_cant": "the conversion reduces every non-canonical encoding; tests look at a few", "anchors": ["src/curve/montgomery/montgomery.rs:generator", "src/curve/montgomery/montgomery.rs:to_projective", "src/curve/montgomery/montgomery.rs:ProjectiveMontgomeryPoint::to_affine", "src/curve/edwards/extended.rs:to_montgomery"]}
{"id": "C58", "title": "The ladder is X448 on clamped secrets", "statement": "For every 56-byte secret k clamped as in RFC 7748 and every 56-byte u, u * Scalar::from_bytes(clamp(k)) is the u-coordinate of [clamp(k)]P for any point P of Curve448 or its twist with that u: the missing final swap never shows on clamped secrets.", "quantifier": "every pair of 56-byte strings", "why_tests_cant": "needs the exact behaviour of the ladder for every input", "anchors": ["src/curve/montgomery/montgomery.rs:Mul<&Scalar> for &MontgomeryPoint", "src/field/scalar.rs:from_bytes"]}
{"id": "C59", "title": "Decaf interoperates with RFC 9496", "statement": "The crate's Decaf is decaf448 of RFC 9496, although it computes on another curve: a 56-byte string is accepted by decompress exactly when the RFC decodes it, two elements are equal exactly when the RFC says so, and every program over identity, generator, decompress, +, -, negation and scalar multiplication, followed by compress, produces the very bytes that the RFC's decode, encode and group law on Ed448 produce, on every backend.", "quantifier": "every 56-byte string, every valid point and corresponding point of Ed448, every program over the Decaf API", "why_tests_cant": "test vectors cover a handful of multiples of the generator; agreement of two different formulas on two different curves for all elements needs the isogeny between the curves and the sign choices on both sides", "anchors": ["src/decaf/decaf.rs:DecafPoint::compress", "src/decaf/decaf.rs:CompressedDecaf::decompress", "src/decaf/decaf.rs:ConstantTimeEq for DecafPoint", "src/decaf/ops.rs"]}
{"id": "C60", "title": "Every program over the public API computes what its operations mean", "statement": "For every well-formed program built from the public operations of the crate (scalars, Edwards, Montgomery, Decaf and the conversions between them, including decoding of arbitrary strings), the value the code returns stands for the value given by a specification written only with integers modulo the group order, points of the curves and byte strings, on every backend; byte strings and booleans are exactly those of the specification.", "quantifier": "every well-formed API program, every input, every backend", "why_tests_cant": "programs combine operations without bound; tests run a few fixed combinations", "anchors": ["src/lib.rs", "src/field/scalar.rs", "src/curve/edwards/extended.rs", "src/curve/montgomery/montgomery.rs", "src/decaf/decaf.rs"]}
{"id": "C61", "title": "Words of a scalar", "statement": "s[i] is word i of the integer s stands for and panics exactly when i >= 14; s[i] = w changes word i and no other, so the integer changes by (w - old) 2^(32 i), and panics exactly when i >= 14; Scalar::from(w) stands for w.", "quantifier": "every scalar, index and 32-bit word", "why_tests_cant": "no test reaches every index and word, or the panic", "anchors": ["src/field/scalar.rs:Index<usize> for Scalar", "src/field/scalar.rs:IndexMut<usize> for Scalar", "src/field/scalar.rs:From<u32> for Scalar"]}
{"id": "C62", "title": "Affine points of the twisted curve", "statement": "Addition, negation, equality and the identity of affine twisted points follow the group law, conversions to and from extended and extensible coordinates keep the point, the curve tests accept exactly the coordinates on the curve, and equality, selection and identity of cached affine points agree with the points they were made from.", "quantifier": "every valid affine point and pair of points; every reduced pair of coordinates for the tests", "why_tests_cant": "the group law must hold for every pair, including equal and opposite points", "anchors": ["src/curve/twedwards/affine.rs", "src/curve/twedwards/extended.rs:is_on_curve"]}
{"id": "C63", "title": "Equality of encoded points is equality of points", "statement": "== on CompressedDecaf, CompressedRistretto and MontgomeryPoint compares bytes, and two encodings compare equal exactly when they stand for the same element. True for accepted and for computed Decaf encodings; false for MontgomeryPoint, where u and u + p are different under == but have one u-coordinate and the same multiples; true there for canonical encodings.", "quantifier": "every pair of 56-byte strings, every pair of valid Decaf points", "why_tests_cant": "needs uniqueness of the encoding for every element; the failing pairs are one in 2^223", "anchors": ["src/decaf/decaf.rs:PartialEq for CompressedDecaf", "src/ristretto/ristretto.rs:PartialEq for CompressedRistretto", "src/curve/montgomery/montgomery.rs:PartialEq for MontgomeryPoint"]}
{"id": "C64", "title": "X448 is the function of RFC 7748", "statement": "Multiplying a Montgomery point by a clamped scalar gives, byte for byte, the function X448 of RFC 7748, written out as in section 5 of the RFC with integers modulo p, for every key and every u string (canonical or not); the same holds for every even scalar, and both sides of a key exchange obtain the same secret.", "quantifier": "every 56-byte key, every 56-byte u string", "why_tests_cant": "a test checks single keys; the RFC also fixes what happens on u strings at or above p and on points of the twist", "anchors": ["src/curve/montgomery/montgomery.rs:Mul<&Scalar> for &MontgomeryPoint", "src/curve/montgomery/montgomery.rs:ProjectiveMontgomeryPoint", "src/field/scalar.rs:from_bytes"]}
{"id": "C65", "title": "Ed448 points are encoded as in RFC 8032", "statement": "compress gives the encoding of section 5.2.2 of RFC 8032, and the decoder of section 5.2.3 returns a point exactly when decompress returns that point and the point encodes back to the string. decompress on its own accepts strings that the RFC rejects.", "quantifier": "every valid point, every 57-byte string", "why_tests_cant": "the strings on which the decoders differ are one in 2^223 of random ones", "anchors": ["src/curve/edwards/extended.rs:compress", "src/curve/edwards/extended.rs:decompress"]}
{"id": "C66", "title": "Signatures written over the API are Ed448 signatures", "statement": "Key generation, signing and verification written with the crate's calls (the crate has none of its own) compute what sections 5.2.5 to 5.2.7 of RFC 8032 say, for any hash function: verification accepts exactly what the cofactored equation of the RFC accepts, every signature made verifies, and for given key, R and message hash at most one string S is accepted.", "quantifier": "every scalar, every 114-byte hash value, every 57-byte public key, R and S, including points outside the prime-order subgroup", "why_tests_cant": "rejection of all other S, and agreement on keys with a torsion part, concern inputs random tests do not produce", "anchors": ["src/curve/edwards/extended.rs:decompress", "src/curve/edwards/extended.rs:compress", "src/curve/edwards/extended.rs:scalar_mul", "src/field/scalar.rs:from_canonical_bytes", "src/field/scalar.rs:from_bytes_mod_order_wide", "src/field/scalar.rs:to_bytes_rfc_8032"]}
{"id": "C67", "title": "The number of operations is fixed", "statement": "Field inversion and inverse square root, point addition and doubling, every scalar multiplication, encoding, the torsion check and the conversion to Montgomery form perform a fixed number of field operations of each kind, whatever the point and the scalar; decoding performs a number that depends on the outcome only. In the 32-bit backend and in the scalar arithmetic the number of operations on machine words is fixed likewise. The numbers are stated.", "quantifier": "every valid point, every scalar, every byte string, both backends", "why_tests_cant": "tests do not count operations, and timing a sample of inputs does not show that no scalar or point costs less or more", "anchors": ["src/curve/scalar_mul/variable_base.rs:variable_base", "src/curve/scalar_mul/double_and_add.rs:double_and_add", "src/curve/edwards/extended.rs:scalar_mul", "src/curve/montgomery/montgomery.rs:mul", "src/decaf/decaf.rs:decompress", "src/field/u32/prime_field.rs:square"]}
{"id": "C68", "title": "Programs over Decaf compute with integers modulo l", "statement": "Accepted strings correspond one to one to integers modulo l. For every program that combines the generator, the identity and received strings by addition, subtraction, negation and scalar multiplication, encoding and comparing give what the same combination of integers modulo l gives. So Diffie-Hellman over Decaf agrees and yields zeros only for secrets that are multiples of l; a Schnorr check holds exactly if s = r + a c modulo l, honest answers pass, and two answers to different challenges determine the secret.", "quantifier": "every program, every scalar, every 56-byte string, both backends", "why_tests_cant": "the statement is about all programs and all strings, and an exception would sit at inputs of negligible probability", "anchors": ["src/decaf/ops.rs", "src/decaf/decaf.rs:compress", "src/decaf/decaf.rs:decompress"]}
{"id": "C69", "title": "The crate's own unit tests hold of the model in every build", "statement": "Each of the crate's 40 unit tests, transcribed over the model, passes: the tests on points with the 32-bit field and with every implementation of the fiat-crypto primitives that meets their documentation, the test of the 64-bit field likewise, the tests of scalars and of the 32-bit field as they stand. The transcribed tests can fail.", "quantifier": "both backends, every implementation of the fiat-crypto primitives that meets its contract", "why_tests_cant": "a run of the tests covers one backend and one version of fiat-crypto; the theorem covers all, and ties the model to results the authors expect of the code", "anchors": ["src/field/scalar.rs:439-615", "src/field/u32/karatsuba.rs:393-455", "src/field/fiat_u64/prime_field.rs:199-209", "src/curve/edwards/extended.rs:424-517", "src/curve/twedwards/extended.rs:180-243", "src/decaf/decaf.rs:130-269"]}
{"id": "C70", "title": "The ladder returns zero only where the group law makes it", "statement": "Curve448 has 4 l points and its twist 4 l' with l and l' prime. A multiplication of a Montgomery point returns zeros exactly if u is 0, 1 or -1 modulo p, or the scalar rounded up to an even number is a multiple of l (u on the curve) or of l' (u on the twist). So a reduced nonzero scalar gives zeros on the three low-order inputs only; of all clamped X448 secrets, exactly one (4 l) gives zeros on other inputs, on the curve, and none does on the twist.", "quantifier": "every 56-byte u string, every scalar, every 56-byte key", "why_tests_cant": "the exceptions are single values among 2^448, and their absence elsewhere rests on the order of two groups", "anchors": ["src/curve/montgomery/montgomery.rs:Mul<&Scalar> for &MontgomeryPoint", "src/curve/montgomery/montgomery.rs:is_low_order", "src/field/scalar.rs:from_bytes"]}
{"id": "C71", "title": "Public keys determine secrets as far as the groups allow", "statement": "Two scalars give the same Edwards public key, or the same Decaf public key, exactly if they agree modulo l; with a received Decaf string other than zeros they give the same shared secret exactly then. Two clamped X448 secrets give the same result on an input not of low order exactly if they are equal or their sum is 8 l (curve) or 4 l' (twist), so at most two do. Keys of random scalars are as uniform as the random scalars.", "quantifier": "every pair of scalars, every pair of 56-byte keys, every u string, every accepted Decaf string, both backends", "why_tests_cant": "collisions would be single pairs among 2^896; uniformity is a statement about 2^912 strings", "anchors": ["src/curve/montgomery/montgomery.rs:Mul<&Scalar> for &MontgomeryPoint", "src/curve/edwards/extended.rs:scalar_mul", "src/curve/edwards/extended.rs:compress", "src/decaf/ops.rs", "src/decaf/decaf.rs:compress", "src/field/scalar.rs:Scalar::random"]}
{"id": "C72", "title": "All spellings of an operator", "statement": "Every expression of the operators +, -, *, unary -, +=, -=, *= and of the methods behind them, with operands passed by value or by reference in any combination the types offer, ends without panic and gives the sum, difference, multiple or opposite it spells; two spellings of one expression give identical results; iter.sum() adds up the points. Which combinations are offered is stated exactly.", "quantifier": "every expression, every combination of owned and borrowed operands, all values", "why_tests_cant": "Most implementations only forward to another one; a forwarding that picks itself never ends, and tests use a few spellings only.", "anchors": ["src/macros.rs", "src/curve/edwards/extended.rs:Add,Sub,Mul,Neg,AddAssign,SubAssign,MulAssign,Sum", "src/decaf/ops.rs", "src/field/scalar.rs:Add,Mul,Sub", "src/curve/montgomery/montgomery.rs:Mul"]}
{"id": "C73", "title": "Debug output", "statement": "The text printed by {:?} or {:#?} for a compressed point, a u-coordinate, a scalar or a point determines the printed value and is determined by it (so the text of a scalar gives the secret away, and equal points with different coordinates print differently). The text of {:?} is the one expected: decimal numbers without leading zeros, in brackets, with type and field names.", "quantifier": "all values of the types, both formats, both backends", "why_tests_cant": "injectivity over all values", "anchors": ["src/decaf/decaf.rs:fmt", "src/ristretto/ristretto.rs:fmt", "src/curve/montgomery/montgomery.rs:fmt", "src/field/fiat_u64/prime_field.rs:fmt", "src/field/scalar.rs:Scalar", "src/field/u32/prime_field.rs:FieldElement28", "src/curve/twedwards/extended.rs:ExtendedPoint", "src/curve/edwards/extended.rs:ExtendedPoint", "src/decaf/decaf.rs:DecafPoint"]}
{"id": "C74", "title": "subtle's masks select and compare", "statement": "The constant-time functions of the subtle crate that this crate relies on do what their names say: a Choice made of a byte 0 or 1 behaves as a boolean under &, |, ^, !, conditional_select, conditional_assign and conditional_swap deliver the second operand exactly if the choice is 1 for words of every width and for the trait's default methods, ct_eq of two words and of two byte slices of any length is 1 exactly if they are equal. Every byte this crate hands to Choice::from is 0 or 1.", "quantifier": "every width of word, every two words, every two byte slices of any length, both choices; every scalar for the digits' signs", "why_tests_cant": "the functions work by masks and borrow bits on all words; tests try a handful of the 2^64 pairs and no test of this crate exercises them directly", "anchors": ["src/field/u32/prime_field.rs:conditional_select", "src/field/mod.rs:ct_eq", "src/field/scalar.rs:ct_eq", "src/curve/scalar_mul/variable_base.rs:variable_base", "src/curve/scalar_mul/window/wnaf/mod.rs:select", "src/curve/edwards/extended.rs:decompress"]}
{"id": "C75", "title": "The limb arithmetic behind the 64-bit backend", "statement": "The fiat-crypto functions the 64-bit backend calls, written out limb by limb as published, never overflow on operands within the documented bounds (inclusive), return limbs within the documented bounds, and compute product, square, carried value, sum, difference, opposite modulo p, the selected operand, the canonical 56 bytes, and the value of any 56 bytes. So the 64-bit backend over this code gives the same bytes, booleans and scalars as the 32-bit one for every program of the public API.", "quantifier": "all operands within the bounds; all programs over the API", "why_tests_cant": "64-bit limbs: the worst cases for the carries sit at the bounds of all eight limbs at once", "anchors": ["src/field/fiat_u64/prime_field.rs:mul,add,sub,square,negate,strong_reduce,conditional_select,to_bytes,from_bytes", "Cargo.toml:fiat-crypto"]}
{"id": "C76", "title": "What the comments say about the field and the scalars", "statement": "The remarks in the comments of src/field and src/constants.rs hold, or the exact statement that holds in their place is proved and the remark refuted: the order of the base point (written with the wrong sign), the borrow of sub_extra that should never be 1, the range after weak_reduce, the two chains and assertions of strong_reduce, bias adding b times p, strong_reduce of the 64-bit field giving the canonical representation, sqrt_ratio at zero, the length of the inversion chain.", "quantifier": "all scalars of 14 words, all limbs the operations accept, all field elements of both backends", "why_tests_cant": "the remarks are about all values; the exceptions sit at single values such as p itself or at sums beyond 2^448 + l", "anchors": ["src/constants.rs:BASEPOINT_ORDER", "src/field/scalar.rs:sub_extra", "src/field/u32/prime_field.rs:bias,weak_reduce,strong_reduce", "src/field/fiat_u64/prime_field.rs:strong_reduce", "src/field/mod.rs:invert,sqrt_ratio"]}
{"id": "C77", "title": "What the comments say about the curves", "statement": "The remarks in the readme and in the comments of src/curve hold, or the exact statement that holds in their place is proved and the remark refuted: the cofactor of the twisted curve, the dual isogeny clearing the cofactor, scalar multiplication clearing it only for multiples of 4 or torsion-free points, the order of the original base point (said to be 2q), the signs in the curve equations of two comments, the table of odd multiples (it holds all multiples to 8), the mask of a digit (said to be 1), the cached form of points, the cost of adding such a point, the cost of the last step of a scalar multiplication.", "quantifier": "all points of both curves, all scalars, all digits, both backends", "why_tests_cant": "counting the points of a curve and quantifying over all of them", "anchors": ["readme.md", "src/curve/edwards/mod.rs", "src/curve/edwards/extended.rs:scalar_mod_four,is_on_curve,derive_base_points", "src/curve/twedwards/affine.rs:AffinePoint", "src/curve/twedwards/projective.rs:ProjectiveNielsPoint", "src/curve/twedwards/extensible.rs:add_projective_niels", "src/curve/scalar_mul/variable_base.rs:variable_base", "src/curve/scalar_mul/window/wnaf/mod.rs:from"]}
{"id": "C78", "title": "Exact number of word operations of whole functions", "statement": "Point addition, scalar multiplication (by windows, bit by bit, of two points, by the ladder), encoding, the torsion check, the Montgomery form and inversion perform, on either backend, a number of steps on machine words that is the same for all valid inputs and is stated, and so many of them multiplications; decoders perform a number that depends on the string only through the outcome, also stated. For example the 448-bit scalar multiplication of an Edwards point takes 3959598 steps on the 32-bit backend and 1979195 on the 64-bit one.", "quantifier": "all valid points, all scalars, all strings; both backends", "why_tests_cant": "the number must be the same for every input, and instrumented runs see few of them", "anchors": ["src/curve/edwards/extended.rs:scalar_mul,add,compress,decompress,is_torsion_free,to_montgomery", "src/curve/scalar_mul/variable_base.rs:variable_base", "src/curve/scalar_mul/double_and_add.rs:double_and_add", "src/curve/scalar_mul/double_base.rs:double_base_scalar_mul", "src/curve/montgomery/montgomery.rs:mul", "src/decaf/decaf.rs:compress,decompress", "src/field/scalar.rs:invert,from_canonical_bytes", "src/field/mod.rs:invert,inverse_square_root"]}
{"id": "C79", "title": "Release builds compute what debug builds compute", "statement": "Built without overflow checks, so that +, - and * on machine integers wrap instead of panicking, every program over the public API still returns, and returns exactly what the build with overflow checks returns, with either backend. Function by function, wherever the checked code returns, the unchecked code returns the same.", "quantifier": "all programs over the public API with valid arguments; for the functions, all inputs; both backends", "why_tests_cant": "tests usually run in one build, and an overflow that only wraps shows up on rare carries", "anchors": ["Cargo.toml", "src/field/u32/prime_field.rs:add,sub,weak_reduce,strong_reduce,bias", "src/field/u32/karatsuba.rs:mul,square", "src/field/fiat_u64/prime_field.rs", "src/field/scalar.rs:add,sub_extra,montgomery_multiply,halve,to_radix_16", "src/curve"]}
{"id": "C80", "title": "No Choice is made of anything but 0 and 1", "statement": "Wherever the code makes a subtle Choice of a machine word (the sign of a field element, the sign bit of an encoding, the sign of a recoded digit, a comparison of words, of byte strings or of scalars), the word is 0 or 1. So with debug assertions on, where Choice::from panics on any other byte, every program over the public API returns, and returns what the code without the assertion returns, with either backend.", "quantifier": "all programs over the public API with valid arguments; for the functions, all inputs of the stated types; both backends", "why_tests_cant": "a Choice of another byte needs a rare operand, gives a silently wrong selection in release builds and a panic in debug builds", "anchors": ["src/field/u32/prime_field.rs:is_negative", "src/field/fiat_u64/prime_field.rs:is_negative", "src/curve/scalar_mul/variable_base.rs:variable_base", "src/curve/scalar_mul/window/wnaf/mod.rs:select", "src/curve/edwards/extended.rs:decompress", "src/field/scalar.rs:eq,from_canonical_bytes"]}
{"id": "C81", "title": "A release build takes the same steps as the debug build", "statement": "A release build (no overflow checks) of every program over the public API does, word operation by word operation, handed-out number by handed-out number and branch by branch, exactly what the debug build does, and ends with the same words, with either backend. So what C53 shows of the steps of the debug build, that they depend on secrets only through the listed decisions, holds of the release build.", "quantifier": "all programs over the public API with valid arguments; for the functions, all words on which the debug build returns; both backends", "why_tests_cant": "equality of whole traces over all secrets and all programs cannot be sampled, and tests run the debug build", "anchors": ["src/field/u32/prime_field.rs", "src/field/fiat_u64/prime_field.rs", "src/field/scalar.rs", "src/curve/scalar_mul/variable_base.rs:variable_base", "Cargo.toml"]}
{"id": "C82", "title": "What the maps between the curves identify and reach", "statement": "to_twisted sends exactly four different points, (x,y), (-x,-y), (y,-x), (-y,x), to each point it reaches, and reaches exactly the prime order subgroup of the twisted curve (so it is not the 2-isogeny the readme names: refuted). to_untwisted sends two points to the same one exactly if they are equal as Decaf points, and reaches exactly the torsion-free points. to_montgomery sends exactly the four points with the same coordinates up to sign (or the four points on the axes) to the same bytes, and reaches exactly the canonical encodings of the squares u that are u-coordinates of Curve448.", "quantifier": "all valid points of both curves in all their representations, all 56-byte strings, both backends", "why_tests_cant": "that nothing else collides and nothing else is reached is a statement about all points of the curves", "anchors": ["src/curve/edwards/extended.rs:to_twisted,edwards_isogeny,to_montgomery,is_torsion_free", "src/curve/twedwards/extended.rs:to_untwisted", "src/decaf/decaf.rs:equals", "readme.md", "src/field/scalar.rs:div_by_four"]}
{"id": "C83", "title": "== is an equivalence, and Hash agrees with it", "statement": "On every type that claims Rust's Eq (Scalar, FieldElement, both ExtendedPoints, ExtensiblePoint, AffinePoint, ProjectiveNielsPoint, MontgomeryPoint, CompressedDecaf, CompressedRistretto), and for the methods named equals, the comparison always returns and is reflexive, symmetric and transitive on the values the crate can produce. (On arbitrary coordinates it is not: refuted.) MontgomeryPoints are equal exactly if they hash equally under every hasher; results of multiplications do exactly if they have the same u-coordinate, arbitrary points with the same u need not (refuted). Zeroizing a MontgomeryPoint leaves 56 zero bytes.", "quantifier": "all values of the types meeting the invariants, all hashers and hasher states, both backends", "why_tests_cant": "quantifies over all triples of values and all hashers", "anchors": ["src/curve/montgomery/montgomery.rs:MontgomeryPoint", "src/field/scalar.rs:PartialEq", "src/field/mod.rs:PartialEq", "src/curve/edwards/extended.rs:PartialEq", "src/curve/twedwards/extended.rs:PartialEq", "src/curve/twedwards/extensible.rs:PartialEq", "src/curve/twedwards/projective.rs:PartialEq", "src/curve/twedwards/affine.rs:AffinePoint", "src/decaf/decaf.rs:CompressedDecaf,equals", "src/ristretto/ristretto.rs:CompressedRistretto,equals"]}
{"id": "C84", "title": "Which Cargo features build", "statement": "The crate's names resolve exactly when one of the two backend features is on and the other off, over all unions of requests by dependents; Scalar::random and the Zeroize implementation are there exactly when asked for; and a program over the public API returns the same data in every build. (Features are not additive as Cargo expects: two dependents that build alone need not build together: refuted.)", "quantifier": "all lists of dependents' feature requests, all programs over the API, all fiat-crypto functions meeting the contract", "why_tests_cant": "a test run builds one set of features; the claim is about all of them and about the equality of results between builds", "anchors": ["Cargo.toml", "src/field/mod.rs:FieldElement", "src/constants.rs", "src/field/scalar.rs:Scalar::random", "src/curve/montgomery/montgomery.rs:MontgomeryPoint"]}
{"id": "C85", "title": "How wide the integers of the multiplication have to be", "statement": "karatsuba.rs:16 asks for a check of the bounds of the i128 arithmetic in mul. On all operands that occur (limbs below 2^28 + 2^9) mul computed with w-bit signed integers in place of i128 returns what mul returns exactly if w >= 63, so i64 would be enough. On arbitrary u32 limbs it takes exactly 70 bits, so with i128 mul never panics, whatever the limbs. (That mul returns the product for arbitrary u32 limbs is refuted.) In strong_reduce it takes exactly 29 bits in place of u64 and 29 in place of i64, in to_bytes 56 and 29, whatever the limbs.", "quantifier": "all widths w <= 128, all operands within the limb bound, all arrays of 16 u32 limbs", "why_tests_cant": "the extreme values of some hundred sums of products over 32 limbs are reached by no random operand, and the claim is about every width", "anchors": ["src/field/u32/karatsuba.rs:mul", "src/field/u32/prime_field.rs:strong_reduce", "src/field/u32/prime_field.rs:to_bytes"]}
{"id": "C86", "title": "What an accepted signature shows", "statement": "For Ed448 written over the public API: every point has exactly one logarithm modulo l to the base point, up to the torsion; a signature is accepted exactly if S = r + h*a mod l for the logarithms a of the key and r of R; two accepted signatures with the same R and hashes different modulo l determine the secret by a linear equation (so a reused nonce gives it away); an accepted signature is accepted for another hash exactly if that is the same modulo l or the key has order dividing 4 (binding for all keys: refuted); and for every key, hash and S < l there are exactly four R that are accepted.", "quantifier": "all keys, R, S and hashes as byte strings, both backends, all fiat-crypto functions meeting the contract", "why_tests_cant": "tests know the secret of the keys they use and sign with; the claims are about all 2^456 encodings of keys and R, among them the ones no signer makes", "anchors": ["src/curve/edwards/extended.rs:CompressedEdwardsY::decompress", "src/curve/edwards/extended.rs:ExtendedPoint::scalar_mul", "src/field/scalar.rs:Scalar::from_canonical_bytes", "src/field/scalar.rs:Scalar::from_bytes_mod_order_wide"]}
{"id": "C87", "title": "Limbs out of range in the 32-bit backend", "statement": "For arbitrary u32 limbs weak_reduce and to_bytes panic exactly if limb 8 overflows when the top bits of limb 15 are added, and are right otherwise. Addition is right for all operands with limbs up to L exactly if L <= 2^31 - 8, subtraction exactly if the limbs are up to 2^32 - 2^29 - 12 and 2^29 - 4, multiplication exactly up to 2^31 - 1 (and an operand is multiplied rightly by all others exactly if the sums of its halves fit into u32), squaring exactly if 38 L^2 < 2^64. (That square returns what mul returns with equal operands, for all limbs mul can take: refuted.)", "quantifier": "all arrays of 16 u32 limbs, all bounds L", "why_tests_cant": "the bounds are reached when all limbs are extreme at once, and exactness is a claim about every bound", "anchors": ["src/field/u32/prime_field.rs:weak_reduce", "src/field/u32/prime_field.rs:strong_reduce", "src/field/u32/prime_field.rs:add_no_reduce", "src/field/u32/prime_field.rs:bias", "src/field/u32/prime_field.rs:sub_no_reduce", "src/field/u32/karatsuba.rs:mul", "src/field/u32/karatsuba.rs:square"]}
{"id": "C88", "title": "How many strings stand for one value", "statement": "A point (x, y) of the curve is the result of CompressedEdwardsY::decompress for exactly n strings of 57 bytes, where n is 128, twice that if x = 0 (the sign bit is ignored) and twice that if y <= 2^224 (y + p fits); RFC 8032 has one string for each. A u-coordinate has two strings of 56 bytes if it is at most 2^224, one otherwise. An element of the Decaf group has exactly one string. A number modulo l is the value of five strings of Scalar::from_bytes if it is below 2^448 - 4l and of four otherwise, and of exactly one string of from_canonical_bytes. RFC 8032 accepts exactly 4l strings and Decaf exactly l.", "quantifier": "all points of the curve, all u-coordinates, all valid Decaf points, all scalars below l, all strings", "why_tests_cant": "an exact count is a claim about every string of 56 or 57 bytes, and a claim for each of about 2^448 values", "anchors": ["src/curve/edwards/extended.rs:decompress", "src/curve/montgomery/montgomery.rs:to_projective", "src/decaf/decaf.rs:CompressedDecaf::decompress", "src/field/scalar.rs:from_bytes", "src/field/scalar.rs:from_canonical_bytes"]}
{"id": "C89", "title": "What is_on_curve accepts", "statement": "For arbitrary coordinates X, Y, Z, T (not only those of points) is_on_curve of the Edwards ExtendedPoint returns true exactly if they stand for a point of the curve or are all zero, and that of the twisted curve exactly if they stand for a point of that curve, or Z = X = 0 and Y^2 = d T^2 (all zero, or a point at infinity). (That whatever passes stands for a point: refuted for both.)", "quantifier": "all quadruples of field elements, both backends", "why_tests_cant": "the unit tests try one point and one non-point; the inputs with Z = 0 that are wrongly accepted are a vanishing part of all quadruples", "anchors": ["src/curve/edwards/extended.rs:is_on_curve", "src/curve/twedwards/extended.rs:is_on_curve"]}
{"id": "C90", "title": "How wide the integers of the scalar arithmetic have to be", "statement": "With u-bit integers in place of u64, i-bit signed ones in place of i64 and r-bit signed ones in place of i8 (panicking on overflow), the scalar functions return what they return, on all scalars below any bound from l on, exactly if: addition u >= 33 and i >= 34; subtraction i >= 34; montgomery_multiply and the product u = 64 and i >= 34; halve u >= 33; to_radix_16 r >= 6.", "quantifier": "all widths up to those of the code, all scalars (and already all reduced ones)", "why_tests_cant": "overflow of an accumulator takes limbs and carries at their largest values together, which random scalars do not hit, and that a width is enough is a claim about all scalars", "anchors": ["src/field/scalar.rs:add", "src/field/scalar.rs:sub_extra", "src/field/scalar.rs:montgomery_multiply", "src/field/scalar.rs:halve", "src/field/scalar.rs:to_radix_16"]}
{"id": "C91", "title": "What a Montgomery multiplication loses", "statement": "Let m be the scalar rounded up to an even number. Two u coordinates have the same product, if it is not zero, exactly if they are equal or inverse to each other modulo p (m = 2 mod 4), or their doubles are (4 | m). So every nonzero result comes from exactly two, or four, coordinates below p, and the number of results is (p - 1)/2, or (p + 1)/4, for every reduced scalar but 0; exact also for scalars that are multiples of the order of the curve or of its twist. X448: every secret has exactly (p + 1)/4 possible results, but for the one that clamps to 4 l, which has (l' + 1)/2.", "quantifier": "all scalars, all strings of 56 bytes, both backends", "why_tests_cant": "that all inputs with one result are known, and the number of results, are claims about all 2^448 inputs", "anchors": ["src/curve/montgomery/montgomery.rs:Mul<&Scalar> for &MontgomeryPoint", "src/curve/montgomery/montgomery.rs:differential_add_and_double"]}
{"id": "C92", "title": "What Edwards and Decaf multiplications lose", "statement": "Decoding, multiplying by s and encoding: every result over the Edwards curve comes from exactly gcd(s, 4 l) canonical strings, and there are exactly 4 l / gcd(s, 4 l) results; over Decaf it is gcd(s, l) and l / gcd(s, l). So a reduced scalar other than 0 permutes the Decaf strings, and takes exactly gcd(s, 4) Edwards points (1, 2 or 4) to one.", "quantifier": "all scalars, all accepted strings, both backends", "why_tests_cant": "the numbers of preimages and of results are claims about all 4 l points", "anchors": ["src/curve/edwards/extended.rs:scalar_mul", "src/curve/edwards/extended.rs:compress", "src/decaf/decaf.rs:DecafPoint::compress", "src/decaf/decaf.rs:CompressedDecaf::decompress"]}
{"id": "C93", "title": "How many secrets share a key", "statement": "Every result of X448 on a coordinate of the curve that is not of low order comes from exactly 8 strings of 56 bytes as secret, or exactly 16 if the clamped value c is above 8 l - 2^448 and not 4 l; on the twist 16 if c is at most 4 l' - 2^447 and 8 otherwise. So X448 has exactly l + 1 - 2^445 public keys, and the same number of results on every coordinate of the curve; on the twist 2^446 - (l' + 1)/2. Clamped secrets give exactly 2^445 Edwards keys and as many Decaf keys, and every key of a scalar comes from exactly 4 or 5 strings decoded without reduction, 5 if the residue is below 2^448 - 4 l.", "quantifier": "all secrets, all coordinates, all scalars, both backends", "why_tests_cant": "the numbers of secrets behind a key and of keys are claims about all 2^448 secrets; two secrets with one key are never met by chance", "anchors": ["src/curve/montgomery/montgomery.rs:Mul<&Scalar> for &MontgomeryPoint", "src/field/scalar.rs:from_bytes", "src/curve/edwards/extended.rs:scalar_mul", "src/decaf/decaf.rs:DecafPoint::compress"]}
{"id": "C94", "title": "Key agreement among any number of parties", "statement": "A coordinate multiplied by a list of scalars one after the other: the result does not depend on the order of the list, and is the coordinate of the multiple by the product of the scalars, each rounded up to an even number. It is zero exactly if the coordinate is of low order or the product is a multiple of the order of its curve; with reduced scalars other than 0 only for coordinates of low order; with secrets of X448 only for those, or on the curve if one secret clamps to 4 l. Two lists with products divisible by 4 agree exactly if the products are equal or opposite modulo the order.", "quantifier": "lists of any length of any scalars or secrets, all strings of 56 bytes, both backends", "why_tests_cant": "lists have any length, and the exceptions are too rare to be met by chance", "anchors": ["src/curve/montgomery/montgomery.rs:Mul<&Scalar> for &MontgomeryPoint"]}
{"id": "C95", "title": "Signature checks that leave a step out", "statement": "Over the public API, a user may leave out the factor 4, the encoding of decoded points, or the range check of S. Without the factor 4 a signature by a key a G + i T and with R = r G + j T (T of order 4) is accepted exactly if S = r + h a mod l and j + (h mod l) i = 0 mod 4: honest signatures pass, nothing passes that the full check rejects, and exactly one R passes for every key, hash and S < l (agreement with the full check, and with the equation for the unreduced h: refuted). Without encoding again, a signature is accepted exactly if the full check accepts the canonical strings of the decoded points, so 512, 640 or 768 strings R pass, or 1280 if R has order dividing 4. With S read by Scalar::from_bytes, exactly four or five S pass for any key, R and hash instead of one.", "quantifier": "all keys, R, S and hashes as byte strings, both backends", "why_tests_cant": "honest signatures pass every one of these checks; the differences are only seen on strings that no signer makes, and the numbers of accepted strings are claims about all of them", "anchors": ["src/curve/edwards/extended.rs:CompressedEdwardsY::decompress", "src/curve/edwards/extended.rs:ExtendedPoint::scalar_mul", "src/field/scalar.rs:Scalar::from_bytes", "src/field/scalar.rs:Scalar::from_bytes_mod_order_wide"]}
{"id": "C96", "title": "Checking many signatures at once", "statement": "Over the public API, a user may check a list of signatures, each with a scalar z, by the one equation 4 (sum of z S) G = 4 (sum of z (R + h A)). The check never panics and accepts exactly if all strings can be read and the sum of z d is 0 modulo l, where each signature misses the signer's equation by d. So valid signatures pass with any scalars, and with a wrong signature in the list, whatever the other signatures and scalars, exactly one scalar modulo l for it passes. That the sum with no scalars accepts only valid signatures is refuted.", "quantifier": "lists of any length of any keys, signatures, hashes and scalars, both backends", "why_tests_cant": "lists have any length, and a wrong list is accepted with chance 1 in l only", "anchors": ["src/curve/edwards/extended.rs:ExtendedPoint::scalar_mul", "src/curve/edwards/extended.rs:ExtendedPoint::add", "src/field/scalar.rs:Mul<Scalar> for Scalar", "src/field/scalar.rs:Add<Scalar> for Scalar", "src/field/scalar.rs:Scalar::from_bytes_mod_order_wide"]}
{"id": "C97", "title": "Commitments, blinded evaluation, encryption and equal logarithms over Decaf", "statement": "Protocols over the public API. A commitment m B + r H to any m can be any accepted string, with exactly one canonical r (refuted for an H that is the identity); two openings with different m determine the logarithm of H; commitments add up. A value blinded by s and unblinded by Scalar::invert is evaluated as if not blinded unless s is a multiple of l, when the result is the identity; a value other than the identity blinded is every accepted string, with exactly one canonical s. Decryption of m encrypted to n with r by the key a gives m + r (n - a), which is m exactly if n = a or r = 0 modulo l. The check that two keys have equal logarithms accepts honest answers, and if they differ then for any R and R' exactly one challenge modulo l has an accepted answer.", "quantifier": "all scalars, keys, messages and strings, both backends", "why_tests_cant": "that a string is reached by exactly one of 2^446 scalars, or that no second challenge can be answered, is a claim about all of them", "anchors": ["src/decaf/ops.rs:Mul<Scalar> for DecafPoint", "src/decaf/decaf.rs:DecafPoint::compress", "src/decaf/decaf.rs:CompressedDecaf::decompress", "src/field/scalar.rs:Scalar::invert", "src/field/scalar.rs:Scalar::from_canonical_bytes"]}
{"id": "C98", "title": "A secret shared among many parties", "statement": "Shamir's sharing with Feldman's check over the public API. The share of party x is the polynomial of the coefficients at x modulo l. As many different parties as coefficients, or more, recover the secret by Scalar::invert and products; with a repeated party nothing fails and the result is another scalar (refuted, with a witness). One party fewer learns nothing: any shares of different parties other than 0 go with any secret by exactly one choice of the other coefficients (refuted for party 0, whose share is the secret). The check of a share against the public keys of the coefficients accepts exactly the share. Parties that each multiply a Decaf string by the own share obtain together the string times the secret.", "quantifier": "all numbers of parties, all coefficients, shares and strings, both backends", "why_tests_cant": "that exactly one of l^k choices of coefficients fits given shares, for every k, is a claim about all of them", "anchors": ["src/field/scalar.rs:Scalar::invert", "src/field/scalar.rs:Mul<Scalar> for Scalar", "src/field/scalar.rs:Add<Scalar> for Scalar", "src/field/scalar.rs:Sub<Scalar> for Scalar", "src/decaf/ops.rs:Mul<Scalar> for DecafPoint", "src/decaf/decaf.rs:CompressedDecaf::decompress"]}
{"id": "C99", "title": "Programs over Edwards points compute with integers modulo 4 l", "statement": "Every string that decompress accepts, canonical or not, is n times one point of order 4 l, for exactly one n modulo 4 l. A program over Edwards points made of the generator, the identity and received strings by addition, subtraction, negation, doubling, torque, scalar multiplication, scalar_mod_four, the maps to the twisted curve and back, affine coordinates and selection computes the integer of its expression modulo 4 l: compress encodes it, == compares it, is_torsion_free tests it modulo 4, and to_montgomery identifies it up to sign modulo 2 l and all multiples of l. Key agreement: both sides agree; two secrets s and t answer the string of n alike exactly if 4 l divides n (s - t); one accepted string shows exactly the secret modulo 4; after doubling twice, secrets with one public key answer every string alike (refuted without it).", "quantifier": "all programs, strings and scalars, both backends", "why_tests_cant": "the programs, the strings and the scalars are unbounded families, and that no two of the 4 l integers share a string is a claim about all of them", "anchors": ["src/curve/edwards/extended.rs:CompressedEdwardsY::decompress", "src/curve/edwards/extended.rs:ExtendedPoint::compress", "src/curve/edwards/extended.rs:ExtendedPoint::torque", "src/curve/edwards/extended.rs:ExtendedPoint::scalar_mod_four", "src/curve/edwards/extended.rs:ExtendedPoint::is_torsion_free", "src/curve/edwards/extended.rs:ExtendedPoint::to_montgomery", "src/curve/edwards/extended.rs:ExtendedPoint::to_twisted"]}
{"id": "C100", "title": "Every program over the public API is a program over integers", "statement": "Replace, in a caller's program over the whole public API that may branch on the data it gets, every Edwards point by an integer modulo 4 l, every twisted, extensible or Niels point by an integer modulo 2 l, every Decaf or Ristretto point by an integer modulo l, and every received string by the integer it stands for. Then the program does not panic and returns exactly what the integers give: sums, multiples, equality tests, torsion tests, selections, the maps between the curves (multiplication by 4 in total), encodings. A program that returns a point returns valid coordinates of the multiple its integer names. The integer behind a string is unique, and the multiples of D + (0, -1) are exactly the points that twisted coordinates hold, 2 l of them.", "quantifier": "all programs of the API, all bytes and scalars in them, both backends", "why_tests_cant": "programs are an unbounded family, with received strings standing for any of 4 l or l integers", "anchors": ["src/curve/edwards/extended.rs:ExtendedPoint", "src/curve/edwards/affine.rs:AffinePoint", "src/curve/twedwards/extended.rs:ExtendedPoint", "src/curve/twedwards/extensible.rs:ExtensiblePoint", "src/curve/twedwards/projective.rs:ProjectiveNielsPoint", "src/decaf/decaf.rs:DecafPoint", "src/decaf/ops.rs", "src/ristretto/ristretto.rs:RistrettoPoint"]}
{"id": "C101", "title": "The Montgomery ladder is multiplication of integers up to sign", "statement": "Curve448 and its twist are both cyclic, of orders 4 l and 4 l'. So every 56-byte string, canonical or not, stands for an integer on one of them, and multiplying it by a scalar gives exactly the string of the integer times the scalar rounded up to even. On one curve two integers have one string exactly if they agree up to sign modulo 4 l or are both multiples of 2 l; strings of different curves agree only at zero. Several multiplications multiply by the product, and the results some scalar gives are exactly the even multiples. Two scalars multiply every string alike exactly if that holds for both orders: for scalars below l exactly if they round up to the same even number (so 1 and 2 are the same function), and for decoded X448 secrets exactly if they are the same.", "quantifier": "all 56-byte strings, all scalars, all generators, both curves, both backends", "why_tests_cant": "says which of all pairs of scalars are one function on 2^448 strings, and needs both group structures", "anchors": ["src/curve/montgomery/montgomery.rs:Mul<&Scalar> for &MontgomeryPoint", "src/curve/montgomery/montgomery.rs:differential_add_and_double", "src/curve/montgomery/montgomery.rs:to_projective"]}
{"id": "C102", "title": "Edwards points and Montgomery strings are the same integers", "statement": "There is a generator g of Curve448 such that to_montgomery of the Edwards point n (every point and every result of a program over points is one, modulo 4 l) is the string of 2 n g. So the strings it reaches are exactly those of even integers, the two generators of the crate are the same integer, P.to_montgomery() * s is 2 n times s rounded up to even, and (P * s).to_montgomery() is 2 n s. The two agree exactly if s is even, or l divides n, or 2 l divides n (2 s + 1): for the generator and odd s exactly if l divides 2 s + 1. Key agreement with public keys (P * a).to_montgomery() and secrets by the ladder works for even scalars, so for decoded X448 secrets, and otherwise exactly if the stated integers agree up to sign; it fails for 1 and 2 with the generator.", "quantifier": "all valid points, all programs over Edwards points, all scalars, both backends", "why_tests_cant": "needs the group structure of both curves; says for which of all points and scalars the fault of the ladder cannot be seen", "anchors": ["src/curve/edwards/extended.rs:to_montgomery", "src/curve/montgomery/montgomery.rs:Mul<&Scalar> for &MontgomeryPoint", "src/curve/montgomery/montgomery.rs:generator", "src/curve/edwards/extended.rs:scalar_mul"]}
