{
 "claims": [
  {
   "property": "C01",
   "status": "proved",
   "theorems": [
    "C01_scalar_bytes_bijection"
   ],
   "note": ""
  },
  {
   "property": "C02",
   "status": "proved",
   "theorems": [
    "C02_from_canonical_bytes",
    "C02_canonical_roundtrip"
   ],
   "note": ""
  },
  {
   "property": "C03",
   "status": "proved",
   "theorems": [
    "C03_scalar_add"
   ],
   "note": ""
  },
  {
   "property": "C04",
   "status": "proved",
   "theorems": [
    "C04_scalar_sub"
   ],
   "note": ""
  },
  {
   "property": "C05",
   "status": "proved",
   "theorems": [
    "C05_scalar_add_exact_domain",
    "C05_scalar_add_value",
    "C05_scalar_add_refuted"
   ],
   "note": "The statement is false; the exact domain on which it holds is proved, the value the code returns on every input, and a counterexample given."
  },
  {
   "property": "C06",
   "status": "proved",
   "theorems": [
    "C06_scalar_sub_exact_domain",
    "C06_scalar_sub_value",
    "C06_scalar_sub_refuted"
   ],
   "note": "The statement is false; the exact domain on which it holds is proved, the value the code returns on every input, and a counterexample given."
  },
  {
   "property": "C07",
   "status": "proved",
   "theorems": [
    "C07_scalar_mul"
   ],
   "note": ""
  },
  {
   "property": "C08",
   "status": "proved",
   "theorems": [
    "C08_scalar_invert",
    "C08_scalar_invert_of_zero"
   ],
   "note": ""
  },
  {
   "property": "C09",
   "status": "proved",
   "theorems": [
    "C09_scalar_halve",
    "C09_scalar_halve_value"
   ],
   "note": ""
  },
  {
   "property": "C10",
   "status": "proved",
   "theorems": [
    "C10_wide_reduction"
   ],
   "note": ""
  },
  {
   "property": "C11",
   "status": "proved",
   "theorems": [
    "C11_random_distance",
    "C11_random_distance_reached",
    "C11_random_advantage",
    "C11_random_uniform",
    "C11_random_canonical"
   ],
   "note": ""
  },
  {
   "property": "C12",
   "status": "proved",
   "theorems": [
    "C12_bits"
   ],
   "note": ""
  },
  {
   "property": "C13",
   "status": "proved",
   "theorems": [
    "C13_no_panic"
   ],
   "note": ""
  },
  {
   "property": "C14",
   "status": "proved",
   "theorems": [
    "C14_field_laws"
   ],
   "note": ""
  },
  {
   "property": "C15",
   "status": "proved",
   "theorems": [
    "C15_field_expressions"
   ],
   "note": ""
  },
  {
   "property": "C16",
   "status": "proved",
   "theorems": [
    "C16_field_serialisation",
    "C16_field_decode_encode",
    "C16_is_zero"
   ],
   "note": ""
  },
  {
   "property": "C17",
   "status": "proved",
   "theorems": [
    "C17_backends_agree",
    "C17_primitives_agree"
   ],
   "note": "For every program over the public API (ApiExpr.v). Debug output prints limbs (C73) and does differ."
  },
  {
   "property": "C18",
   "status": "proved",
   "theorems": [
    "C18_invert",
    "C18_inverse_square_root",
    "C18_sqrt_ratio",
    "C18_inverse_square_root_which",
    "C18_sqrt_ratio_which"
   ],
   "note": ""
  },
  {
   "property": "C19",
   "status": "proved",
   "theorems": [
    "C19_reachable_points_valid"
   ],
   "note": ""
  },
  {
   "property": "C20",
   "status": "proved",
   "theorems": [
    "C20_abelian_group"
   ],
   "note": ""
  },
  {
   "property": "C21",
   "status": "proved",
   "theorems": [
    "C21_equality_is_affine",
    "C21_equivalence",
    "C21_congruence"
   ],
   "note": ""
  },
  {
   "property": "C22",
   "status": "proved",
   "theorems": [
    "C22_add_is_edwards_law",
    "C22_law_complete"
   ],
   "note": ""
  },
  {
   "property": "C23",
   "status": "proved",
   "theorems": [
    "C23_sub_double_negate",
    "C23_sums"
   ],
   "note": ""
  },
  {
   "property": "C24",
   "status": "proved",
   "theorems": [
    "C24_torque",
    "C24_two_torsion"
   ],
   "note": ""
  },
  {
   "property": "C25",
   "status": "proved",
   "theorems": [
    "C25_scalar_mul"
   ],
   "note": ""
  },
  {
   "property": "C26",
   "status": "proved",
   "theorems": [
    "C26_scalar_homomorphism"
   ],
   "note": ""
  },
  {
   "property": "C27",
   "status": "proved",
   "theorems": [
    "C27_compress_roundtrip"
   ],
   "note": ""
  },
  {
   "property": "C28",
   "status": "proved",
   "theorems": [
    "C28_compress_injective"
   ],
   "note": ""
  },
  {
   "property": "C29",
   "status": "proved",
   "theorems": [
    "C29_decompress_exact"
   ],
   "note": ""
  },
  {
   "property": "C30",
   "status": "proved",
   "theorems": [
    "C30_decompress_canonical_exact",
    "C30_rejects_noncanonical_refuted"
   ],
   "note": "The statement is false; exactly which accepted strings re-encode to themselves is proved, with three counterexamples."
  },
  {
   "property": "C31",
   "status": "proved",
   "theorems": [
    "C31_is_torsion_free",
    "C31_point_count"
   ],
   "note": ""
  },
  {
   "property": "C32",
   "status": "proved",
   "theorems": [
    "C32_generator_order"
   ],
   "note": ""
  },
  {
   "property": "C33",
   "status": "proved",
   "theorems": [
    "C33_isogenies_multiply_by_four",
    "C33_dual_composition",
    "C33_isogenies_additive",
    "C33_denominators"
   ],
   "note": ""
  },
  {
   "property": "C34",
   "status": "proved",
   "theorems": [
    "C34_window_and_bitwise",
    "C34_table_lookup",
    "C34_recoding"
   ],
   "note": ""
  },
  {
   "property": "C35",
   "status": "proved",
   "theorems": [
    "C35_scalar_mod_four"
   ],
   "note": ""
  },
  {
   "property": "C36",
   "status": "proved",
   "theorems": [
    "C36_even_scalars"
   ],
   "note": ""
  },
  {
   "property": "C37",
   "status": "proved",
   "theorems": [
    "C37_odd_scalars_refuted",
    "C37_odd_scalars_exact"
   ],
   "note": "The statement is false; that the ladder returns the multiple by s + 1 is proved for every odd scalar, with the generator and s = 1 as counterexample."
  },
  {
   "property": "C38",
   "status": "proved",
   "theorems": [
    "C38_ladder_exact",
    "C38_group_law"
   ],
   "note": ""
  },
  {
   "property": "C39",
   "status": "proved",
   "theorems": [
    "C39_diffie_hellman"
   ],
   "note": ""
  },
  {
   "property": "C40",
   "status": "proved",
   "theorems": [
    "C40_u_mod_p"
   ],
   "note": ""
  },
  {
   "property": "C41",
   "status": "proved",
   "theorems": [
    "C41_low_order_sound",
    "C41_low_order_canonical",
    "C41_low_order_refuted",
    "C41_low_order_exact",
    "C41_collapse_exact"
   ],
   "note": "The statement is false; exactly which inputs collapse and which two of them is_low_order misses is proved."
  },
  {
   "property": "C42",
   "status": "proved",
   "theorems": [
    "C42_roundtrip"
   ],
   "note": ""
  },
  {
   "property": "C43",
   "status": "proved",
   "theorems": [
    "C43_encoding_of_class",
    "C43_equals_is_class",
    "C43_compress_exact"
   ],
   "note": ""
  },
  {
   "property": "C44",
   "status": "proved",
   "theorems": [
    "C44_canonical",
    "C44_one_encoding"
   ],
   "note": ""
  },
  {
   "property": "C45",
   "status": "proved",
   "theorems": [
    "C45_acceptance",
    "C45_decoded_point"
   ],
   "note": ""
  },
  {
   "property": "C46",
   "status": "proved",
   "theorems": [
    "C46_abelian_group",
    "C46_equivalence",
    "C46_congruence",
    "C46_operators"
   ],
   "note": ""
  },
  {
   "property": "C47",
   "status": "proved",
   "theorems": [
    "C47_repeated_addition",
    "C47_depends_on_residue",
    "C47_homomorphism"
   ],
   "note": ""
  },
  {
   "property": "C48",
   "status": "proved",
   "theorems": [
    "C48_killed_by_l",
    "C48_generated",
    "C48_prime_order"
   ],
   "note": ""
  },
  {
   "property": "C49",
   "status": "proved",
   "theorems": [
    "C49_reachable_points_valid",
    "C49_denominators"
   ],
   "note": ""
  },
  {
   "property": "C50",
   "status": "proved",
   "theorems": [
    "C50_identity_string"
   ],
   "note": ""
  },
  {
   "property": "C51",
   "status": "proved",
   "theorems": [
    "C51_unimplemented",
    "C51_ristretto_equals",
    "C51_ristretto_identity"
   ],
   "note": ""
  },
  {
   "property": "C52",
   "status": "proved",
   "theorems": [
    "C52_no_panic",
    "C52_well_typed"
   ],
   "note": "For every program over the public API (ApiExpr.v), including the twisted types reachable through to_twisted."
  },
  {
   "property": "C53",
   "status": "partial",
   "theorems": [
    "C53_steps_plain",
    "C53_field_result",
    "C53_word_result",
    "C53_word64_result",
    "C53_field_branches",
    "C53_word_branches",
    "C53_word64_branches",
    "C53_field_steps_partial",
    "C53_word_steps_partial",
    "C53_word64_steps_partial",
    "C53_field_secrets_partial",
    "C53_word_secrets_partial",
    "C53_word64_secrets_partial",
    "C53_edwards_mul_partial",
    "C53_window_mul_partial",
    "C53_decaf_mul_partial",
    "C53_double_base_partial",
    "C53_ladder_partial",
    "C53_word_field_partial",
    "C53_word64_field_partial",
    "C53_word_scalars_partial",
    "C53_word_subtle_partial",
    "C53_word_subtle_results",
    "C53_word_field_results",
    "C53_word64_field_results",
    "C53_word_scalars_results",
    "C53_edwards_decoding",
    "C53_decaf_decoding",
    "C53_scalar_decoding",
    "C53_rejected_encodings_refuted"
   ],
   "note": "Proved: the list of steps of a run (operations in order with the expressions of their operands, and branches) does not depend on scalars, choices or byte strings, for the curve code over any backend down to field operations, and for both backends (the 64-bit one with fiat-crypto as in FiatCode.v), the scalar arithmetic and subtle down to operations on machine words; exactly what the decoders show of their input (Edwards: accepted or not; Decaf: not below p, odd, no such point, accepted; scalars: below 2^448, 2^446, l). subtle's selections and comparisons are expanded into operations on words. Missing: compiled code and real time. C53_rejected_encodings_refuted: failed Decaf decoding shows which check failed."
  },
  {
   "property": "C54",
   "status": "proved",
   "theorems": [
    "C54_curve_constants",
    "C54_base_points_on_curve",
    "C54_constant_bounds"
   ],
   "note": ""
  },
  {
   "property": "C55",
   "status": "proved",
   "theorems": [
    "C55_double_base"
   ],
   "note": ""
  },
  {
   "property": "C56",
   "status": "proved",
   "theorems": [
    "C56_affine_niels_exact",
    "C56_affine_niels_coordinates",
    "C56_affine_niels_refuted"
   ],
   "note": "The statement is false; what the cached addition and the conversion return is proved for every pair of points, and it is never the right point."
  },
  {
   "property": "C57",
   "status": "proved",
   "theorems": [
    "C57_generators_agree",
    "C57_projective_roundtrip"
   ],
   "note": ""
  },
  {
   "property": "C58",
   "status": "proved",
   "theorems": [
    "C58_x448"
   ],
   "note": ""
  },
  {
   "property": "C59",
   "status": "proved",
   "theorems": [
    "C59_decode",
    "C59_encode",
    "C59_equals",
    "C59_programs",
    "C59_program_equals"
   ],
   "note": "The RFC is transcribed in SpecDecaf.v for affine points (z0 = 1); its constants are checked by their defining equations and its vectors for 2B and 3B are examples."
  },
  {
   "property": "C60",
   "status": "proved",
   "theorems": [
    "C60_data",
    "C60_values"
   ],
   "note": ""
  },
  {
   "property": "C61",
   "status": "proved",
   "theorems": [
    "C61_read",
    "C61_write",
    "C61_write_value",
    "C61_from_u32"
   ],
   "note": ""
  },
  {
   "property": "C62",
   "status": "proved",
   "theorems": [
    "C62_group_law",
    "C62_conversions",
    "C62_curve_tests",
    "C62_cached"
   ],
   "note": "Addition and conversion of cached affine points are wrong and treated in C56; here only their equality, selection and identity."
  },
  {
   "property": "C63",
   "status": "proved",
   "theorems": [
    "C63_decaf_elements",
    "C63_decaf_compressed",
    "C63_bytes",
    "C63_montgomery_exact",
    "C63_montgomery_canonical",
    "C63_montgomery_refuted"
   ],
   "note": "False for MontgomeryPoint (refuted, with the exact condition); proved for Decaf encodings and canonical Montgomery points. CompressedRistretto has no working decoder (C51), so for it only equality of bytes is proved."
  },
  {
   "property": "C64",
   "status": "proved",
   "theorems": [
    "C64_x448",
    "C64_even_scalars",
    "C64_key_exchange"
   ],
   "note": ""
  },
  {
   "property": "C65",
   "status": "proved",
   "theorems": [
    "C65_encode",
    "C65_decode",
    "C65_roundtrip",
    "C65_decode_alone_refuted"
   ],
   "note": "The decoder of the RFC is decompress followed by a check that the point encodes back to the string; decompress alone accepts more (C65_decode_alone_refuted)."
  },
  {
   "property": "C66",
   "status": "proved",
   "theorems": [
    "C66_public",
    "C66_sign",
    "C66_verify",
    "C66_complete",
    "C66_unique"
   ],
   "note": "The programs sig_public, sig_sign and sig_verify are ours: the crate has no signature code. They show that its API suffices. Hash values are arguments; no claim about unforgeability."
  },
  {
   "property": "C67",
   "status": "proved",
   "theorems": [
    "C67_invert",
    "C67_isr",
    "C67_ed_add",
    "C67_tw_add",
    "C67_tw_double",
    "C67_ed_mul",
    "C67_window",
    "C67_bitwise",
    "C67_double_base",
    "C67_ladder",
    "C67_ed_compress",
    "C67_dc_compress",
    "C67_torsion_free",
    "C67_to_montgomery",
    "C67_ed_decompress",
    "C67_dc_decompress",
    "C67_word_field",
    "C67_word64_field",
    "C67_word_scalars"
   ],
   "note": "Word counts are for both backends, the 64-bit one with fiat-crypto as in FiatCode.v. Conversions to and from bytes and parity tests are not counted at the field level."
  },
  {
   "property": "C68",
   "status": "proved",
   "theorems": [
    "C68_strings",
    "C68_all_strings",
    "C68_encoded",
    "C68_compared",
    "C68_exchange",
    "C68_agreement",
    "C68_contributory",
    "C68_rejected",
    "C68_check",
    "C68_complete",
    "C68_extraction"
   ],
   "note": "The protocols are written over the API as a user would; the crate has none of its own."
  },
  {
   "property": "C69",
   "status": "proved",
   "theorems": [
    "C69_curve_tests_pass",
    "C69_fiat_test_passes",
    "C69_tests_can_fail"
   ],
   "note": "Validation of the model rather than a new property of the code. The tests of scalars and of the 32-bit field have no parameter and are stated as examples beside the theorems."
  },
  {
   "property": "C70",
   "status": "proved",
   "theorems": [
    "C70_curve",
    "C70_twist",
    "C70_primes",
    "C70_zero",
    "C70_reduced",
    "C70_x448"
   ],
   "note": "The order of the twist is proved, not assumed: the two curves together have 2p + 2 points, and l' is prime by a certificate."
  },
  {
   "property": "C71",
   "status": "proved",
   "theorems": [
    "C71_x448",
    "C71_at_most_two",
    "C71_edwards",
    "C71_decaf",
    "C71_shared",
    "C71_random_edwards",
    "C71_random_decaf"
   ],
   "note": "Key generation is written over the API as a user would; the crate has none of its own."
  },
  {
   "property": "C72",
   "status": "proved",
   "theorems": [
    "C72_programs",
    "C72_spellings_agree",
    "C72_offered",
    "C72_negations",
    "C72_sum"
   ],
   "note": "Types only record owned or borrowed; programs are taken to pass the borrow checker."
  },
  {
   "property": "C73",
   "status": "proved",
   "theorems": [
    "C73_bytes",
    "C73_scalar",
    "C73_points_u32",
    "C73_points_fiat",
    "C73_numbers",
    "C73_text",
    "C73_text_lines",
    "C73_equality_refuted"
   ],
   "note": "Formats {:?} and {:#?}; other format flags are not modelled. That equal points print alike is false: C73_equality_refuted."
  },
  {
   "property": "C74",
   "status": "proved",
   "theorems": [
    "C74_choices",
    "C74_selection",
    "C74_default_methods",
    "C74_equality",
    "C74_slices",
    "C74_field_selection",
    "C74_no_bad_choice",
    "C74_steps"
   ],
   "note": "subtle is a dependency whose source is not in the repository; its code is written down as published (SubtleModel.v)."
  },
  {
   "property": "C75",
   "status": "proved",
   "theorems": [
    "C75_carry_mul",
    "C75_carry_square",
    "C75_carry",
    "C75_add_sub_opp",
    "C75_selectznz",
    "C75_bytes",
    "C75_contract",
    "C75_shipped",
    "C75_backends_agree"
   ],
   "note": "fiat-crypto is a dependency whose source is not in the repository; its code is written down as published, from memory (FiatCode.v), with the order of additions within one sum simplified. Theorems about shipped backends still hold of any code meeting the contract."
  },
  {
   "property": "C76",
   "status": "proved",
   "theorems": [
    "C76_order_text_refuted",
    "C76_borrow_add",
    "C76_borrow_mul",
    "C76_borrow_refuted",
    "C76_weak_bounds",
    "C76_weak_refuted",
    "C76_strong_chains",
    "C76_bias",
    "C76_bias_refuted",
    "C76_fiat_strong_refuted",
    "C76_ratio_zero",
    "C76_chain_length"
   ],
   "note": "Refuted as written: the order in constants.rs (sign), borrow == 1 never happening (it does for unreduced summands), 0 < self after weak_reduce, bias for 15 and more, strong_reduce of the 64-bit field (it leaves p). The theorems give what holds instead."
  },
  {
   "property": "C77",
   "status": "proved",
   "theorems": [
    "C77_twisted_count",
    "C77_twisted_half",
    "C77_untwist_clears",
    "C77_mul_clears",
    "C77_mul_clears_refuted",
    "C77_base_orders",
    "C77_base_order_refuted",
    "C77_comment_equation",
    "C77_comment_equation_twisted",
    "C77_comment_equation_refuted",
    "C77_table",
    "C77_table_refuted",
    "C77_digit_mask",
    "C77_digit_mask_refuted",
    "C77_niels",
    "C77_cost_8M",
    "C77_cost_mod_four"
   ],
   "note": "Refuted as written: order 2q of the original base point, the minus signs in two curve equations, odd multiples in the table, mask 1 for negative digits, and clearing of the cofactor only by multiples of 4 (2 suffices for points without a part of order 4). The theorems give what holds instead. The doubled coordinates of affine.rs:84 are C56."
  },
  {
   "property": "C78",
   "status": "proved",
   "theorems": [
    "C78_words32_invert",
    "C78_words32_isr",
    "C78_words32_ed_add",
    "C78_words32_tw_add",
    "C78_words32_tw_double",
    "C78_words32_ed_mul",
    "C78_words32_window",
    "C78_words32_bitwise",
    "C78_words32_double_base",
    "C78_words32_ladder",
    "C78_words32_mod_four",
    "C78_words32_ed_compress",
    "C78_words32_dc_compress",
    "C78_words32_torsion_free",
    "C78_words32_to_montgomery",
    "C78_words32_ed_decompress",
    "C78_words32_dc_decompress",
    "C78_words64_invert",
    "C78_words64_isr",
    "C78_words64_ed_add",
    "C78_words64_tw_add",
    "C78_words64_tw_double",
    "C78_words64_ed_mul",
    "C78_words64_window",
    "C78_words64_bitwise",
    "C78_words64_double_base",
    "C78_words64_ladder",
    "C78_words64_mod_four",
    "C78_words64_ed_compress",
    "C78_words64_dc_compress",
    "C78_words64_torsion_free",
    "C78_words64_to_montgomery",
    "C78_words64_ed_decompress",
    "C78_words64_dc_decompress",
    "C78_scalar_invert",
    "C78_scalar_decode"
   ],
   "note": "Steps are those of the model's word machines (TraceSpec.v, TraceSpec64.v): arithmetic, shifts, casts, assertions, words turned into booleans, words handed out. They are not machine instructions; what a compiler makes of them is not modelled."
  },
  {
   "property": "C79",
   "status": "proved",
   "theorems": [
    "C79_programs32",
    "C79_programs64",
    "C79_operations",
    "C79_field32",
    "C79_field64",
    "C79_scalars",
    "C79_unreduced_refuted",
    "C79_unreduced64_refuted"
   ],
   "note": "The release build is the code in steps (StepU32.v, StepFiat.v, StepScalar.v, StepCurve.v) with wrapping arithmetic; assertions and bounds checks stay, as in Rust. For words beyond the bounds the crate keeps, the two builds differ: C79_unreduced_refuted, C79_unreduced64_refuted. subtle's debug assertion that a Choice is 0 or 1 is C80. Optimisations of the compiler are not modelled."
  },
  {
   "property": "C80",
   "status": "proved",
   "theorems": [
    "C80_choice",
    "C80_programs32",
    "C80_programs64",
    "C80_comparisons",
    "C80_signs",
    "C80_wide_refuted"
   ],
   "note": "Choice::from is written out from the publication of subtle 2, as in C74; the source is not in /repo. Checked wherever the crate, or subtle's own ct_eq, makes a Choice of a word. Where the crate casts a bool to u8 for it (double_and_add.rs, montgomery.rs, scalar_mod_four) the model keeps the bool. The ranges of the compared words are needed: C80_wide_refuted."
  },
  {
   "property": "C81",
   "status": "proved",
   "theorems": [
    "C81_programs32",
    "C81_programs64",
    "C81_branches32",
    "C81_branches64",
    "C81_decisions32",
    "C81_decisions64",
    "C81_secrets32",
    "C81_secrets64",
    "C81_field32",
    "C81_field64",
    "C81_scalars",
    "C81_unreduced_refuted"
   ],
   "note": "Steps are those of the model's word machines, as in C53; the release build differs in arithmetic only (wrapping instead of panicking). Whether a compiler keeps the source's steps is not modelled. Where the debug build stops on overflow the release build does more: C81_unreduced_refuted."
  },
  {
   "property": "C82",
   "status": "proved",
   "theorems": [
    "C82_to_twisted_fibre",
    "C82_four_different",
    "C82_to_twisted_image",
    "C82_two_isogeny_refuted",
    "C82_to_untwisted_fibre",
    "C82_to_untwisted_image",
    "C82_to_montgomery_fibre",
    "C82_signs_different",
    "C82_to_montgomery_image"
   ],
   "note": "The readme and two comments call the map to the twisted curve a 2-isogeny; C82_two_isogeny_refuted gives three points with the same image, C82_to_twisted_fibre the four there always are."
  },
  {
   "property": "C83",
   "status": "proved",
   "theorems": [
    "C83_bytes_and_scalars",
    "C83_field",
    "C83_points",
    "C83_all_coordinates_refuted",
    "C83_hash",
    "C83_hash_exact",
    "C83_hash_products",
    "C83_hash_u_refuted",
    "C83_zeroize"
   ],
   "note": "Refuted as Rust states it for all values of the type: coordinates that are all zero equal every point (C83_all_coordinates_refuted); the fields are private and C19 shows no such point is produced. What a comparison means is C15, C21, C46, C62, C63."
  },
  {
   "property": "C84",
   "status": "proved",
   "theorems": [
    "C84_builds",
    "C84_builds_asked",
    "C84_additive_refuted",
    "C84_optional_items",
    "C84_builds_agree"
   ],
   "note": "That features are additive is false: refuted, with the exact condition. Name resolution is modelled for the items under cfg attributes only."
  },
  {
   "property": "C85",
   "status": "proved",
   "theorems": [
    "C85_bits",
    "C85_bits_any",
    "C85_any_refuted",
    "C85_strong_reduce",
    "C85_to_bytes"
   ],
   "note": "The steps of mul (StepU32.v, proved equal to the model) run on a machine whose i128 is w bits wide. C85_any_refuted: with limbs beyond the bound the result need not be the product."
  },
  {
   "property": "C86",
   "status": "proved",
   "theorems": [
    "C86_logarithm",
    "C86_accepts",
    "C86_extract",
    "C86_nonce_reuse",
    "C86_binds",
    "C86_binds_refuted",
    "C86_simulates"
   ],
   "note": "The signature functions (Signature.v) are written over the crate's API and are not part of it; the hash values are arguments. C86_binds_refuted: with the key of order 1 a signature is accepted for every hash."
  },
  {
   "property": "C87",
   "status": "proved",
   "theorems": [
    "C87_weak_reduce",
    "C87_to_bytes",
    "C87_add",
    "C87_sub",
    "C87_mul",
    "C87_mul_operand",
    "C87_square",
    "C87_square_is_mul_refuted"
   ],
   "note": "About the functions outside the invariant that the rest of the development proves; no call in the crate leaves it. C87_square_is_mul_refuted: beyond the bound of square the two functions differ."
  },
  {
   "property": "C88",
   "status": "proved",
   "theorems": [
    "C88_edwards",
    "C88_rfc8032",
    "C88_montgomery",
    "C88_decaf",
    "C88_scalar",
    "C88_scalar_canonical",
    "C88_rfc8032_total",
    "C88_decaf_total"
   ],
   "note": ""
  },
  {
   "property": "C89",
   "status": "proved",
   "theorems": [
    "C89_edwards",
    "C89_twisted",
    "C89_edwards_refuted",
    "C89_twisted_refuted"
   ],
   "note": "That whatever passes is a point is false: exact theorems and witnesses (four zeros; a point at infinity of the twisted curve). No call in the crate makes such coordinates (C19, C49)."
  },
  {
   "property": "C90",
   "status": "proved",
   "theorems": [
    "C90_add",
    "C90_sub",
    "C90_montgomery",
    "C90_mul",
    "C90_halve",
    "C90_radix_16"
   ],
   "note": "The steps of StepScalar.v (proved equal to the model) run on a machine with other widths."
  },
  {
   "property": "C91",
   "status": "proved",
   "theorems": [
    "C91_equal",
    "C91_fibre",
    "C91_zero",
    "C91_image",
    "C91_reduced",
    "C91_x448"
   ],
   "note": ""
  },
  {
   "property": "C92",
   "status": "proved",
   "theorems": [
    "C92_edwards",
    "C92_edwards_image",
    "C92_edwards_reduced",
    "C92_decaf",
    "C92_decaf_image",
    "C92_decaf_permutes"
   ],
   "note": ""
  },
  {
   "property": "C93",
   "status": "proved",
   "theorems": [
    "C93_clamp",
    "C93_curve",
    "C93_twist",
    "C93_curve_results",
    "C93_twist_results",
    "C93_x448_keys",
    "C93_edwards_clamped",
    "C93_decaf_clamped",
    "C93_edwards_raw",
    "C93_decaf_raw"
   ],
   "note": ""
  },
  {
   "property": "C94",
   "status": "proved",
   "theorems": [
    "C94_order",
    "C94_exact",
    "C94_zero",
    "C94_reduced",
    "C94_x448",
    "C94_equal"
   ],
   "note": ""
  },
  {
   "property": "C95",
   "status": "proved",
   "theorems": [
    "C95_components",
    "C95_direct",
    "C95_direct_complete",
    "C95_direct_stricter",
    "C95_direct_one",
    "C95_direct_same_refuted",
    "C95_direct_integer_refuted",
    "C95_loose",
    "C95_loose_count",
    "C95_loose_number",
    "C95_raw"
   ],
   "note": "That leaving the factor 4 out changes nothing is false, and so is that it decides the equation for the integer h: exact theorem and witnesses. The checks are user code over the API."
  },
  {
   "property": "C96",
   "status": "proved",
   "theorems": [
    "C96_verify",
    "C96_unique",
    "C96_batch",
    "C96_complete",
    "C96_one_scalar",
    "C96_one_string",
    "C96_sum_refuted"
   ],
   "note": "That the unweighted sum is enough is false: exact theorem and witness. The check is user code over the API; how the scalars are drawn is not modelled."
  },
  {
   "property": "C97",
   "status": "proved",
   "theorems": [
    "C97_commit",
    "C97_hiding",
    "C97_hiding_refuted",
    "C97_binding",
    "C97_sum",
    "C97_blind",
    "C97_blind_zero",
    "C97_blind_hiding",
    "C97_decrypt",
    "C97_opens",
    "C97_both",
    "C97_both_complete",
    "C97_both_sound"
   ],
   "note": "That commitments hide for every accepted H is false: exact theorem and witness. The protocols are user code over the API; how scalars are drawn is not modelled."
  },
  {
   "property": "C98",
   "status": "proved",
   "theorems": [
    "C98_share",
    "C98_recover",
    "C98_recover_refuted",
    "C98_twice",
    "C98_hiding",
    "C98_hiding_refuted",
    "C98_party_zero",
    "C98_check",
    "C98_check_exact",
    "C98_combined"
   ],
   "note": "That repeated parties find the secret and that party 0 learns nothing are false: exact theorems and witnesses. The sharing is user code over the API; how coefficients are drawn is not modelled."
  },
  {
   "property": "C99",
   "status": "proved",
   "theorems": [
    "C99_strings",
    "C99_received",
    "C99_sent",
    "C99_compress",
    "C99_equal",
    "C99_torsion_free",
    "C99_montgomery",
    "C99_agree",
    "C99_answers",
    "C99_answers_clear",
    "C99_leak",
    "C99_public",
    "C99_public_refuted"
   ],
   "note": "That secrets with one public key answer every accepted string alike is false without clearing the cofactor: exact theorem and witness. Key agreement on Edwards points is user code over the API."
  },
  {
   "property": "C100",
   "status": "proved",
   "theorems": [
    "C100_program",
    "C100_edwards_point",
    "C100_twisted_point",
    "C100_decaf_point",
    "C100_log_edwards",
    "C100_log_decaf",
    "C100_twisted_order",
    "C100_twisted_all"
   ],
   "note": "Projective Montgomery points stay pairs of coordinates; the programs are user code over the API."
  },
  {
   "property": "C101",
   "status": "proved",
   "theorems": [
    "C101_generator",
    "C101_every_string",
    "C101_string",
    "C101_cross",
    "C101_mul",
    "C101_equal",
    "C101_chain",
    "C101_reach",
    "C101_function",
    "C101_reduced",
    "C101_x448"
   ],
   "note": "Generators are shown to exist and are not computed; the multiplier is the next even number (C37)."
  },
  {
   "property": "C102",
   "status": "proved",
   "theorems": [
    "C102_bridge",
    "C102_point",
    "C102_program",
    "C102_image",
    "C102_generator",
    "C102_public",
    "C102_ladder",
    "C102_multiple",
    "C102_agree",
    "C102_mixed",
    "C102_mixed_even",
    "C102_mixed_x448",
    "C102_mixed_generator"
   ],
   "note": "The generator of Curve448 is shown to exist and is not computed; the equality of the two multiplications fails for odd scalars (C37), and C102_agree says exactly when. Key agreement that mixes the two multiplications is proved for even scalars and characterised for all; C102_mixed_case shows that it fails for 1 and 2."
  }
 ]
}