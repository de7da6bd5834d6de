{"claims": [
 {"property": "C01", "status": "proved", "theorems": ["C01_hex_decode", "C01_hex_exists", "C01_hex_decode_odd", "C01_hex_bad_char_aborts", "C01_hex_trailing_nul", "C01_hex_small_dest_aborts", "C01_hex_never_overruns", "C01_hex_fixed", "C01_hex_literal"], "note": ""},
 {"property": "C02", "status": "proved", "theorems": ["C02_memxor", "C02_memxor_involutive"], "note": ""},
 {"property": "C03", "status": "proved", "theorems": ["C03_views_roundtrip", "C03_truncated_rejected", "C03_truncated_unchecked_refuted", "C03_view_is_a_slice"], "note": "rejection of truncated input relies on the stream's own skip check; with a stream whose skip is unchecked the property fails, as C03_truncated_unchecked_refuted shows"},
 {"property": "C04", "status": "proved", "theorems": ["C04_fixed_buffer", "C04_flexbuffer", "C04_flex_constant", "C04_flex_mixed"], "note": "flexbuffer also in constant expressions, where it is limited to its in-object size (C04_flex_constant), and objects carried over to run time (C04_flex_mixed)"},
 {"property": "C05", "status": "proved", "theorems": ["C05_sha384", "C05_constants"], "note": "messages under 2^64 bytes, the range of the length type"},
 {"property": "C06", "status": "proved", "theorems": ["C06_sha3_256", "C06_sha3_384", "C06_sha3_512", "C06_shake128", "C06_shake256", "C06_permutation"], "note": ""},
 {"property": "C07", "status": "proved", "theorems": ["C07_mgf1"], "note": "for masks of at most 2^32 hash blocks, the RFC limit"},
 {"property": "C08", "status": "proved", "theorems": ["C08_pkcs1_v1_5"], "note": "relative to an exact modular exponentiation primitive (C11 covers the software one) and a modulus without leading zero bytes"},
 {"property": "C09", "status": "partial", "theorems": ["C09_pss_bytes", "C09_all_salts", "C09_pss_partial", "C09_bit_length_accepts_refuted", "C09_bit_length_rejects_refuted", "C09_salt_length_wrap_refuted"], "note": "characterised exactly, relative to an exact primitive, for every modulus without leading zero byte and every 32-bit salt length (C09_pss_bytes); this is the RFC for moduli that fill their top byte (C09_all_salts).  For other bit lengths the code departs from the RFC both ways (C09_bit_length_accepts_refuted, C09_bit_length_rejects_refuted), and a salt length near 2^32 wraps and reads out of bounds (C09_salt_length_wrap_refuted)"},
 {"property": "C10", "status": "proved", "theorems": ["C10_is_s_valid", "C10_leading_zero_refuted"], "note": "a modulus with leading zero bytes breaks it (C10_leading_zero_refuted)"},
 {"property": "C11", "status": "proved", "theorems": ["C11_exact", "C11_total", "C11_exact_for", "C11_pkcs1", "C11_pss", "C11_refused_exponents", "C11_modulus_length_ub", "C11_exponent_length_ub", "C11_long_exponent_refuted", "C11_big_exponent_refuted", "C11_even_modulus_refuted", "C11_unreduced_base_refuted", "C11_leading_zero_refuted"], "note": "C11_total says for every odd exponent of up to 8 bytes what is computed; outside the stated domain the routine fails: C11_big_exponent_refuted, C11_even_modulus_refuted, C11_leading_zero_refuted, C11_unreduced_base_refuted, C11_long_exponent_refuted, C11_modulus_length_ub; C11_pkcs1 and C11_pss compose it with the RSA verification theorems"},
 {"property": "C12", "status": "partial", "theorems": ["C12_pss_sizes", "C12_pkcs1_sizes", "C12_pss_sizes_partial", "C12_failed_exponentiation", "C12_failed_exponentiation_pss"], "note": "PKCS#1 v1.5 in full; PSS for salt lengths that do not wrap (see C09_salt_length_wrap_refuted); C12_pss_sizes covers every 32-bit salt length, undefined behaviour being possible exactly there"},
 {"property": "C13", "status": "proved", "theorems": ["C13_add", "C13_sub", "C13_add_opposite_signs", "C13_sub_same_signs", "C13_compare", "C13_heap_uadd", "C13_heap_inplace_growth_refuted"], "note": "for fixed capacity the destination needs one word more than the larger operand when magnitudes are added; see C25 for what happens otherwise.  In-place addition on a heap-allocated bignum whose block is full reads freed memory (C13_heap_inplace_growth_refuted); C13_heap_uadd proves the heap-level addition in all other cases"},
 {"property": "C14", "status": "proved", "theorems": ["C14_mul", "C14_mul_sound", "C14_mul_word", "C14_mul_int"], "note": "for fixed capacity the code needs room for size x + size y words"},
 {"property": "C15", "status": "proved", "theorems": ["C15_div_mod", "C15_div", "C15_mod", "C15_quot_rem", "C15_div_by_zero_aborts", "C15_div_by_word_zero_aborts"], "note": "floored division (quot_rem) needs one spare word in fixed capacity; truncated division needs none"},
 {"property": "C16", "status": "proved", "theorems": ["C16_shl", "C16_shr", "C16_test_bit", "C16_bit_length", "C16_bit_length_zero", "C16_set_bit", "C16_set_bit_beyond_size_refuted"], "note": "set_bit beyond the current word count is wrong (C16_set_bit_beyond_size_refuted); below it is exact"},
 {"property": "C17", "status": "proved", "theorems": ["C17_of_bytes", "C17_of_bytes_too_long_aborts", "C17_set_bytes", "C17_to_bytes", "C17_bytes_roundtrip", "C17_value_roundtrip", "C17_get_bytes"], "note": "for fixed capacity the byte string, leading zeros included, has to fit"},
 {"property": "C18", "status": "partial", "theorems": ["C18_naf", "C18_naf_unique", "C18_naf_full_capacity_refuted", "C18_naf_full"], "note": "proved for every non-negative integer whose capacity has a spare word (always for bignum); false for an operand that fills its fixed capacity (C18_naf_full_capacity_refuted); C18_naf_full says exactly what comes out then"},
 {"property": "C19", "status": "proved", "theorems": ["C19_negative", "C19_divisions", "C19_minus_one_refuted", "C19_modinv", "C19_unique", "C19_zero_has_no_inverse", "C19_zero_modulus_aborts", "C19_modulus_one_refuted", "C19_negative_modulus", "C19_both_negative_refuted"], "note": "all positive x and m > 1, fixed capacity needs one spare word; modulo 1 the result is out of range (C19_modulus_one_refuted); negative x, outside the stated domain, are characterised by C19_negative, and -1 is refused for every modulus (C19_minus_one_refuted); negative moduli are characterised by C19_negative_modulus and C19_both_negative_refuted"},
 {"property": "C20", "status": "partial", "theorems": ["C20_lcm_hangs_refuted", "C20_lcm_bound", "C20_gcd", "C20_lcm_partial", "C20_lcm_refuted", "C20_gcd_any", "C20_gcd_negative_refuted", "C20_lcm_any", "C20_lcm_negative_refuted"], "note": "gcd proved for all non-negative operands; lcm proved except when the gcd has at least two words and its top bit is set, where the code is wrong because of aliased division (C20_lcm_refuted); with x at least twice as long as such a gcd it never returns (C20_lcm_hangs_refuted); operands of any sign, outside the stated domain, are covered by C20_gcd_any and C20_lcm_any, and two negative operands give negative results (C20_gcd_negative_refuted, C20_lcm_negative_refuted)"},
 {"property": "C21", "status": "partial", "theorems": ["C21_modexp_total", "C21_modexp_word_total", "C21_modexp_member", "C21_pow_member", "C21_pow_member_any", "C21_pow", "C21_pow_int", "C21_pow_sound", "C21_pow_negative_fails", "C21_modexp", "C21_modexp_word", "C21_modexp_unreduced_base_refuted", "C21_modexp_modulus_one_refuted"], "note": "pow exact for all non-negative exponents; modexp exact for exponents of at least 2, and for every exponent with a reduced base and m > 1; false otherwise (C21_modexp_unreduced_base_refuted, C21_modexp_modulus_one_refuted); C21_modexp_total and C21_modexp_member give the result for every base, exponent and modulus of either sign"},
 {"property": "C22", "status": "proved", "theorems": ["C22_jacobi", "C22_prime", "C22_even"], "note": "quadratic reciprocity and Euler criterion are proved; the odd-n requirement is only an assert in the code; C22_even says what is returned for even n"},
 {"property": "C23", "status": "partial", "theorems": ["C23_valid", "C23_canonical_ops", "C23_zero_sign_refuted", "C23_negative_zero_unequal_refuted", "C23_zero_sign"], "note": "well-formedness proved for all sequences of operations; \"zero is never negative\" is false (C23_zero_sign_refuted), and shows up in comparisons with unsigned 0 (C23_negative_zero_unequal_refuted); C23_zero_sign gives the sign of every zero sum, difference and product"},
 {"property": "C24", "status": "proved", "theorems": ["C24_or", "C24_and", "C24_or_word", "C24_and_word"], "note": ""},
 {"property": "C25", "status": "partial", "theorems": ["C25_add_sub_exact_or_zero", "C25_flex_has_room", "C25_add_refuted", "C25_mul_refuted", "C25_shl_refuted", "C25_add_sub_exact", "C25_mul_exact", "C25_op_mul_exact", "C25_shl_exact", "C25_word_exact", "C25_int_exact"], "note": "false as stated (C25_add_refuted, C25_mul_refuted, C25_shl_refuted); what holds: sums and differences are exact or zero, a multiplication that reports success is exact (C14_mul_sound), division is exact at any capacity (C15_div_mod); C25_add_sub_exact, C25_mul_exact, C25_op_mul_exact, C25_shl_exact, C25_word_exact and C25_int_exact give the result at every capacity"},
 {"property": "C26", "status": "partial", "theorems": ["C26_of_int", "C26_of_word", "C26_of_64", "C26_signed", "C26_unsigned", "C26_div_word_negative_refuted", "C26_mod_word_refuted", "C26_div_word"], "note": "false for division of a negative number by an unsigned word and for % by an unsigned word (C26_div_word_negative_refuted, C26_mod_word_refuted); proved for all other operations; C26_div_word gives the quotient for every dividend"},
 {"property": "C27", "status": "proved", "theorems": ["C27_add", "C27_sub", "C27_mul", "C27_sqr", "C27_neg", "C27_expressions", "C27_add_int", "C27_sub_int", "C27_mul_int", "C27_predicates", "C27_constructor", "C27_normalize", "C27_normalize_refuted", "C27_unreduced_operand_refuted", "C27_null_modulus_ub"], "note": "mixed operations with unreduced big integers and fp_normalize outside its range: C27_unreduced_operand_refuted, C27_normalize_refuted"},
 {"property": "C28", "status": "proved", "theorems": ["C28_inv", "C28_div", "C28_div_zero", "C28_not_invertible"], "note": ""},
 {"property": "C29", "status": "proved", "theorems": ["C29_sqrt", "C29_roots"], "note": "p = 2 included; the search for a non-residue and the early return of 0 are covered"},
 {"property": "C30", "status": "partial", "theorems": ["C30_sum_product", "C30_swapped", "C30_minus_refuted", "C30_div_refuted"], "note": "false for - and /: C30_minus_refuted, C30_div_refuted; C30_swapped states what is computed; + and * hold"},
 {"property": "C31", "status": "partial", "theorems": ["C31_law_assoc", "C31_add", "C31_doubled", "C31_inverted", "C31_sub", "C31_on_curve", "C31_equal", "C31_is_identity", "C31_closed", "C31_comm", "C31_assoc", "C31_identity", "C31_inverse", "C31_b_zero_refuted"], "note": "holds for every curve with b <> 0; false for b = 0, where the point (0,0) is taken for the identity: C31_b_zero_refuted; what is computed there is C64"},
 {"property": "C32", "status": "proved", "theorems": ["C32_add", "C32_doubled", "C32_inverted", "C32_sub", "C32_on_curve", "C32_equal", "C32_scaling", "C32_is_identity", "C32_of_affine", "C32_to_affine", "C32_normalize", "C32_agrees", "C32_double_agrees"], "note": "stated against the curve group for every curve; the comparison with the affine class (C32_agrees, C32_double_agrees) needs b <> 0 because of C31_b_zero_refuted"},
 {"property": "C33", "status": "partial", "theorems": ["C33_add", "C33_doubled", "C33_inverted", "C33_sub", "C33_on_curve", "C33_equal", "C33_scaling", "C33_is_identity", "C33_of_affine", "C33_to_affine", "C33_normalize", "C33_agrees", "C33_double_agrees", "C33_small_field_refuted"], "note": "holds for every prime above 8; false for p = 7, where the multiplier 8 is not reduced: C33_small_field_refuted"},
 {"property": "C34", "status": "partial", "theorems": ["C34_affine", "C34_projective", "C34_jacobian", "C34_small_field_refuted", "C34_b_zero_refuted", "C34_affine_valid", "C34_projective_valid", "C34_jacobian_valid"], "note": "holds for affine points with b <> 0, homogeneous points always, Jacobian points with p > 8; the excluded cases are false: C34_b_zero_refuted, C34_small_field_refuted; for b = 0 what is computed is C64"},
 {"property": "C35", "status": "proved", "theorems": ["C35_jacobian", "C35_projective", "C35_affine"], "note": "Jacobian points with p > 8, affine points with b <> 0 (the point operations themselves fail outside, see C31 and C33)"},
 {"property": "C36", "status": "partial", "theorems": ["C36_encoding", "C36_length", "C36_roundtrip", "C36_ordinate_zero_refuted"], "note": "uncompressed and identity encodings for every point; compressed ones for points of the curve with ordinate not zero; false otherwise: C36_ordinate_zero_refuted"},
 {"property": "C37", "status": "partial", "theorems": ["C37_decode", "C37_decode_unique", "C37_satisfies", "C37_malformed", "C37_compressed", "C37_compressed_on_curve", "C37_uncompressed", "C37_off_curve_refuted", "C37_unreduced_refuted"], "note": "characterised for every byte string by C37_decode; compressed strings give points satisfying the equation (C37_satisfies); false for uncompressed strings (not checked) and, as objects, for unreduced abscissas: C37_off_curve_refuted, C37_unreduced_refuted"},
 {"property": "C38", "status": "partial", "theorems": ["C38_unreduced", "C38_compute_y", "C38_decompress", "C38_odd_order", "C38_checked", "C38_ordinate_zero_refuted"], "note": "unique point with the parity, failure exactly when no point with a non-zero ordinate, also for unreduced abscissas (C38_unreduced); holds as stated on curves of odd order (C38_odd_order); false with ordinate zero: C38_ordinate_zero_refuted"},
 {"property": "C39", "status": "partial", "theorems": ["C39_verify", "C39_assert", "C39_verify_bytes", "C39_sound", "C39_cofactor_refuted", "C39_digest_refuted", "C39_verify_exact", "C39_once_standard"], "note": "exact for p <= 2n and an order of whole bytes or a digest not longer than the order; outside these false: C39_cofactor_refuted, C39_digest_refuted; soundness for the byte-truncated digest holds always; p above 8; C39_verify_exact gives the condition for every size of p and n"},
 {"property": "C40", "status": "proved", "theorems": ["C40_rejected", "C40_returns"], "note": "the range check comes before any curve arithmetic, so it holds for any objects as key and digest"},
 {"property": "C41", "status": "partial", "theorems": ["C41_recovered_verifies", "C41_key_recovered", "C41_digest_refuted", "C41_long_digest", "C41_range_refuted"], "note": "for r < p, p <= 2n and digests as in C39; outside false: C41_digest_refuted, C41_range_refuted; digests above 2n are treated as the empty one (C41_long_digest)"},
 {"property": "C42", "status": "partial", "theorems": ["C42_bits", "C42_bytes", "C42_refuted"], "note": "exact for orders of whole bytes and digests not longer than the order; whole bytes are taken otherwise: C42_bytes, C42_refuted"},
 {"property": "C43", "status": "proved", "theorems": ["C43_span_equality", "C43_rsa_key_equality", "C43_rsa_pss_key_equality"], "note": ""},
 {"property": "C44", "status": "proved", "theorems": ["C44_constructed", "C44_consistent", "C44_usable", "C44_literal"], "note": "All eight declarations, for both integer types. The numbers are checked by computation in the kernel; primality of p and n is a hypothesis of C44_usable and is proved in C50_primes."},
 {"property": "C45", "status": "proved", "theorems": ["C45_not", "C45_mux", "C45_eq", "C45_neq", "C45_gt", "C45_ge", "C45_lt", "C45_bit_length", "C45_bit_length_array", "C45_divrem", "C45_ninv32"], "note": "also br_divrem, br_i32_ninv32 and the bit length of an array"},
 {"property": "C46", "status": "proved", "theorems": ["C46_signed_verifies"], "note": "p <= 2n, order of whole bytes or digest not longer than the order, p above 8"},
 {"property": "C47", "status": "partial", "theorems": ["C47_verify", "C47_accepts_refuted", "C47_rejects_refuted", "C47_composite_refuted"], "note": "Exact characterisation for every prime p and every b: C47_verify. Consistency of the cofactor is not what is checked (C47_accepts_refuted, C47_rejects_refuted), for b = 0 neither is the order of the generator (C64_verify_refuted), and a composite p is accepted (C47_composite_refuted)."},
 {"property": "C48", "status": "proved", "theorems": ["C48_generate", "C48_generate_projective", "C48_generate_jacobian", "C48_injective", "C48_make_point"], "note": "affine points with b <> 0, Jacobian points with p > 8 as in C31 and C33"},
 {"property": "C49", "status": "proved", "theorems": ["C49_negated"], "note": "curves usable for ECDSA with p <= 2n"},
 {"property": "C50", "status": "proved", "theorems": ["C50_primes", "C50_group", "C50_object", "C50_verify", "C50_generate"], "note": "primality by Pocklington certificates, the group order by Hasse-free curve certificates checked in the kernel with 63-bit machine integers of the standard library"},
 {"property": "C51", "status": "proved", "theorems": ["C51_verify", "C51_signed", "C51_recovered", "C51_recoverable", "C51_codec", "C51_decompress", "C51_make_point"], "note": "digests of secp521r1 of at most 65 bytes (C42_refuted says why)"},
 {"property": "C52", "status": "partial", "theorems": ["C52_hashes", "C52_check", "C52_total", "C52_action", "C52_key_on_curve_refuted"], "note": "exact for keys on the curve and total for all inputs; that success implies a key on the curve is refuted by C52_key_on_curve_refuted"},
 {"property": "C53", "status": "partial", "theorems": ["C53_pkcs1_every", "C53_pss_every", "C53_exponent_ub", "C53_pkcs1", "C53_pss_partial", "C53_software_partial", "C53_pss_bytes"], "note": "PSS characterised exactly for every modulus without leading zero byte and every salt length (C53_pss_bytes); it is the RFC for moduli that fill their top byte, and C09 refutes the rest. Over the exponentiation of powm.h the outcome is given for every exponent (C53_pkcs1_every, C53_pss_every); one of them is undefined behaviour (C53_exponent_ub)"},
 {"property": "C54", "status": "partial", "theorems": ["C54_affine", "C54_projective", "C54_jacobian", "C54_verify", "C54_key_on_curve_refuted"], "note": "definedness proved; that an accepted key is on the curve is refuted by C54_key_on_curve_refuted"},
 {"property": "C55", "status": "proved", "theorems": ["C55_affine", "C55_projective", "C55_jacobian"], "note": "curves through the point that are not singular; affine points also with b' <> 0 (the affine identity is (0, 0))"},
 {"property": "C56", "status": "partial", "theorems": ["C56_exact", "C56_any_digest", "C56_named_any", "C56_unique_id", "C56_accepts", "C56_check", "C56_check_verifies", "C56_identity_refuted", "C56_named", "C56_named_check"], "note": "proved for all curves satisfying `usable` (order n prime, n kills all points, p <= 2n) and for the named curves; that success of the comparison implies verification is refuted for the identity as key (C56_identity_refuted)"},
 {"property": "C57", "status": "partial", "theorems": ["C57_programs", "C57_hazard", "C57_no_inplace_addition", "C57_division_by_zero", "C57_doubling_refuted", "C57_moved_from_refuted"], "note": "proved for all programs, with the one exception characterised exactly (C57_programs, C57_hazard); the unrestricted claim is refuted by C57_doubling_refuted, and moved-from operands by C57_moved_from_refuted"},
 {"property": "C58", "status": "proved", "theorems": ["C58_compare", "C58_real_size", "C58_add", "C58_sub", "C58_mul_word", "C58_mul_word_add", "C58_copy", "C58_clear", "C58_shl", "C58_shr", "C58_shift_left", "C58_shift_right", "C58_add_word", "C58_sub_word", "C58_div_word", "C58_mod_word", "C58_mul_nm", "C58_div", "C58_div_no_quotient", "C58_div_zero", "C58_uadd", "C58_uadd1", "C58_usub", "C58_usub1", "C58_mulu1", "C58_udiv", "C58_udiv_no_quotient", "C58_copy_overlap"], "note": "all placements of the operands allowed by the direction of each loop; copy_n beyond that is characterised by C58_copy_overlap"},
 {"property": "C59", "status": "proved", "theorems": ["C59_inverse", "C59_pkcs1", "C59_one_digest", "C59_pss", "C59_pss_bytes", "C59_pss_collision", "C59_pkcs1_software", "C59_pss_software", "C59_action"], "note": "PSS is RFC 8017 for moduli that fill their top byte and characterised for the others (C59_pss_bytes)"},
 {"property": "C60", "status": "proved", "theorems": ["C60_points", "C60_holder", "C60_nonce", "C60_generate", "C60_named"], "note": "on curves satisfying `usable`, and unconditionally for the named curves; digests as in C39"},
 {"property": "C61", "status": "proved", "theorems": ["C61_add", "C61_sub", "C61_muladd", "C61_reduce", "C61_compare", "C61_subtract", "C61_montgomery", "C61_pow_mod", "C61_refuses", "C61_in_place_refuted", "C61_reduce_in_place_ub"], "note": "for all memories, under the stated separation of the operands; montgomery_mul, whose comment states no restriction, gives 0 in place (C61_in_place_refuted); br_i32_reduce in place, which its comment forbids, is undefined (C61_reduce_in_place_ub)"},
 {"property": "C62", "status": "proved", "theorems": ["C62_balanced", "C62_out_of_memory", "C62_gen_fails", "C62_gen_ok"], "note": "stack exhaustion (variable-length arrays) is not modelled; the out-of-memory theorem is for inputs on which the key generation is defined"},
 {"property": "C63", "status": "proved", "theorems": ["C63_pkcs1", "C63_pss", "C63_pss_bytes", "C63_pss_other", "C63_key", "C63_same", "C63_own_signature_refuted", "C63_foreign_signature_refuted"], "note": "PKCS#1 v1.5 for every exponent; PSS for moduli that fill their top byte (C63_pss), for the refused exponents with all moduli (C63_pss_other), and byte for byte for every exponent and modulus (C63_pss_bytes); C63_own_signature_refuted and C63_foreign_signature_refuted state the consequence for keys with an exponent above 2^33"},
 {"property": "C64", "status": "proved", "theorems": ["C64_add", "C64_doubled", "C64_sub", "C64_mul", "C64_mul_exact", "C64_odd_order", "C64_mul_add", "C64_valid", "C64_verify", "C64_make_point", "C64_generate", "C64_verify_refuted", "C64_make_point_refuted"], "note": "C64_add, C64_doubled and C64_sub hold for every b; C64_verify_refuted and C64_make_point_refuted state the consequence for generators and points of order 2n"},
 {"property": "C65", "status": "partial", "theorems": ["C65_arithmetic", "C65_relations", "C65_increments", "C65_bitwise", "C65_shifts", "C65_members", "C65_narrow", "C65_remainder_assignment", "C65_word_quotient", "C65_refuted", "C65_word_remainder_ub"], "note": "C65_arithmetic covers every overload except three families, for which the statement is false and the computed value is given: x %= k for 64-bit k is the quotient (C65_remainder_assignment), division of a negative number by a 32-bit word drops the sign (C65_word_quotient), the remainder by a 32-bit word is undefined behaviour (C65_word_remainder_ub); C65_refuted. A zero with a minus sign compares as -1 with a word (C65_relations)"},
 {"property": "C66", "status": "partial", "theorems": ["C66_operators", "C66_division", "C66_comparisons", "C66_is_valid", "C66_negation", "C66_assignment", "C66_null_modulus_ub", "C66_constants", "C66_base_members", "C66_base_is_one_refuted", "C66_unreduced_refuted", "C66_division_negative", "C66_inverse_negative", "C66_negative_inverse_refuted"], "note": "C66_operators gives the result for every operand; that it is always an element of the field is false (C66_unreduced_refuted), is_one of the base class is is_zero (C66_base_is_one_refuted), and elements without a modulus cannot be used (C66_null_modulus_ub); division by and inversion of negative numbers is C66_division_negative and C66_inverse_negative, and can abort although there is an inverse (C66_negative_inverse_refuted)"},
 {"property": "C67", "status": "proved", "theorems": ["C67_of_hex", "C67_too_long", "C67_not_hex", "C67_unique", "C67_generate", "C67_named", "C67_print"], "note": "C67_named relies on the group certificates of C50"},
 {"property": "C68", "status": "partial", "theorems": ["C68_programs", "C68_assigned_modulus_refuted", "C68_temporary_modulus_ub", "C68_points", "C68_curves", "C68_original_destroyed_ub", "C68_equality", "C68_copy_equality_refuted", "C68_other_curve_refuted"], "note": "C68_programs, C68_points, C68_curves and C68_equality hold for all programs, points and histories; assigning a modulus (C68_assigned_modulus_refuted), a temporary modulus (C68_temporary_modulus_ub), a copy that outlives its original (C68_original_destroyed_ub), equality on copies (C68_copy_equality_refuted) and equality across curves (C68_other_curve_refuted) fail. Points with three coordinates and ECDSA are C69"},
 {"property": "C69", "status": "partial", "theorems": ["C69_points", "C69_ecdsa", "C69_key_destroyed_ub", "C69_original_destroyed_ub", "C69_copy_equality_refuted", "C69_recovered_keys_refuted", "C69_origin", "C69_point_destroyed_ub"], "note": "C69_origin holds for all points; C69_points and C69_ecdsa hold for all points and histories in which the original of the curve object exists; a destroyed curve of a key (C69_key_destroyed_ub) or point (C69_point_destroyed_ub), a copy that outlives its original (C69_original_destroyed_ub), equality on copies (C69_copy_equality_refuted) and keys recovered by a copy (C69_recovered_keys_refuted) fail"},
 {"property": "C70", "status": "partial", "theorems": ["C70_functions", "C70_bit_length_value", "C70_decode_value", "C70_encode_value", "C70_bit_length", "C70_decode", "C70_divrem", "C70_add", "C70_sub", "C70_muladd_small", "C70_reduce", "C70_encode", "C70_key", "C70_montgomery_refuted"], "note": "holds for all memories and pointers for every BearSSL routine; the Montgomery multiplication, which is not from BearSSL, branches on its carry (C70_montgomery_refuted)"},
 {"property": "C71", "status": "partial", "theorems": ["C71_inverse", "C71_on_curve", "C71_neg", "C71_add", "C71_add_steps", "C71_mul", "C71_mul_add", "C71_verify", "C71_standard", "C71_off_curve", "C71_steps", "C71_curves", "C71_objects", "C71_sound", "C71_agree", "C71_infinity_refuted", "C71_identity_key_refuted", "C71_unreduced_refuted", "C71_negative_refuted", "C71_steps_refuted", "C71_order_two_refuted"], "note": "the arithmetic, the points and both verification functions hold for all inputs stated, and so does the agreement with the library; an identity sum raises (C71_infinity_refuted), the identity passes as a key (C71_identity_key_refuted), coordinates that are not reduced break the addition (C71_unreduced_refuted), negative factors lose their sign (C71_negative_refuted), printing breaks opposite points (C71_steps_refuted) and points of order two raise (C71_order_two_refuted)"},
 {"property": "C72", "status": "partial", "theorems": ["C72_refines", "C72_add", "C72_sub", "C72_word", "C72_int", "C72_compare", "C72_mul", "C72_div", "C72_quot_rem", "C72_div_word", "C72_mod_word_ub", "C72_assign", "C72_int64_refuted", "C72_shift", "C72_bits", "C72_set_bit", "C72_gcd", "C72_lcm", "C72_jacobi", "C72_modinv", "C72_pow", "C72_modexp", "C72_naf"], "note": "holds for all capacities and operands stated; the assertion of the 64-bit assignment refuses -2^31 and accepts -2^63 (C72_int64_refuted); modu1 writes through a null pointer in debug builds too (C72_mod_word_ub)"},
 {"property": "C73", "status": "proved", "theorems": ["C73_field", "C73_inverse", "C73_sqrt", "C73_stops", "C73_affine", "C73_projective", "C73_jacobian", "C73_curve_make", "C73_codec", "C73_generate", "C73_curve_verify", "C73_ecdsa", "C73_recover", "C73_accepts", "C73_named"], "note": "holds for all inputs stated; the primality of the order is a hypothesis of C73_named"},
 {"property": "C74", "status": "partial", "theorems": ["C74_rows", "C74_product", "C74_square", "C74_product_refuted"], "note": "C74_rows, C74_product and C74_square determine both functions; that mul_n is the product is false for every length above one (C74_product_refuted)"},
 {"property": "C75", "status": "partial", "theorems": ["C75_s", "C75_s_four", "C75_digest", "C75_second_digest", "C75_digest_four", "C75_reuse", "C75_message_refuted", "C75_named_refuted", "C75_named", "C75_named_four"], "note": "the bounds hold for all inputs stated; that a signature determines the digest is false on every usable curve (C75_message_refuted, C75_named_refuted), as ECDSA itself has this property"},
 {"property": "C76", "status": "proved", "theorems": ["C76_powm", "C76_zeros", "C76_refuses", "C76_modulus_length_ub", "C76_base_length_ub"], "note": "for lengths that are multiples of four; other lengths are undefined behaviour (C76_modulus_length_ub, C76_base_length_ub)"},
 {"property": "C77", "status": "proved", "theorems": ["C77_result", "C77_unreported", "C77_lengths", "C77_big_exponent", "C77_agrees", "C77_exponent_length_ub", "C77_modulus_length_ub", "C77_leading_zeros_ub"], "note": "the power for odd moduli, for even ones see C79; lengths and exponents that run into undefined behaviour are stated as such (C77_exponent_length_ub, C77_modulus_length_ub, C77_leading_zeros_ub)"},
 {"property": "C78", "status": "proved", "theorems": ["C78_pkcs1", "C78_key", "C78_pss", "C78_pss_other", "C78_pkcs1_agrees", "C78_pss_agrees", "C78_is_s_valid", "C78_memxor", "C78_mgf1"], "note": "for the moduli of C11; the software branch, with the hash function a parameter"},
 {"property": "C79", "status": "partial", "theorems": ["C79_power", "C79_refuses", "C79_memory", "C79_powm", "C79_pkcs1_agrees", "C79_pss_agrees", "C79_accepted", "C79_forgeable", "C79_accepted_refuted"], "note": "the result and what is accepted are determined; that the verification is the one of RFC 8017 is refuted for even moduli (C79_accepted_refuted), with a signature for every digest under a condition on the modulus (C79_forgeable)"},
 {"property": "C80", "status": "partial", "theorems": ["C80_accepted", "C80_range", "C80_pss", "C80_transfer", "C80_accepted_refuted", "C80_lengths_ub"], "note": "what is accepted is determined; that the verification is the one of RFC 8017 is refuted for moduli with leading zeros (C80_accepted_refuted), other lengths are undefined behaviour (C80_lengths_ub)"}
]}
