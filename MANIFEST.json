{
 "claims": [
  {
   "property": "C01",
   "status": "proved",
   "theorems": [
    "C01_add"
   ],
   "note": ""
  },
  {
   "property": "C02",
   "status": "proved",
   "theorems": [
    "C02_sub",
    "C02_sub_undoes_add"
   ],
   "note": ""
  },
  {
   "property": "C03",
   "status": "partial",
   "theorems": [
    "C03_mul_refuted",
    "C03_mul_partial"
   ],
   "note": "Refuted above 64 bits (todo!() in the code); proved for 1..64 bits, and every wider call is proved to panic."
  },
  {
   "property": "C04",
   "status": "proved",
   "theorems": [
    "C04_negate",
    "C04_negate_twice",
    "C04_add_negated"
   ],
   "note": ""
  },
  {
   "property": "C05",
   "status": "proved",
   "theorems": [
    "C05_bitwise"
   ],
   "note": ""
  },
  {
   "property": "C06",
   "status": "partial",
   "theorems": [
    "C06_shift_left_refuted",
    "C06_shift_left_exact",
    "C06_shift_left_partial",
    "C06_shift_left_low_bits_partial"
   ],
   "note": "Refuted when the amount is a non-zero multiple of 64 and the width is not: bits above the width stay set. The exact condition under which the claim holds is proved as an equivalence, and the low w bits are right for every amount."
  },
  {
   "property": "C07",
   "status": "proved",
   "theorems": [
    "C07_shift_right"
   ],
   "note": ""
  },
  {
   "property": "C08",
   "status": "proved",
   "theorems": [
    "C08_arithmetic_shift_right",
    "C08_arithmetic_shift_right_far"
   ],
   "note": ""
  },
  {
   "property": "C09",
   "status": "proved",
   "theorems": [
    "C09_slice",
    "C09_slice_bits",
    "C09_slice_full"
   ],
   "note": ""
  },
  {
   "property": "C10",
   "status": "proved",
   "theorems": [
    "C10_concat",
    "C10_concat_slice_apart",
    "C10_concat_assoc"
   ],
   "note": ""
  },
  {
   "property": "C11",
   "status": "proved",
   "theorems": [
    "C11_zero_extend",
    "C11_sign_extend"
   ],
   "note": ""
  },
  {
   "property": "C12",
   "status": "proved",
   "theorems": [
    "C12_eq",
    "C12_is_equal"
   ],
   "note": ""
  },
  {
   "property": "C13",
   "status": "proved",
   "theorems": [
    "C13_strict"
   ],
   "note": ""
  },
  {
   "property": "C14",
   "status": "partial",
   "theorems": [
    "C14_non_strict_refuted",
    "C14_non_strict_partial",
    "C14_non_strict_wide_partial"
   ],
   "note": "Refuted above 64 bits: the multi-word path of >= and <= uses the strict comparison, so a >= a is false. Proved for 1..64 bits; above 64 bits both are proved to be the strict comparison."
  },
  {
   "property": "C15",
   "status": "proved",
   "theorems": [
    "C15_signed"
   ],
   "note": ""
  },
  {
   "property": "C16",
   "status": "proved",
   "theorems": [
    "C16_is_negative"
   ],
   "note": ""
  },
  {
   "property": "C17",
   "status": "proved",
   "theorems": [
    "C17_to_u64",
    "C17_u64_round_trip"
   ],
   "note": ""
  },
  {
   "property": "C18",
   "status": "partial",
   "theorems": [
    "C18_to_i64_refuted",
    "C18_to_i64_exact",
    "C18_to_i64_partial",
    "C18_i64_round_trip_partial",
    "C18_i64_round_trip_fails"
   ],
   "note": "Refuted: for widths above 64 that are not a multiple of 64 every representable negative value gives None. The exact condition is proved as an equivalence (C18_to_i64_exact) and the failing round trips are characterised."
  },
  {
   "property": "C19",
   "status": "proved",
   "theorems": [
    "C19_from_u64",
    "C19_from_i64"
   ],
   "note": ""
  },
  {
   "property": "C20",
   "status": "proved",
   "theorems": [
    "C20_bool",
    "C20_tests",
    "C20_zero",
    "C20_ones"
   ],
   "note": ""
  },
  {
   "property": "C21",
   "status": "proved",
   "theorems": [
    "C21_print",
    "C21_parse",
    "C21_round_trip"
   ],
   "note": ""
  },
  {
   "property": "C22",
   "status": "proved",
   "theorems": [
    "C22_print",
    "C22_parse",
    "C22_round_trip"
   ],
   "note": ""
  },
  {
   "property": "C23",
   "status": "partial",
   "theorems": [
    "C23_print_partial",
    "C23_print_wide_refuted",
    "C23_print_overflow_refuted",
    "C23_round_trip_partial",
    "C23_parse_wide_refuted"
   ],
   "note": "Decimal text is exact below 2^128 and round-trips up to 128 bits. The code panics (todo!) when printing values >= 2^128 and when parsing decimal text at widths above 128; in debug builds the u32 product width*3 overflows for widths >= 2^32/3. The panics are proved for all inputs of those kinds."
  },
  {
   "property": "C24",
   "status": "partial",
   "theorems": [
    "C24_bit_refuted",
    "C24_hex_refuted",
    "C24_distinct_refuted",
    "C24_bit_exact_partial",
    "C24_hex_exact_partial",
    "C24_bit_back_partial",
    "C24_hex_back_partial",
    "C24_bit_text_partial",
    "C24_hex_text_partial"
   ],
   "note": "False of the code for the minimum value and for width 1; witnesses are proved, and the iff theorems say exactly for which widths and values the text denotes the signed value. The text theorems fix the exact text: sign, number of digits and the digits."
  },
  {
   "property": "C25",
   "status": "proved",
   "theorems": [
    "C25_minus_bits",
    "C25_minus_hex",
    "C25_plus_bits",
    "C25_plus_hex"
   ],
   "note": ""
  },
  {
   "property": "C26",
   "status": "partial",
   "theorems": [
    "C26_width_refuted",
    "C26_digit_refuted",
    "C26_fits_partial",
    "C26_small_partial",
    "C26_small_unchecked_refuted",
    "C26_small_digit_partial",
    "C26_small_kind_partial",
    "C26_sign_only_partial",
    "C26_wide_long_partial",
    "C26_wide_digit_bin_partial",
    "C26_wide_digit_hex_partial",
    "C26_wide_hex_refuted"
   ],
   "note": "False of the code: no width check up to 128 bits, '-+5' and '' accepted, hexadecimal text longer than the words panics above 128 bits, decimal panics above 128 bits. The remaining cases are proved, including which error kind is reported up to 128 bits. C73 gives the outcome for every text, radix and target."
  },
  {
   "property": "C27",
   "status": "partial",
   "theorems": [
    "C27_stale_refuted",
    "C27_torn_refuted",
    "C27_small_partial",
    "C27_empty_refuted",
    "C27_wide_bin_partial",
    "C27_wide_hex_partial"
   ],
   "note": "False of the code above 128 bits: high words keep stale contents and an invalid digit leaves a half-written value. Proved up to 128 bits for every non-empty text; the exact stale result is proved above. C73 gives the outcome for every text, radix and target."
  },
  {
   "property": "C28",
   "status": "proved",
   "theorems": [
    "C28_to_bytes",
    "C28_from_bytes",
    "C28_from_bytes_long",
    "C28_round_trip"
   ],
   "note": ""
  },
  {
   "property": "C29",
   "status": "proved",
   "theorems": [
    "C29_to_big_uint",
    "C29_to_big_int",
    "C29_from_big_uint",
    "C29_from_big_int",
    "C29_uint_round_trip",
    "C29_int_round_trip"
   ],
   "note": ""
  },
  {
   "property": "C30",
   "status": "proved",
   "theorems": [
    "C30_is_bit_set",
    "C30_set_bit",
    "C30_clear_bit"
   ],
   "note": ""
  },
  {
   "property": "C31",
   "status": "proved",
   "theorems": [
    "C31_history"
   ],
   "note": ""
  },
  {
   "property": "C32",
   "status": "proved",
   "theorems": [
    "C32_write",
    "C32_history",
    "C32_view"
   ],
   "note": ""
  },
  {
   "property": "C33",
   "status": "proved",
   "theorems": [
    "C33_pair",
    "C33_shared_pair",
    "C33_triple"
   ],
   "note": ""
  },
  {
   "property": "C34",
   "status": "proved",
   "theorems": [
    "C34_unique",
    "C34_release",
    "C34_zero_width_debug",
    "C34_limit"
   ],
   "note": "For every history; C34_limit shows that the bound on the stored words cannot be relaxed, C34_release covers values of width 0, which a debug build rejects (C34_zero_width_debug)."
  },
  {
   "property": "C35",
   "status": "proved",
   "theorems": [
    "C35_read_back",
    "C35_release"
   ],
   "note": ""
  },
  {
   "property": "C36",
   "status": "partial",
   "theorems": [
    "C36_refuted",
    "C36_zero_width_refuted",
    "C36_constants_partial"
   ],
   "note": "False of the code for values wider than 64 bits (they are never recognised) and for values of width 0; the partial theorem is an iff that names exactly this restriction, for every history."
  },
  {
   "property": "C37",
   "status": "partial",
   "theorems": [
    "C37_dense_history_partial",
    "C37_refuted"
   ],
   "note": "Proved for every shape whose words can be addressed (and fewer than 2^32 one-bit elements). Refuted for 2^32 one-bit elements: the constructor accepts them, truncates the element count to u32 and every read panics."
  },
  {
   "property": "C38",
   "status": "partial",
   "theorems": [
    "C38_history_partial",
    "C38_wide_partial",
    "C38_wide_refuted"
   ],
   "note": "Proved for index widths up to 64. Above, looking up an existing entry calls Borrow::borrow, which is todo!(): reading back a stored value panics (refuted for every lookup strategy). What such an array does return is proved right for every history."
  },
  {
   "property": "C39",
   "status": "partial",
   "theorems": [
    "C39_returns_partial",
    "C39_contents",
    "C39_wide_elements_refuted",
    "C39_refuted"
   ],
   "note": "Every result of make_dense is proved right. It returns for data widths up to 64 and in release builds; debug builds are proved to panic for wider data unless all elements are the default."
  },
  {
   "property": "C40",
   "status": "partial",
   "theorems": [
    "C40_contents",
    "C40_returns_partial",
    "C40_bytes_refuted",
    "C40_refuted"
   ],
   "note": "Every result is proved right. With 2 to 8 bits per element the conversion is proved to panic exactly when some element is 8 or more (count array of u8::BITS entries)."
  },
  {
   "property": "C41",
   "status": "proved",
   "theorems": [
    "C41_default"
   ],
   "note": ""
  },
  {
   "property": "C42",
   "status": "partial",
   "theorems": [
    "C42_entries_partial",
    "C42_refuted"
   ],
   "note": "Proved for every reachable array with index width >= 1; for index width 0 with a stored element the iterator panics (from_u64 with width 0)."
  },
  {
   "property": "C43",
   "status": "partial",
   "theorems": [
    "C43_contents",
    "C43_sparse_partial",
    "C43_returns_partial",
    "C43_eq",
    "C43_refuted",
    "C43_few_entries_partial"
   ],
   "note": "Some(true) always means equal contents, None always different shapes, and Some(false) means different contents whenever one side is dense. Two sparse arrays with equal contents but different defaults compare unequal (refuted; exact characterisation proved). Debug builds panic for mixed storage with data wider than 64 bits (see C39). Sparse arrays whose entries together are fewer than the indices compare equal exactly when the contents agree."
  },
  {
   "property": "C44",
   "status": "proved",
   "theorems": [
    "C44_bools",
    "C44_u8s",
    "C44_u64s",
    "C44_long_u8s",
    "C44_long_u64s",
    "C44_long_bools"
   ],
   "note": ""
  },
  {
   "property": "C45",
   "status": "partial",
   "theorems": [
    "C45_accepts_partial",
    "C45_refuses_partial",
    "C45_release_partial",
    "C45_limit_refuted",
    "C45_usable_refuted",
    "C45_release_exact",
    "C45_release_refuted"
   ],
   "note": "Acceptance and refusal are characterised exactly in debug and release builds. Refuted: release builds reduce the index width modulo 64, so an array with 64-bit indices is accepted with one element; above 64 bits per element the limit counts words instead of bytes (8 GiB accepted), and 2^32 one-bit elements are accepted but unusable."
  },
  {
   "property": "C46",
   "status": "partial",
   "theorems": [
    "C46_unsigned_partial",
    "C46_signed_partial",
    "C46_wide_fraction_partial",
    "C46_fixed_point_refuted",
    "C46_fraction_wider_than_value"
   ],
   "note": "Exact for fraction widths below 64 (signed: widths up to 64, wider negative values give None). From 64 fraction bits on, debug builds panic and release builds divide by the wrong power of two (characterised exactly)."
  },
  {
   "property": "C47",
   "status": "proved",
   "theorems": [
    "C47_ord_consistent",
    "C47_ord_total",
    "C47_ord_transitive"
   ],
   "note": ""
  },
  {
   "property": "C48",
   "status": "proved",
   "theorems": [
    "C48_hash"
   ],
   "note": ""
  },
  {
   "property": "C49",
   "status": "partial",
   "theorems": [
    "C49_expressions_partial",
    "C49_build_profiles_agree_partial",
    "C49_expressions_refuted",
    "C49_wrong_answer_refuted"
   ],
   "note": "Every expression tree that avoids the three operations refuted elsewhere (C03 products and C14 >= above 64 bits, C06 left shift by a multiple of 64). Without the restriction the statement is refuted: a panic, and a wrong answer."
  },
  {
   "property": "C50",
   "status": "partial",
   "theorems": [
    "C50_zero_width_unique",
    "C50_zero_width_partial",
    "C50_zero_width_refuted",
    "C50_concat_partial",
    "C50_extend_partial"
   ],
   "note": "What works, what panics and the width at which concatenation and extension start to work are all proved for both build profiles."
  },
  {
   "property": "C51",
   "status": "proved",
   "theorems": [
    "C51_try_from",
    "C51_equality"
   ],
   "note": ""
  },
  {
   "property": "C52",
   "status": "partial",
   "theorems": [
    "C52_set_bit_refuted",
    "C52_is_bit_set_partial",
    "C52_clear_bit_partial",
    "C52_panics_partial"
   ],
   "note": "False of the code: set_bit at a position at or above the width but inside the last word produces an ill-formed value (proved for every such width, value and position). is_bit_set returns false and clear_bit changes nothing there, and all three operations panic beyond the last word."
  },
  {
   "property": "C53",
   "status": "proved",
   "theorems": [
    "C53_reads",
    "C53_mutates",
    "C53_any_width"
   ],
   "note": ""
  },
  {
   "property": "C54",
   "status": "proved",
   "theorems": [
    "C54_arithmetic",
    "C54_tests",
    "C54_text",
    "C54_conversions",
    "C54_in_place",
    "C54_arrays",
    "C54_sequence"
   ],
   "note": "Proved for every modelled function that can depend on the profile, for all arguments, and for sequences of calls. The converse fails by design (debug builds panic more)."
  },
  {
   "property": "C55",
   "status": "partial",
   "theorems": [
    "C55_debug_partial",
    "C55_array_index_partial",
    "C55_array_data_partial",
    "C55_eq",
    "C55_release_refuted"
   ],
   "note": "Debug builds: proved for every operation. Release builds reject nothing: witnesses show is_equal finding different values equal and or returning an ill-formed value. == is proved total in both. C74 gives the exact outcome in release builds for every pair of widths."
  },
  {
   "property": "C56",
   "status": "partial",
   "theorems": [
    "C56_debug_partial",
    "C56_beyond_partial",
    "C56_beyond_refuted",
    "C56_reversed_refuted"
   ],
   "note": "Debug builds reject all ranges except msb = width (off by one in the assertion), release builds accept every range inside the last word. The exact outcome at and above the width is proved for both; a reversed range in a release build gives a slice of almost 2^32 bits. C75 lists exactly which ranges panic in release builds."
  },
  {
   "property": "C57",
   "status": "partial",
   "theorems": [
    "C57_debug_partial",
    "C57_extend_refuted",
    "C57_concat_refuted"
   ],
   "note": "Proved for debug builds; release builds wrap the width (witnesses for extension and concatenation give ill-formed values). C75 lists exactly which extensions and concatenations panic in release builds."
  },
  {
   "property": "C58",
   "status": "proved",
   "theorems": [
    "C58_widths",
    "C58_equal_widths",
    "C58_decided",
    "C58_by_value_up_to_64",
    "C58_not_by_value"
   ],
   "note": "Every pair of values is decided; the documented deviation from the order by value is witnessed by C58_not_by_value."
  },
  {
   "property": "C59",
   "status": "proved",
   "theorems": [
    "C59_laws",
    "C59_mul_laws",
    "C59_split_laws",
    "C59_shift_left_law"
   ],
   "note": "39 laws for every width, 7 laws of multiplication up to 64 bits (wider is todo!(), C03), 10 laws of slices, concatenation and extension, and the left shift law where C06 holds."
  },
  {
   "property": "C60",
   "status": "partial",
   "theorems": [
    "C60_reflexive",
    "C60_symmetric",
    "C60_transitive_partial",
    "C60_transitive_refuted"
   ],
   "note": "Reflexivity and symmetry proved. Transitivity is refuted for two sparse arrays with different defaults that equal the same dense array, and proved in all other combinations."
  },
  {
   "property": "C61",
   "status": "proved",
   "theorems": [
    "C61_programs",
    "C61_profiles"
   ],
   "note": "Operations are used where C03, C06 and C14 hold; the second theorem drops every restriction."
  },
  {
   "property": "C62",
   "status": "proved",
   "theorems": [
    "C62_again_always",
    "C62_size",
    "C62_again"
   ],
   "note": ""
  },
  {
   "property": "C63",
   "status": "proved",
   "theorems": [
    "C63_bit_vectors",
    "C63_injective",
    "C63_index",
    "C63_index_injective",
    "C63_interner",
    "C63_errors_arrays"
   ],
   "note": ""
  },
  {
   "property": "C64",
   "status": "proved",
   "theorems": [
    "C64_any_width",
    "C64_bit_vectors",
    "C64_arrays",
    "C64_contents"
   ],
   "note": "Over serde's data model; the data format itself is not modelled."
  },
  {
   "property": "C65",
   "status": "partial",
   "theorems": [
    "C65_bit_vector_refuted",
    "C65_array_refuted",
    "C65_ranges_partial",
    "C65_mask_partial"
   ],
   "note": "Refuted: the derived code checks neither the number of words nor the unused bits, so loaded data can be ill-formed or make select panic. Proved: the integer ranges, and that mask_msb repairs a bit-vector with the right number of words."
  },
  {
   "property": "C66",
   "status": "partial",
   "theorems": [
    "C66_set_bit_refuted",
    "C66_shift_left_refuted",
    "C66_parse_refuted",
    "C66_failed_assign_refuted",
    "C66_valid_partial",
    "C66_release",
    "C66_release_valid_partial"
   ],
   "note": "Refuted by set_bit beyond the width, shift_left by whole words, parsing numbers that do not fit, and a failed wide assign_from_str_radix. Proved for all trees of calls without these, and that release agrees whenever debug returns. In a release build values stay valid when no call would panic in a debug build."
  },
  {
   "property": "C67",
   "status": "proved",
   "theorems": [
    "C67_layout",
    "C67_repair"
   ],
   "note": ""
  },
  {
   "property": "C68",
   "status": "proved",
   "theorems": [
    "C68_concat",
    "C68_slice",
    "C68_shift_right",
    "C68_arithmetic_shift_right",
    "C68_shift_left",
    "C68_zero_extend",
    "C68_sign_extend",
    "C68_is_negative",
    "C68_bitwise",
    "C68_bits",
    "C68_eq",
    "C68_order"
   ],
   "note": ""
  },
  {
   "property": "C69",
   "status": "proved",
   "theorems": [
    "C69_ring",
    "C69_ring_exact",
    "C69_compare",
    "C69_compare_unsigned",
    "C69_bitwise",
    "C69_shift_right",
    "C69_layout"
   ],
   "note": ""
  },
  {
   "property": "C70",
   "status": "proved",
   "theorems": [
    "C70_calls",
    "C70_questions",
    "C70_calls_return",
    "C70_questions_return"
   ],
   "note": ""
  },
  {
   "property": "C71",
   "status": "partial",
   "theorems": [
    "C71_new_dense",
    "C71_new_sparse",
    "C71_select",
    "C71_store",
    "C71_wide_select_partial",
    "C71_wide_store_partial",
    "C71_wide_refuted",
    "C71_make_dense",
    "C71_into_sparse",
    "C71_entries",
    "C71_is_equal"
   ],
   "note": "Exact for every call except select and store with index widths above 64 bits: there the calls that must panic and those that never panic are proved, and C71_wide_refuted shows that the calls in between (another key with the same hash) depend on the hash function."
  },
  {
   "property": "C72",
   "status": "partial",
   "theorems": [
    "C72_words_partial",
    "C72_bits_partial",
    "C72_wide_dense_partial",
    "C72_bits_refuted",
    "C72_equal_refuted",
    "C72_wide_dense_refuted",
    "C72_wide_sparse_refuted",
    "C72_hidden_refuted"
   ],
   "note": "Refuted by dense arrays of one-bit elements (indices modulo 2^32, wider elements count as 0), by arrays of elements above 64 bits (ill-formed or wrongly sized elements, wrapped indices), by stores beyond the last index of sparse arrays, and by unused bits that == compares. Proved: the exact contents and panics after any such history for elements of at most 64 bits, for dense one-bit arrays, and for dense wide arrays while positions fit 64 bits."
  },
  {
   "property": "C73",
   "status": "proved",
   "theorems": [
    "C73_assign",
    "C73_parse",
    "C73_bit_str",
    "C73_hex_str",
    "C73_meaning"
   ],
   "note": ""
  },
  {
   "property": "C74",
   "status": "proved",
   "theorems": [
    "C74_operations",
    "C74_tests",
    "C74_assign",
    "C74_equal_widths"
   ],
   "note": ""
  },
  {
   "property": "C75",
   "status": "proved",
   "theorems": [
    "C75_calls",
    "C75_questions",
    "C75_no_new_panics",
    "C75_no_new_panics_questions",
    "C75_big_uint",
    "C75_big_int"
   ],
   "note": ""
  },
  {
   "property": "C76",
   "status": "proved",
   "theorems": [
    "C76_ignored",
    "C76_arithmetic",
    "C76_slice",
    "C76_bits_and_sign",
    "C76_mask",
    "C76_shift_right",
    "C76_shift_left",
    "C76_bitwise",
    "C76_compare",
    "C76_extend",
    "C76_concat",
    "C76_numbers",
    "C76_sensitive"
   ],
   "note": ""
  },
  {
   "property": "C77",
   "status": "proved",
   "theorems": [
    "C77_debug",
    "C77_release",
    "C77_all",
    "C77_compare"
   ],
   "note": ""
  },
  {
   "property": "C78",
   "status": "proved",
   "theorems": [
    "C78_answers",
    "C78_programs"
   ],
   "note": ""
  },
  {
   "property": "C79",
   "status": "partial",
   "theorems": [
    "C79_refuted",
    "C79_texts_partial",
    "C79_shift_left_partial",
    "C79_big_partial",
    "C79_round_trips",
    "C79_bit_str_partial",
    "C79_decimal_partial",
    "C79_short"
   ],
   "note": "Refuted: the left shift test fails for amounts that are multiples of 64, the multiplication test above 64 bits (the project ignores it), the binary text test for signed texts with a multiple of 64 digits, the decimal text test above 128 bits. For these four tests C79_shift_left_partial, C79_big_partial, C79_bit_str_partial and C79_decimal_partial say exactly on which inputs they pass; all other tests pass on all inputs. C79_short: the generators never reach the failing inputs."
  },
  {
   "property": "C80",
   "status": "proved",
   "theorems": [
    "C80_kind",
    "C80_idempotent"
   ],
   "note": ""
  },
  {
   "property": "C81",
   "status": "proved",
   "theorems": [
    "C81_same_register",
    "C81_same_parse",
    "C81_register",
    "C81_history",
    "C81_store",
    "C81_array",
    "C81_array_history",
    "C81_interner"
   ],
   "note": ""
  },
  {
   "property": "C82",
   "status": "proved",
   "theorems": [
    "C82_debug",
    "C82_release"
   ],
   "note": ""
  },
  {
   "property": "C83",
   "status": "proved",
   "theorems": [
    "C83_debug",
    "C83_release"
   ],
   "note": ""
  },
  {
   "property": "C84",
   "status": "proved",
   "theorems": [
    "C84_bit_vectors",
    "C84_arrays",
    "C84_streams",
    "C84_truncated_bit_vector",
    "C84_truncated_array",
    "C84_unique",
    "C84_any_stream",
    "C84_accepted_bit_vectors",
    "C84_accepted_arrays"
   ],
   "note": ""
  },
  {
   "property": "C85",
   "status": "proved",
   "theorems": [
    "C85_debug",
    "C85_release"
   ],
   "note": ""
  },
  {
   "property": "C86",
   "status": "proved",
   "theorems": [
    "C86_release"
   ],
   "note": ""
  },
  {
   "property": "C87",
   "status": "proved",
   "theorems": [
    "C87_programs",
    "C87_known",
    "C87_agrees"
   ],
   "note": ""
  },
  {
   "property": "C88",
   "status": "proved",
   "theorems": [
    "C88_programs",
    "C88_agrees"
   ],
   "note": ""
  },
  {
   "property": "C89",
   "status": "proved",
   "theorems": [
    "C89_programs",
    "C89_frame"
   ],
   "note": ""
  },
  {
   "property": "C90",
   "status": "proved",
   "theorems": [
    "C90_bit_vectors",
    "C90_injective",
    "C90_index",
    "C90_index_injective",
    "C90_errors_arrays"
   ],
   "note": ""
  },
  {
   "property": "C91",
   "status": "proved",
   "theorems": [
    "C91_programs",
    "C91_library",
    "C91_words",
    "C91_silent"
   ],
   "note": ""
  },
  {
   "property": "C92",
   "status": "proved",
   "theorems": [
    "C92_exactly",
    "C92_programs",
    "C92_certain",
    "C92_low"
   ],
   "note": ""
  },
  {
   "property": "C93",
   "status": "proved",
   "theorems": [
    "C93_exactly",
    "C93_plain"
   ],
   "note": ""
  },
  {
   "property": "C94",
   "status": "proved",
   "theorems": [
    "C94_exactly",
    "C94_agrees",
    "C94_arrays",
    "C94_interner_wraps",
    "C94_fetch"
   ],
   "note": ""
  },
  {
   "property": "C95",
   "status": "proved",
   "theorems": [
    "C95_assign",
    "C95_parse",
    "C95_bit_str",
    "C95_hex_str",
    "C95_short",
    "C95_never",
    "C95_silent",
    "C95_torn"
   ],
   "note": ""
  },
  {
   "property": "C96",
   "status": "proved",
   "theorems": [
    "C96_unsigned",
    "C96_signed",
    "C96_small",
    "C96_cut",
    "C96_vanishes"
   ],
   "note": ""
  },
  {
   "property": "C97",
   "status": "proved",
   "theorems": [
    "C97_exactly",
    "C97_agrees",
    "C97_wider",
    "C97_fetch",
    "C97_torn",
    "C97_vanishes"
   ],
   "note": ""
  },
  {
   "property": "C98",
   "status": "proved",
   "theorems": [
    "C98_loadable",
    "C98_questions",
    "C98_bit",
    "C98_negative",
    "C98_owned_equal",
    "C98_owned_equal_debug",
    "C98_order",
    "C98_hash",
    "C98_reference_equal",
    "C98_reference_equal_odd",
    "C98_equal",
    "C98_greater",
    "C98_greater_or_equal",
    "C98_debug_compares",
    "C98_bitwise",
    "C98_add",
    "C98_sub",
    "C98_mul",
    "C98_not",
    "C98_negate",
    "C98_slice",
    "C98_zero_extend",
    "C98_shift_left",
    "C98_shift_right",
    "C98_arith_shift_right",
    "C98_sign_extend",
    "C98_concat",
    "C98_greater_signed",
    "C98_greater_or_equal_signed",
    "C98_bool",
    "C98_i64",
    "C98_big_int",
    "C98_bytes",
    "C98_bit_str",
    "C98_hex_str",
    "C98_dec_str",
    "C98_bits_changed",
    "C98_assign",
    "C98_own_values"
   ],
   "note": ""
  },
  {
   "property": "C99",
   "status": "proved",
   "theorems": [
    "C99_loadable",
    "C99_select",
    "C99_store",
    "C99_equal",
    "C99_clear",
    "C99_history",
    "C99_sparse_loadable",
    "C99_sparse_select",
    "C99_sparse_store",
    "C99_sparse_store_loaded",
    "C99_sparse_default",
    "C99_sparse_equal",
    "C99_sparse_clear",
    "C99_sparse_entries",
    "C99_sparse_history",
    "C99_densify",
    "C99_densify_big",
    "C99_densify_wide",
    "C99_sparsify",
    "C99_sparsify_bytes",
    "C99_sparsify_bits",
    "C99_sparsify_wide",
    "C99_array_loadable"
   ],
   "note": ""
  }
 ]
}