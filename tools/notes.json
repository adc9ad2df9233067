{
 "C03": "Refuted above 64 bits (todo!() in the code); proved for 1..64 bits, and every wider call is proved to panic.",
 "C06": "Refuted when the amount is a non-zero multiple of 64 and the width is not: bits above the width stay set. The exact condition under which the claim holds is proved as an equivalence, and the low w bits are right for every amount.",
 "C14": "Refuted above 64 bits: the multi-word path of >= and <= uses the strict comparison, so a >= a is false. Proved for 1..64 bits; above 64 bits both are proved to be the strict comparison.",
 "C18": "Refuted: for widths above 64 that are not a multiple of 64 every representable negative value gives None. The exact condition is proved as an equivalence (C18_to_i64_exact) and the failing round trips are characterised.",
 "C23": "Decimal text is exact below 2^128 and round-trips up to 128 bits. The code panics (todo!) when printing values >= 2^128 and when parsing decimal text at widths above 128; in debug builds the u32 product width*3 overflows for widths >= 2^32/3. The panics are proved for all inputs of those kinds.",
 "C24": "False of the code for the minimum value and for width 1; witnesses are proved, and the iff theorems say exactly for which widths and values the text denotes the signed value. The text theorems fix the exact text: sign, number of digits and the digits.",
 "C26": "False of the code: no width check up to 128 bits, '-+5' and '' accepted, hexadecimal text longer than the words panics above 128 bits, decimal panics above 128 bits. The remaining cases are proved, including which error kind is reported up to 128 bits. C73 gives the outcome for every text, radix and target.",
 "C27": "False of the code above 128 bits: high words keep stale contents and an invalid digit leaves a half-written value. Proved up to 128 bits for every non-empty text; the exact stale result is proved above. C73 gives the outcome for every text, radix and target.",
 "C36": "False of the code for values wider than 64 bits (they are never recognised) and for values of width 0; the partial theorem is an iff that names exactly this restriction, for every history.",
 "C52": "False of the code: set_bit at a position at or above the width but inside the last word produces an ill-formed value (proved for every such width, value and position). is_bit_set returns false and clear_bit changes nothing there, and all three operations panic beyond the last word.",
 "C37": "Proved for every shape whose words can be addressed (and fewer than 2^32 one-bit elements). Refuted for 2^32 one-bit elements: the constructor accepts them, truncates the element count to u32 and every read panics.",
 "C38": "Proved for index widths up to 64. Above, looking up an existing entry calls Borrow::borrow, which is todo!(): reading back a stored value panics (refuted for every lookup strategy). What such an array does return is proved right for every history.",
 "C39": "Every result of make_dense is proved right. It returns for data widths up to 64 and in release builds; debug builds are proved to panic for wider data unless all elements are the default.",
 "C40": "Every result is proved right. With 2 to 8 bits per element the conversion is proved to panic exactly when some element is 8 or more (count array of u8::BITS entries).",
 "C42": "Proved for every reachable array with index width >= 1; for index width 0 with a stored element the iterator panics (from_u64 with width 0).",
 "C43": "Some(true) always means equal contents, None always different shapes, and Some(false) means different contents whenever one side is dense. Two sparse arrays with equal contents but different defaults compare unequal (refuted; exact characterisation proved). Debug builds panic for mixed storage with data wider than 64 bits (see C39). Sparse arrays whose entries together are fewer than the indices compare equal exactly when the contents agree.",
 "C45": "Acceptance and refusal are characterised exactly in debug and release builds. Refuted: release builds reduce the index width modulo 64, so an array with 64-bit indices is accepted with one element; above 64 bits per element the limit counts words instead of bytes (8 GiB accepted), and 2^32 one-bit elements are accepted but unusable.",
 "C46": "Exact for fraction widths below 64 (signed: widths up to 64, wider negative values give None). From 64 fraction bits on, debug builds panic and release builds divide by the wrong power of two (characterised exactly).",
 "C49": "Every expression tree that avoids the three operations refuted elsewhere (C03 products and C14 >= above 64 bits, C06 left shift by a multiple of 64). Without the restriction the statement is refuted: a panic, and a wrong answer.",
 "C50": "What works, what panics and the width at which concatenation and extension start to work are all proved for both build profiles.",
 "C54": "Proved for every modelled function that can depend on the profile, for all arguments, and for sequences of calls. The converse fails by design (debug builds panic more).",
 "C55": "Debug builds: proved for every operation. Release builds reject nothing: witnesses show is_equal finding different values equal and or returning an ill-formed value. == is proved total in both. C74 gives the exact outcome in release builds for every pair of widths.",
 "C56": "Debug builds reject all ranges except msb = width (off by one in the assertion), release builds accept every range inside the last word. The exact outcome at and above the width is proved for both; a reversed range in a release build gives a slice of almost 2^32 bits. C75 lists exactly which ranges panic in release builds.",
 "C57": "Proved for debug builds; release builds wrap the width (witnesses for extension and concatenation give ill-formed values). C75 lists exactly which extensions and concatenations panic in release builds.",
 "C58": "Every pair of values is decided; the documented deviation from the order by value is witnessed by C58_not_by_value.",
 "C59": "39 laws for every width, 7 laws of multiplication up to 64 bits (wider is todo!(), C03), 10 laws of slices, concatenation and extension, and the left shift law where C06 holds.",
 "C60": "Reflexivity and symmetry proved. Transitivity is refuted for two sparse arrays with different defaults that equal the same dense array, and proved in all other combinations.",
 "C34": "For every history; C34_limit shows that the bound on the stored words cannot be relaxed, C34_release covers values of width 0, which a debug build rejects (C34_zero_width_debug).",
 "C61": "Operations are used where C03, C06 and C14 hold; the second theorem drops every restriction.",
 "C65": "Refuted: the derived code checks neither the number of words nor the unused bits, so loaded data can be ill-formed or make select panic. Proved: the integer ranges, and that mask_msb repairs a bit-vector with the right number of words.",
 "C64": "Over serde's data model; the data format itself is not modelled.",
 "C66": "Refuted by set_bit beyond the width, shift_left by whole words, parsing numbers that do not fit, and a failed wide assign_from_str_radix. Proved for all trees of calls without these, and that release agrees whenever debug returns. In a release build values stay valid when no call would panic in a debug build.",
 "C71": "Exact for every call except select and store with index widths above 64 bits: there the calls that must panic and those that never panic are proved, and C71_wide_refuted shows that the calls in between (another key with the same hash) depend on the hash function.",
 "C72": "Refuted by dense arrays of one-bit elements (indices modulo 2^32, wider elements count as 0), by arrays of elements above 64 bits (ill-formed or wrongly sized elements, wrapped indices), by stores beyond the last index of sparse arrays, and by unused bits that == compares. Proved: the exact contents and panics after any such history for elements of at most 64 bits, for dense one-bit arrays, and for dense wide arrays while positions fit 64 bits.",
 "C79": "Refuted: the left shift test fails for amounts that are multiples of 64, the multiplication test above 64 bits (the project ignores it), the binary text test for signed texts with a multiple of 64 digits, the decimal text test above 128 bits. For these four tests C79_shift_left_partial, C79_big_partial, C79_bit_str_partial and C79_decimal_partial say exactly on which inputs they pass; all other tests pass on all inputs. C79_short: the generators never reach the failing inputs."
}